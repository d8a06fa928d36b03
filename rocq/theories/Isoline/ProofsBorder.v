(** No isoline ends inside the grid. *)
From Coq Require Import ZArith Bool List Lia Arith Reals.
From Flocq Require Import Core.Core IEEE754.BinarySingleNaN.
From Verif.Base Require Import Num F64 F32.
From Verif.Isoline Require Import Model Spec Proofs ProofsGrid.
Import ListNotations.
Local Open Scope Z_scope.

(** * Points of lines are points of segments *)
Section Points.
Context {P : Type}.
Variable peq : P -> P -> bool.
Variable Q : P -> Prop.

Lemma Forall_rev_iff (l : list P) : Forall Q (rev l) <-> Forall Q l.
Proof. rewrite !Forall_forall. split; intros H x Hx; apply H; [rewrite <- in_rev|rewrite in_rev]; assumption. Qed.

Lemma merge_lines_Q before dst after side r :
  Forall long before -> Forall long after ->
  Forall (Forall Q) before -> Forall Q dst -> Forall (Forall Q) after ->
  merge_lines peq before dst after side = Some r -> Forall (Forall Q) r.
Proof.
  intros Lb La Hb Hd Ha Hm. unfold merge_lines in Hm.
  destruct (if side then front dst else back dst) as [p|] eqn:Hp; [|discriminate].
  pose proof (merge_into_shape peq p side dst before Lb) as S1.
  pose proof (merge_into_shape peq p side dst after La) as S2.
  assert (JOIN : forall ls d o, Forall (Forall Q) ls ->
    (exists a l b, ls = a ++ l :: b /\ o = a ++ b /\
      exists f k, front l = Some f /\ back l = Some k /\
        ((peq f p = true /\ d = join_front side dst l) \/
         (peq k p = true /\ d = join_back side dst l))) -> Forall Q d /\ Forall (Forall Q) o).
  { intros ls d o Hls (a & l & b & -> & -> & f & k & _ & _ & H).
    apply Forall_app in Hls as (A & B). inversion B; subst.
    split; [|apply Forall_app; auto].
    destruct H as [(_ & ->)|(_ & ->)]; unfold join_front, join_back; destruct side;
      apply Forall_app; split; auto; apply Forall_rev_iff; assumption. }
  destruct (merge_into peq p side dst before) as [| |d o]; [discriminate| |].
  - destruct (merge_into peq p side dst after) as [| |d o]; [discriminate| |]; injection Hm as <-.
    + apply Forall_app; auto.
    + destruct (JOIN after d o Ha S2). apply Forall_app; auto.
  - injection Hm as <-. destruct (JOIN before d o Hb S1). apply Forall_app; auto.
Qed.

Lemma commit_from_Q p1 p2 all ls : forall before r,
  Q p1 -> Q p2 -> Forall long before -> Forall long ls -> all = before ++ ls ->
  Forall (Forall Q) all ->
  commit_from peq before ls all p1 p2 = Some r -> Forall (Forall Q) r.
Proof.
  induction ls as [|l ls IH]; intros before r Q1 Q2 Hb Hls Hall HQ Hc.
  - simpl in Hc. injection Hc as <-. constructor; [repeat constructor; assumption|assumption].
  - inversion Hls as [|? ? Hl Hls']; subst. cbn [commit_from] in Hc.
    destruct (long_front l Hl) as (f & Hf). destruct (long_back l Hl) as (b & Hbk).
    rewrite Hf, Hbk in Hc.
    pose proof HQ as HQ'. apply Forall_app in HQ as (A & B). inversion B; subst.
    destruct (peq f p1); [|destruct (peq f p2); [|destruct (peq b p1); [|destruct (peq b p2)]]];
      try (eapply merge_lines_Q; [| | | | |exact Hc]; try assumption;
           try (constructor; assumption); apply Forall_app; auto).
    apply (IH (before ++ [l]) r); try assumption; [apply Forall_app; auto|rewrite <- app_assoc; reflexivity].
Qed.

Lemma commit_all_Q segs : forall ls r,
  Forall (fun s => Q (fst s) /\ Q (snd s)) segs -> Forall long ls -> Forall (Forall Q) ls ->
  commit_all peq ls segs = Some r -> Forall (Forall Q) r.
Proof.
  induction segs as [|(p1, p2) segs IH]; intros ls r Hs Hl HQ H; cbn [commit_all] in H.
  - injection H as <-. assumption.
  - unfold commit_segment in H. inversion Hs as [|? ? (Q1 & Q2) Hs']; subst.
    destruct (commit_from peq [] ls ls p1 p2) as [ls'|] eqn:E; [|discriminate].
    apply (IH ls' r); try assumption.
    + destruct (commit_from_spec peq (fun _ : P => tt) (fun a b : unit => left (match a, b with tt, tt => eq_refl end))
                 (fun _ _ _ => eq_refl) p1 p2 ls ls [] (Forall_nil _) Hl eq_refl) as (r' & R1 & R2 & _).
      congruence.
    + eapply commit_from_Q with (before := []); [| | | | | |exact E]; auto.
Qed.
End Points.

(** * Parity sums over the grid *)

Fixpoint xs (n : nat) (f : nat -> bool) : bool :=
  match n with O => false | S m => xorb (xs m f) (f m) end.

Lemma xs_ext n f g : (forall k, (k < n)%nat -> f k = g k) -> xs n f = xs n g.
Proof. induction n as [|n IH]; intros H; [reflexivity|]. simpl. rewrite IH, H; auto. Qed.

Lemma xs_xor n f g : xs n (fun k => xorb (f k) (g k)) = xorb (xs n f) (xs n g).
Proof. induction n as [|n IH]; [reflexivity|]. simpl. rewrite IH. destruct (xs n f), (xs n g), (f n), (g n); reflexivity. Qed.

Lemma xs_true n f : xs n f = true -> exists k, (k < n)%nat /\ f k = true.
Proof.
  induction n as [|n IH]; [discriminate|]. simpl. destruct (f n) eqn:E.
  - intros _. exists n. auto.
  - rewrite xorb_false_r. intros H. destruct (IH H) as (k & Hk & Hf). exists k. auto.
Qed.

Lemma xs_telescope n l r : (forall k, (S k < n)%nat -> r k = l (S k)) ->
  xs n (fun k => xorb (l k) (r k)) = match n with O => false | S m => xorb (l O) (r m) end.
Proof.
  induction n as [|n IH]; intros H; [reflexivity|]. simpl.
  rewrite IH by (intros k Hk; apply H; lia).
  destruct n as [|n]; [apply xorb_false_l|]. rewrite (H n) by lia.
  destruct (l O), (l (S n)), (r (S n)); reflexivity.
Qed.

Lemma xs_swap n m f : xs n (fun i => xs m (fun j => f i j)) = xs m (fun j => xs n (fun i => f i j)).
Proof.
  induction n as [|n IH]; simpl.
  - symmetry. induction m as [|m IHm]; [reflexivity|]. simpl. rewrite IHm. reflexivity.
  - rewrite IH, <- xs_xor. reflexivity.
Qed.

Section Grid.
Variable q : SpecFloat.spec_float * SpecFloat.spec_float.

Definition at_q (p : point) : bool := if place_dec (place p) q then true else false.
Definition ptspar (ps : list point) : bool := fold_right (fun p acc => xorb (at_q p) acc) false ps.

Lemma ptspar_app a b : ptspar (a ++ b) = xorb (ptspar a) (ptspar b).
Proof. induction a as [|p a IH]; simpl; [destruct (ptspar b); reflexivity|]. rewrite IH, xorb_assoc. reflexivity. Qed.

Lemma segspar_app a b : segspar at_q (a ++ b) = xorb (segspar at_q a) (segspar at_q b).
Proof.
  induction a as [|s a IH]; simpl; [destruct (segspar at_q b); reflexivity|].
  fold (segspar at_q (a ++ b)). rewrite IH, xorb_assoc. reflexivity.
Qed.

Lemma rect_par x y C z :
  let n := length (crossings x y C z) in (n = 0 \/ n = 2 \/ n = 4)%nat ->
  segspar at_q (rect_segments x y C z) = ptspar (crossings x y C z).
Proof.
  cbv zeta. unfold rect_segments. intros H.
  destruct (crossings x y C z) as [|a [|b [|c [|d [|e t]]]]]; simpl in *; try lia; try reflexivity.
  - unfold segpar; simpl. destruct (at_q a), (at_q b); reflexivity.
  - unfold segpar; simpl. destruct (at_q a), (at_q b), (at_q c), (at_q d); reflexivity.
Qed.

Definition xfold {A} (f : A -> bool) (l : list A) : bool := fold_right (fun a acc => xorb (f a) acc) false l.

Lemma segspar_flat_map {A} (f : A -> list (point * point)) l :
  segspar at_q (flat_map f l) = xfold (fun a => segspar at_q (f a)) l.
Proof. induction l as [|a l IH]; [reflexivity|]. simpl. rewrite segspar_app, IH. reflexivity. Qed.

Lemma xfold_ext {A} (f g : A -> bool) l : (forall a, In a l -> f a = g a) -> xfold f l = xfold g l.
Proof.
  induction l as [|a l IH]; intros H; [reflexivity|]. simpl.
  rewrite H by (left; reflexivity). rewrite IH; [reflexivity|]. intros; apply H; right; assumption.
Qed.

Lemma xfold_app {A} (f : A -> bool) a b : xfold f (a ++ b) = xorb (xfold f a) (xfold f b).
Proof. induction a as [|x a IH]; simpl; [destruct (xfold f b); reflexivity|]. rewrite IH, xorb_assoc. reflexivity. Qed.

Lemma xfold_zrange f n : xfold f (zrange n) = xs (Z.to_nat n) (fun k => f (Z.of_nat k)).
Proof.
  unfold zrange. induction (Z.to_nat n) as [|m IH]; [reflexivity|].
  rewrite seq_S, map_app, xfold_app, IH. simpl. rewrite xorb_false_r. reflexivity.
Qed.

Lemma xfold_true {A} (f : A -> bool) l : xfold f l = true -> exists a, In a l /\ f a = true.
Proof.
  induction l as [|a l IH]; simpl; [discriminate|]. destruct (f a) eqn:E; [exists a; auto|].
  rewrite xorb_false_l. intros H. destruct (IH H) as (b & Hb & Hf). exists b. auto.
Qed.

Lemma xfold_xor {A} (f g : A -> bool) l :
  xfold (fun a => xorb (f a) (g a)) l = xorb (xfold f l) (xfold g l).
Proof.
  induction l as [|a l IH]; [reflexivity|]. simpl. rewrite IH.
  destruct (f a), (g a), (xfold f l), (xfold g l); reflexivity.
Qed.

Lemma ptspar_true ps : ptspar ps = true -> exists p, In p ps /\ place p = q.
Proof.
  induction ps as [|p ps IH]; simpl; [discriminate|]. unfold at_q at 1.
  destruct (place_dec (place p) q) as [E|E]; [exists p; auto|].
  rewrite xorb_false_l. intros H. destruct (IH H) as (b & Hb & Hf). exists b. auto.
Qed.

Variable at_ : Z -> Z -> f32.
Variables xres yres : Z.
Variable lv : list f64.

Hypothesis Hx : 2 <= xres <= 2 ^ 24.
Hypothesis Hy : 2 <= yres <= 2 ^ 24.
Hypothesis Hreg : forall v i j, In v lv -> 0 <= i < xres -> 0 <= j < yres -> regular (f64_to_f32 v) (at_ i j).

Definition Lf i j := xfold (fun v => ptspar (crossing_left (f32_ofZ i) (f32_ofZ j) (f64_to_f32 v) (corners at_ [] i j))) lv.
Definition Rt i j := xfold (fun v => ptspar (crossing_right (f32_ofZ i) (f32_ofZ j) (f64_to_f32 v) (corners at_ [] i j))) lv.
Definition Tp i j := xfold (fun v => ptspar (crossing_top (f32_ofZ i) (f32_ofZ j) (f64_to_f32 v) (corners at_ [] i j))) lv.
Definition Bt i j := xfold (fun v => ptspar (crossing_bottom (f32_ofZ i) (f32_ofZ j) (f64_to_f32 v) (corners at_ [] i j))) lv.

Lemma all_segments_par :
  segspar at_q (all_segments at_ [] xres yres lv) =
  xs (Z.to_nat (xres - 1)) (fun i => xs (Z.to_nat (yres - 1)) (fun j =>
    let i := Z.of_nat i in let j := Z.of_nat j in
    xorb (xorb (Lf i j) (Rt i j)) (xorb (Bt i j) (Tp i j)))).
Proof.
  unfold all_segments. rewrite segspar_flat_map, xfold_zrange. apply xs_ext. intros i Hi.
  rewrite segspar_flat_map, xfold_zrange. apply xs_ext. intros j Hj. cbv zeta.
  rewrite segspar_flat_map. unfold Lf, Rt, Tp, Bt. rewrite <- !xfold_xor.
  apply xfold_ext. intros v Hv. rewrite rect_par.
  - unfold crossings. rewrite !ptspar_app.
    match goal with |- xorb ?a (xorb ?b (xorb ?c ?d)) = _ => destruct a, b, c, d; reflexivity end.
  - apply even_crossings; try reflexivity; apply Hreg; try assumption; lia.
Qed.

Lemma border_par :
  segspar at_q (all_segments at_ [] xres yres lv) =
  xorb (xs (Z.to_nat (yres - 1)) (fun j => xorb (Lf 0 (Z.of_nat j)) (Rt (xres - 2) (Z.of_nat j))))
       (xs (Z.to_nat (xres - 1)) (fun i => xorb (Bt (Z.of_nat i) 0) (Tp (Z.of_nat i) (yres - 2)))).
Proof.
  rewrite all_segments_par. cbv zeta.
  rewrite (xs_ext _ _ (fun i => xorb
    (xs (Z.to_nat (yres - 1)) (fun j => xorb (Lf (Z.of_nat i) (Z.of_nat j)) (Rt (Z.of_nat i) (Z.of_nat j))))
    (xs (Z.to_nat (yres - 1)) (fun j => xorb (Bt (Z.of_nat i) (Z.of_nat j)) (Tp (Z.of_nat i) (Z.of_nat j))))))
    by (intros; apply xs_xor).
  rewrite xs_xor. f_equal.
  - rewrite xs_swap. apply xs_ext. intros j Hj.
    rewrite (xs_telescope _ (fun i => Lf (Z.of_nat i) (Z.of_nat j)) (fun i => Rt (Z.of_nat i) (Z.of_nat j))).
    + destruct (Z.to_nat (xres - 1)) as [|m] eqn:E; [lia|]. f_equal. f_equal. lia.
    + intros k Hk. unfold Lf, Rt. apply xfold_ext. intros v Hv.
      replace (Z.of_nat (S k)) with (Z.of_nat k + 1) by lia.
      destruct (shared_vertical at_ [] (Z.of_nat k) (Z.of_nat j) (f32_ofZ (Z.of_nat j)) (f64_to_f32 v)) as (_ & _ & H);
        [lia|]. rewrite H; [reflexivity| |]; apply Hreg; try assumption; lia.
  - apply xs_ext. intros i Hi.
    rewrite (xs_telescope _ (fun j => Bt (Z.of_nat i) (Z.of_nat j)) (fun j => Tp (Z.of_nat i) (Z.of_nat j))).
    + destruct (Z.to_nat (yres - 1)) as [|m] eqn:E; [lia|]. f_equal. f_equal. lia.
    + intros k Hk. unfold Bt, Tp. apply xfold_ext. intros v Hv.
      replace (Z.of_nat (S k)) with (Z.of_nat k + 1) by lia.
      destruct (shared_horizontal at_ [] (Z.of_nat i) (Z.of_nat k) (f32_ofZ (Z.of_nat i)) (f64_to_f32 v)) as (_ & _ & H);
        [lia|intros g []|]. rewrite H; [reflexivity| |]; apply Hreg; try assumption; lia.
Qed.

Lemma border_point :
  segspar at_q (all_segments at_ [] xres yres lv) = true ->
  exists p, place p = q /\ on_border xres yres p.
Proof.
  rewrite border_par. intros H.
  assert (H' : xs (Z.to_nat (yres - 1)) (fun j => xorb (Lf 0 (Z.of_nat j)) (Rt (xres - 2) (Z.of_nat j))) = true \/
          xs (Z.to_nat (xres - 1)) (fun i => xorb (Bt (Z.of_nat i) 0) (Tp (Z.of_nat i) (yres - 2))) = true).
  { match type of H with xorb ?a ?b = true => destruct a, b; auto; discriminate end. }
  clear H.
  assert (PX : forall a b, xorb a b = true -> a = true \/ b = true) by (intros [] []; auto; discriminate).
  destruct H' as [H|H]; apply xs_true in H as (k & Hk & H); apply PX in H as [H|H];
    apply xfold_true in H as (v & Hv & H); apply ptspar_true in H as (p & Hp & Hq); exists p; (split; [assumption|]).
  - unfold crossing_left in Hp. destruct (inrange _ _ _); [|contradiction]. destruct Hp as [<-|[]].
    left. cbn [fst]. destruct (f32_ofZ_R 0); [lia|]. auto.
  - unfold crossing_right in Hp. destruct (inrange _ _ _); [|contradiction]. destruct Hp as [<-|[]].
    left. cbn [fst]. rewrite plus_one_Z by lia. replace (xres - 2 + 1) with (xres - 1) by lia.
    destruct (f32_ofZ_R (xres - 1)); [lia|]. auto.
  - unfold crossing_bottom in Hp. destruct (inrange _ _ _); [|contradiction]. destruct Hp as [<-|[]].
    right. cbn [snd]. destruct (f32_ofZ_R 0); [lia|]. auto.
  - unfold crossing_top in Hp. destruct (inrange _ _ _); [|contradiction]. destruct Hp as [<-|[]].
    right. cbn [snd]. rewrite plus_one_Z by lia. replace (yres - 2 + 1) with (yres - 1) by lia.
    destruct (f32_ofZ_R (yres - 1)); [lia|]. auto.
Qed.

End Grid.

Lemma plain_R (x y : f32) : plain x = plain y -> is_finite x = is_finite y /\ B2R x = B2R y.
Proof.
  destruct x as [s|[|]| |s m e H], y as [s'|[|]| |s' m' e' H']; simpl; intros E; try discriminate;
    try (split; reflexivity).
  injection E as -> -> ->. split; reflexivity.
Qed.

Lemma on_border_place xres yres p p' : place p = place p' -> on_border xres yres p -> on_border xres yres p'.
Proof.
  unfold place, on_border. intros E.
  assert (E1 : plain (fst p) = plain (fst p')) by congruence.
  assert (E2 : plain (snd p) = plain (snd p')) by congruence.
  apply plain_R in E1 as (A1 & B1). apply plain_R in E2 as (A2 & B2).
  rewrite A1, B1, A2, B2. auto.
Qed.

Lemma point_par q a b : point_eq a b = true -> at_q q a = at_q q b.
Proof. intros H. apply point_eq_place in H. unfold at_q. rewrite H. reflexivity. Qed.

Lemma rect_points (Q : point -> Prop) x y C z :
  Forall Q (crossings x y C z) ->
  Forall (fun s => Q (fst s) /\ Q (snd s)) (rect_segments x y C z).
Proof.
  unfold rect_segments. intros H.
  destruct (crossings x y C z) as [|a [|b [|c [|d [|e t]]]]]; repeat constructor; simpl;
    repeat match goal with H : Forall _ (_ :: _) |- _ => inversion H; clear H; subst end; assumption.
Qed.

Theorem no_inner_end at_ xres yres lv ls l :
  2 <= xres <= 2 ^ 24 -> 2 <= yres <= 2 ^ 24 ->
  (forall v i j, In v lv -> 0 <= i < xres -> 0 <= j < yres ->
     moderate (at_ i j) /\ moderate (f64_to_f32 v) /\ Beqb (at_ i j) (f64_to_f32 v) = false) ->
  isolines at_ [] xres yres lv = Some ls -> In l ls ->
  exists f b, ends l = [f; b] /\
    (place f = place b \/ (on_border xres yres f /\ on_border xres yres b)).
Proof.
  intros Hx Hy HM Hiso Hin. unfold isolines in Hiso.
  assert (Hreg : forall v i j, In v lv -> 0 <= i < xres -> 0 <= j < yres -> regular (f64_to_f32 v) (at_ i j)).
  { intros v i j Hv Hi Hj. destruct (HM v i j Hv Hi Hj) as ((A & _) & (B & _) & C). repeat split; assumption. }
  assert (Hsolid : Forall (fun s => solid (fst s) /\ solid (snd s)) (all_segments at_ [] xres yres lv)).
  { unfold all_segments, zrange. rewrite Forall_forall. intros s Hs.
    apply in_flat_map in Hs as (i & Hi & Hs). apply in_flat_map in Hs as (j & Hj & Hs).
    apply in_flat_map in Hs as (v & Hv & Hs).
    apply in_map_iff in Hi as (ni & <- & Hi). apply in_map_iff in Hj as (nj & <- & Hj).
    apply in_seq in Hi. apply in_seq in Hj.
    assert (K : Forall (fun s => solid (fst s) /\ solid (snd s))
      (rect_segments (f32_ofZ (Z.of_nat ni)) (f32_ofZ (Z.of_nat nj)) (f64_to_f32 v) (corners at_ [] (Z.of_nat ni) (Z.of_nat nj)))).
    { apply rect_points. apply crossings_solid; try lia; try reflexivity.
      - destruct (HM v 0 0 Hv) as (_ & A & _); [lia|lia|assumption].
      - apply (HM v _ _ Hv); lia.
      - apply (HM v _ _ Hv); lia.
      - apply (HM v _ _ Hv); lia.
      - apply (HM v _ _ Hv); lia. }
    rewrite Forall_forall in K. apply K. assumption. }
  destruct (commit_all_spec point_eq place place_dec point_eq_place (all_segments at_ [] xres yres lv) [] (Forall_nil _))
    as (ls' & E & Hlong & _).
  rewrite Hiso in E. injection E as <-.
  pose proof (commit_all_apart point_eq point_eq_sym _ [] ls (Forall_nil _) (aa_nil _) Hiso) as Hap.
  pose proof (commit_all_Q point_eq solid _ [] ls Hsolid (Forall_nil _) (Forall_nil _) Hiso) as HQ.
  assert (Ll : long l) by (rewrite Forall_forall in Hlong; apply Hlong; assumption).
  destruct (long_front l Ll) as (f & Hf). destruct (long_back l Ll) as (b & Hb).
  exists f, b. pose proof (ends_spec l f b Hf Hb) as He. split; [assumption|].
  destruct (place_dec (place f) (place b)) as [E|N]; [left; assumption|right].
  assert (Ql : Forall solid l) by (rewrite Forall_forall in HQ; apply HQ; assumption).
  assert (Sf : solid f).
  { rewrite Forall_forall in Ql. apply Ql. destruct l; [discriminate|]. injection Hf as ->. left; reflexivity. }
  assert (Sb : solid b).
  { rewrite Forall_forall in Ql. apply Ql. apply back_spec in Hb as (l' & ->). apply in_app_iff. right; left; reflexivity. }
  apply in_split in Hin as (a & c & ->).
  apply all_apart_mid in Hap as (_ & Hap); [|apply point_eq_sym].
  assert (OTHERS : forall e, (e = f \/ e = b) -> solid e ->
            endspar (at_q (place e)) (a ++ c) = false).
  { intros e He' Se. clear - Hap Hlong He' Se He. 
    assert (Hlong' : Forall long (a ++ c)).
    { apply Forall_app in Hlong as (A & B). inversion B; subst. apply Forall_app; auto. }
    clear Hlong. induction (a ++ c) as [|m ms IH]; [reflexivity|].
    inversion Hap as [|? ? Hm Hms]; subst. inversion Hlong' as [|? ? Lm Lms]; subst.
    simpl. fold (endspar (at_q (place e)) ms). rewrite IH by assumption. rewrite xorb_false_r.
    destruct (long_front m Lm) as (mf & Hmf). destruct (long_back m Lm) as (mb & Hmb).
    unfold endpar. rewrite Hmf, Hmb. simpl. pose proof (ends_spec m mf mb Hmf Hmb) as Hem.
    assert (Z0 : forall x, In x (ends m) -> at_q (place e) x = false).
    { intros x Hx. unfold at_q. destruct (place_dec (place x) (place e)) as [E|]; [|reflexivity].
      exfalso. assert (K : point_eq e x = true) by (apply place_point_eq; [assumption|symmetry; assumption]).
      rewrite (Hm e x) in K; [discriminate| |assumption]. rewrite He. simpl. destruct He'; subst; auto. }
    rewrite !Z0 by (rewrite Hem; simpl; auto). reflexivity. }
  assert (BORDER : forall e, (e = f \/ e = b) -> solid e -> on_border xres yres e).
  { intros e He' Se.
    pose proof (commit_all_par point_eq (at_q (place e)) (point_par (place e)) _ [] _ (Forall_nil _) Hiso) as Hpar.
    rewrite endspar_mid, OTHERS, xorb_false_r in Hpar by assumption.
    assert (T : endpar (at_q (place e)) l = true).
    { unfold endpar. rewrite Hf, Hb. simpl. unfold at_q.
      destruct He' as [->| ->].
      - destruct (place_dec (place f) (place f)); [|congruence].
        destruct (place_dec (place b) (place f)); [congruence|reflexivity].
      - destruct (place_dec (place b) (place b)); [|congruence].
        destruct (place_dec (place f) (place b)); [congruence|reflexivity]. }
    rewrite T in Hpar. simpl in Hpar. rewrite xorb_false_r in Hpar. symmetry in Hpar.
    destruct (border_point (place e) at_ xres yres lv Hx Hy Hreg Hpar) as (p & Hp & Hbor).
    eapply on_border_place; eassumption. }
  split; apply BORDER; auto.
Qed.
