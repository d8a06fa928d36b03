(** Diffusive velocities, friction, radii and merging with turned axes. *)

From Coq Require Import ZArith Bool List Lia Reals Lra.
From Verif.Base Require Import Num.
From Verif.Body Require Import Model Spec.
From Verif.Vortex Require Import Model ProofsKernel.
From Verif.Map Require Import SpecSimilar SpecTurn ProofsTurn.
Import ListNotations.
Local Open Scope R_scope.

Section Turn.
Variables c s : R.
Hypothesis H1 : c * c + s * s = 1.
Notation rt := (rot c s).
Notation prt := (part_rot c s).
Notation art := (att_rot c s).
Variables (expf : R -> R) (tenth eight pi_ two_pi tiny : R).

Lemma vzero_rot (q : pnt) : clear_both tiny c s q -> vzero_ (K:=RNum) tiny (rt q) = vzero_ (K:=RNum) tiny q.
Proof. exact (ltb_iff _ _ _). Qed.

Lemma vortex_influence_rot v w S : clear_both tiny c s (vsub (pr v) (pr w)) ->
  vortex_influence (K:=RNum) expf eight tiny (prt v) (prt w) (rt (fst S), snd S) =
  (rt (fst (vortex_influence (K:=RNum) expf eight tiny v w S)), snd (vortex_influence (K:=RNum) expf eight tiny v w S)).
Proof.
  intros A. unfold vortex_influence. cbn [part_rot pr pg pe]. rewrite vsub_rot, vzero_rot by exact A.
  destruct (negb _); [reflexivity|]. destruct (vzero_ _ _); [reflexivity|]. rewrite vabs_rot by exact H1. cbv zeta.
  destruct (_ <? _)%num; [reflexivity|]. cbn [fst snd]. rewrite vscale_rot, vadd_rot. reflexivity.
Qed.

Lemma segment_influence_rot v w S : segment_influence (K:=RNum) expf eight (prt v) (art w) (rt (fst S), snd S) =
  let '(T, f) := segment_influence (K:=RNum) expf eight v w S in (rt (fst T), snd T, f).
Proof.
  unfold segment_influence. cbn [part_rot pr pg pe att_rot r dl]. rewrite vsub_rot, abs2_rot, rotl_rot by exact H1. cbv zeta.
  destruct (_ <? _)%num; [destruct S; reflexivity|]. cbn [fst snd]. rewrite vabs_rot, dot_rot, vscale_rot, vadd_rot by exact H1. reflexivity.
Qed.

Lemma sums_rot nb ws vs v : apart_both tiny c s vs v ->
  sums (K:=RNum) expf eight tiny nb (map art ws) (map prt vs) (prt v) =
  let '(S2, S1, (S3, S0)) := sums (K:=RNum) expf eight tiny nb ws vs v in (rt S2, S1, (rt S3, S0)).
Proof.
  intros A. unfold sums.
  assert (F : forall nb S, fold_left (fun S j => match nth_error (map prt vs) j with None => S
      | Some b => if (pg b =? nofZ 0)%num then S else vortex_influence (K:=RNum) expf eight tiny (prt v) b S end) nb (rt (fst S), snd S) =
    let T := fold_left (fun S j => match nth_error vs j with None => S
      | Some b => if (pg b =? nofZ 0)%num then S else vortex_influence (K:=RNum) expf eight tiny v b S end) nb S in (rt (fst T), snd T)).
  { clear nb. induction nb as [|j nb IH]; intros S; [reflexivity|]. cbn [fold_left]. cbv zeta in *. rewrite <- IH. f_equal.
    rewrite nth_error_map. destruct (nth_error vs j) as [b|] eqn:E; cbn [option_map]; [|reflexivity]. cbn [pg part_rot].
    destruct (_ =? _)%num; [reflexivity|].
    apply vortex_influence_rot. apply (A b). eapply nth_error_In; eauto. }
  assert (G : forall ws S, fold_left (fun S w => fst (segment_influence (K:=RNum) expf eight (prt v) w S)) (map art ws) (rt (fst S), snd S) =
    let T := fold_left (fun S w => fst (segment_influence (K:=RNum) expf eight v w S)) ws S in (rt (fst T), snd T)).
  { clear ws. induction ws as [|w ws IH]; intros S; [reflexivity|]. cbn [fold_left map]. cbv zeta in *. rewrite <- IH. f_equal.
    rewrite segment_influence_rot. destruct (segment_influence _ _ v w S) as [T f]. reflexivity. }
  specialize (F nb (vzero (K:=RNum), 0)). specialize (G ws (vzero (K:=RNum), 0)). cbv zeta in *. cbn [fst snd] in *.
  rewrite !rot_zero in *. change (@mkVec RNum (nofZ 0) (nofZ 0)) with (vzero (K:=RNum)). change (@nofZ RNum 0) with 0 in *.
  match type of F with ?l = _ => match goal with |- (?a, ?b) = _ => change a with l end end.
  rewrite F. match type of G with ?l = _ => match goal with |- (?a, ?b) = _ => change b with l end end. rewrite G. clear F G.
  destruct (fold_left _ nb _) as [S2 S1]. destruct (fold_left _ ws _) as [S3 S0]. reflexivity.
Qed.

Lemma vort_velocity_rot re nb ws vs v : apart_both tiny c s vs v ->
  vort_velocity (K:=RNum) expf tenth eight pi_ two_pi tiny re nb (map art ws) (map prt vs) (prt v) =
  rt (vort_velocity (K:=RNum) expf tenth eight pi_ two_pi tiny re nb ws vs v).
Proof.
  intros A. unfold vort_velocity. rewrite sums_rot by assumption.
  destruct (sums _ _ _ _ _ _ v) as [[S2 S1] [S3 S0]]. cbn [part_rot pg pv pe]. rewrite !vscale_rot, !vadd_rot. reflexivity.
Qed.

Lemma heat_velocity_rot prandtl re nb ws vs v : apart_both tiny c s vs v ->
  heat_velocity (K:=RNum) expf tenth eight tiny prandtl re nb (map art ws) (map prt vs) (prt v) =
  rt (heat_velocity (K:=RNum) expf tenth eight tiny prandtl re nb ws vs v).
Proof.
  intros A. unfold heat_velocity. rewrite sums_rot by assumption.
  destruct (sums _ _ _ _ _ _ v) as [[S2 S1] [S3 S0]]. cbn [part_rot pg pv pe]. rewrite vscale_rot, vadd_rot, !vdiv_rot, vadd_rot. reflexivity.
Qed.

Lemma friction_rot vs w : friction (K:=RNum) expf eight (map prt vs) (art w) = friction (K:=RNum) expf eight vs w.
Proof.
  unfold friction.
  match goal with |- fold_left ?F _ ?z = fold_left ?G _ ?z => assert (X : forall f, fold_left F (map prt vs) f = fold_left G vs f); [|apply X] end.
  induction vs as [|v vs IH]; intros f; [reflexivity|]. cbn [fold_left map]. rewrite <- IH. f_equal. cbn [pg part_rot].
  destruct (_ =? _)%num; [reflexivity|].
  pose proof (segment_influence_rot v w (vzero (K:=RNum), 0)) as X. cbn [fst snd] in X. rewrite rot_zero in X.
  change (@mkVec RNum (nofZ 0) (nofZ 0)) with (vzero (K:=RNum)). change (@nofZ RNum 0) with 0. rewrite X. destruct (segment_influence _ _ v w _) as [T g]. reflexivity.
Qed.

(** ** Radii and merging *)

Section Radii.
Variables (big tiny0 third merge_c : R).

Lemma dist2_rot p q : dist2 (K:=RNum) (rt p) (rt q) = dist2 p q.
Proof. unfold dist2. rewrite vsub_rot, abs2_rot by exact H1. reflexivity. Qed.

Lemma look_rot vs i b j : look (K:=RNum) (map prt vs) i b j = look vs i b j.
Proof.
  unfold look. rewrite !nth_error_map. destruct (nth_error vs i) as [a|]; cbn [option_map]; [|reflexivity].
  destruct (nth_error vs j) as [o|]; cbn [option_map]; [|reflexivity]. cbn [part_rot pg pr]. rewrite dist2_rot. reflexivity.
Qed.
Lemma scan_rot nb vs i : scan (K:=RNum) big nb (map prt vs) i = scan (K:=RNum) big nb vs i.
Proof. unfold scan. generalize (@mkBest RNum big None big None). induction nb as [|j nb IH]; intros b; [reflexivity|]. cbn [fold_left]. rewrite look_rot. apply IH. Qed.

Lemma merged_rot a b : merged (K:=RNum) (prt a) (prt b) = prt (merged a b).
Proof.
  unfold merged, part_rot. cbn [pr pg pv pe]. f_equal. destruct (Z.eqb _ _); [rewrite !vscale_rot, vadd_rot, vdiv_rot; reflexivity|].
  destruct (_ <? _)%num; reflexivity.
Qed.
Lemma set_nth_map {A B} (f : A -> B) n a l : set_nth n (f a) (map f l) = map f (set_nth n a l).
Proof. revert l. induction n as [|n IH]; intros [|b l]; cbn [set_nth map]; try reflexivity. rewrite IH. reflexivity. Qed.
Lemma merge_rot vs i j : merge (K:=RNum) (map prt vs) i j = map prt (merge vs i j).
Proof.
  unfold merge. rewrite !nth_error_map. destruct (nth_error vs i) as [a|]; cbn [option_map]; [|reflexivity].
  destruct (nth_error vs j) as [b|]; cbn [option_map]; [|reflexivity].
  rewrite merged_rot. change (emptied (prt b)) with (prt (emptied b)). rewrite !set_nth_map. reflexivity.
Qed.

Definition same_turned (f : list nat -> list (part RNum) -> nat -> option R -> R * list (part RNum) * nat) : Prop :=
  forall nb vs i crit, f nb (map prt vs) i crit = let '(e, vs', n) := f nb vs i crit in (e, map prt vs', n).

Lemma epsv_rot : same_turned (epsv (K:=RNum) big tiny0).
Proof.
  intros nb vs i crit. unfold epsv. rewrite scan_rot. destruct (lv1 _) as [j|]; [|reflexivity]. destruct (lv2 _) as [k|]; [|reflexivity].
  destruct crit as [q|]; [|reflexivity]. rewrite !nth_error_map.
  destruct (nth_error vs i) as [a|]; cbn [option_map]; [|reflexivity]. destruct (nth_error vs j) as [b|]; cbn [option_map]; [|reflexivity].
  destruct (nth_error vs k) as [d|]; cbn [option_map]; [|reflexivity]. cbn [part_rot pg].
  destruct (_ || _); [|reflexivity]. cbv zeta. rewrite merge_rot, scan_rot. reflexivity.
Qed.
Lemma epsh_rot : same_turned (epsh (K:=RNum) big tiny0).
Proof.
  intros nb vs i crit. unfold epsh. rewrite scan_rot. cbv zeta. destruct (_ || _); [reflexivity|].
  destruct crit as [q|]; [|reflexivity]. destruct (lv1 _) as [j|]; [|reflexivity].
  destruct (_ <? _)%num; [|reflexivity]. rewrite merge_rot, scan_rot. reflexivity.
Qed.

Lemma nearer_rot p l z : fold_left (nearer (K:=RNum) (rt p)) (map art l) (fst z, option_map art (snd z)) =
  (fst (fold_left (nearer p) l z), option_map art (snd (fold_left (nearer p) l z))).
Proof.
  revert z. induction l as [|a l IH]; intros z; [reflexivity|]. cbn [map fold_left]. rewrite <- IH. f_equal. unfold nearer.
  change (r (art a)) with (rt (r a)). rewrite dist2_rot. cbn [fst snd]. destruct (_ <? _)%num; destruct z; reflexivity.
Qed.
Lemma skim_rot p l : forall k z, skim (K:=RNum) (rt p) k (fst z, option_map art (snd z)) (map art l) =
  (fst (skim p k z l), option_map art (snd (skim p k z l))).
Proof.
  induction l as [|a l IH]; intros k z; [destruct z; reflexivity|]. cbn [map skim]. destruct k as [|k]; [|apply IH].
  change (r (art a)) with (rt (r a)). rewrite dist2_rot. cbn [fst]. destruct (_ <? _)%num; [|apply IH].
  apply (IH 0%nat (dist2 p (r a), Some a)).
Qed.
Lemma nearest_rot bs k : nearest (K:=RNum) big (map (map art) bs) (cell_rot c s k) (rt (centre k)) = option_map art (nearest (K:=RNum) big bs k (centre k)).
Proof.
  unfold nearest. cbn [cell_rot Vortex.Model.walls].
  pose proof (nearer_rot (centre k) (Vortex.Model.walls k) (big, None)) as N. cbn [fst snd option_map] in N. rewrite N. cbn [snd]. clear N.
  destruct (snd (fold_left (nearer (centre k)) _ _)) as [a|]; [reflexivity|]. cbn [option_map].
  assert (G : forall z, fold_left (skim (K:=RNum) (rt (centre k)) 0) (map (map art) bs) (fst z, option_map art (snd z)) =
    (fst (fold_left (skim (centre k) 0) bs z), option_map art (snd (fold_left (skim (centre k) 0) bs z)))).
  { induction bs as [|l bs IH]; intros z; [reflexivity|]. cbn [map fold_left]. rewrite skim_rot. apply IH. }
  specialize (G (big, None)). cbn [fst snd option_map] in G. rewrite G. reflexivity.
Qed.
Lemma criterion_rot m w p : criterion (K:=RNum) merge_c m (option_map art w) (rt p) = criterion (K:=RNum) merge_c m w p.
Proof.
  unfold criterion. destruct m; [|reflexivity]. destruct w as [a|]; cbn [option_map]; [|reflexivity].
  change (dl (art a)) with (rt (dl a)). change (r (art a)) with (rt (r a)). rewrite vsub_rot, vabs_rot, abs2_rot by exact H1. reflexivity.
Qed.
Lemma restriction_rot w : restriction (K:=RNum) third (option_map art w) = restriction (K:=RNum) third w.
Proof. destruct w as [a|]; [|reflexivity]. cbn [option_map restriction]. change (dl (art a)) with (rt (dl a)). rewrite vabs_rot by exact H1. reflexivity. Qed.

Lemma calc_one_rot eps nb crit low st i : same_turned eps ->
  calc_one (K:=RNum) eps nb crit low (map prt (fst st), snd st) i = let '(vs, n) := calc_one eps nb crit low st i in (map prt vs, n).
Proof.
  intros E. destruct st as [vs n]. unfold calc_one. cbn [fst snd]. rewrite nth_error_map. destruct (nth_error vs i) as [a|]; cbn [option_map]; [|reflexivity].
  cbn [part_rot pg]. destruct (_ =? _)%num; [reflexivity|]. rewrite E. destruct (eps nb vs i crit) as [[e vs'] m]. rewrite nth_error_map.
  destruct (nth_error vs' i) as [a'|]; cbn [option_map]; [|reflexivity]. cbn [part_rot pr pg pv]. rewrite <- set_nth_map. reflexivity.
Qed.
Lemma calc_epsilon_rot eps bs m cells vs : same_turned eps ->
  calc_epsilon (K:=RNum) big third merge_c eps (map (map art) bs) m (map (cell_rot c s) cells) (map prt vs) =
  let '(vs', n) := calc_epsilon (K:=RNum) big third merge_c eps bs m cells vs in (map prt vs', n).
Proof.
  intros E. unfold calc_epsilon.
  assert (G : forall st, fold_left (calc_cell (K:=RNum) big third merge_c eps (map (map art) bs) m) (map (cell_rot c s) cells) (map prt (fst st), snd st) =
    let '(vs', n) := fold_left (calc_cell (K:=RNum) big third merge_c eps bs m) cells st in (map prt vs', n)).
  { induction cells as [|k cells IH]; intros st; [destruct st; reflexivity|]. cbn [map fold_left].
    assert (C : calc_cell (K:=RNum) big third merge_c eps (map (map art) bs) m (map prt (fst st), snd st) (cell_rot c s k) =
      let '(vs', n) := calc_cell (K:=RNum) big third merge_c eps bs m st k in (map prt vs', n)).
    { unfold calc_cell. change (centre (cell_rot c s k)) with (rt (centre k)). rewrite nearest_rot, criterion_rot, restriction_rot.
      cbn [cell_rot near mine]. generalize (criterion (K:=RNum) merge_c m (nearest (K:=RNum) big bs k (centre k)) (centre k)) (restriction (K:=RNum) third (nearest (K:=RNum) big bs k (centre k))).
      intros q low. revert st. induction (mine k) as [|i l IHl]; intros st; [destruct st; reflexivity|]. cbn [fold_left]. rewrite calc_one_rot by exact E.
      destruct (calc_one eps (near k) q low st i) as [vs' n]. exact (IHl (vs', n)). }
    rewrite C. destruct (calc_cell (K:=RNum) big third merge_c eps bs m st k) as [vs' n]. exact (IH (vs', n)). }
  exact (G (vs, 0%nat)).
Qed.
End Radii.
End Turn.
