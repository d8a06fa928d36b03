(** Diffusive velocities, friction, radii and merging in a mirror. *)

From Coq Require Import ZArith Bool List Lia Reals Lra.
From Verif.Base Require Import Num.
From Verif.Body Require Import Model Spec.
From Verif.Vortex Require Import Model ProofsKernel.
From Verif.Map Require Import Model SpecSimilar SpecMirror ProofsTurnDiff ProofsMirror.
Import ListNotations.
Local Open Scope R_scope.

(** Vortices and heat at once: the strength is kept or turned. *)
Definition mirror_of (k : R) (f : part RNum -> part RNum) : Prop :=
  (k = 1 \/ k = - (1)) /\ forall o, f o = @mkPart RNum (mir (pr o)) (k * pg o) (mir (pv o)) (pe o).
Lemma mirror_vort : mirror_of (- (1)) vort_mir.
Proof. split; [right; reflexivity|]. intros o. unfold vort_mir. f_equal. num_ring. Qed.
Lemma mirror_part : mirror_of 1 part_mir.
Proof. split; [left; reflexivity|]. intros o. unfold part_mir. f_equal. num_ring. Qed.

Lemma sign_opp g : sign (K:=RNum) (- g) = (- sign (K:=RNum) g)%Z.
Proof.
  unfold sign. change (@nltb RNum) with Rltb. unr. change (Num.T RNum) with R in *.
  destruct (Rtotal_order g 0) as [H|[H|H]].
  - rewrite (proj2 (Rltb_true 0 (- g))), (proj2 (Rltb_false 0 g)), (proj2 (Rltb_true g 0)) by lra. reflexivity.
  - rewrite (proj2 (Rltb_false 0 (- g))), (proj2 (Rltb_false 0 g)), (proj2 (Rltb_false g 0)), (proj2 (Rltb_false (- g) 0)) by lra. reflexivity.
  - rewrite (proj2 (Rltb_false 0 (- g))), (proj2 (Rltb_true 0 g)), (proj2 (Rltb_true (- g) 0)) by lra. reflexivity.
Qed.

Section Mirror.
Variables (k : R) (f : part RNum -> part RNum).
Hypothesis HF : mirror_of k f.

Lemma f_pr o : pr (f o) = mir (pr o).
Proof. rewrite (proj2 HF). reflexivity. Qed.
Lemma f_pg o : pg (f o) = k * pg o.
Proof. rewrite (proj2 HF). reflexivity. Qed.
Lemma f_pv o : pv (f o) = mir (pv o).
Proof. rewrite (proj2 HF). reflexivity. Qed.
Lemma f_pe o : pe (f o) = pe o.
Proof. rewrite (proj2 HF). reflexivity. Qed.
Lemma k_mul g : k * g = g \/ k * g = - g.
Proof. destruct (proj1 HF) as [E|E]; rewrite E; [left|right]; ring. Qed.
Lemma k_sign g h : Z.eqb (sign (K:=RNum) (k * g)) (sign (K:=RNum) (k * h)) = Z.eqb (sign (K:=RNum) g) (sign (K:=RNum) h).
Proof.
  destruct (proj1 HF) as [E|E]; rewrite E; [rewrite !Rmult_1_l; reflexivity|].
  replace (- (1) * g) with (- g) by ring. replace (- (1) * h) with (- h) by ring. rewrite !sign_opp.
  unfold sign. destruct (_ <? _)%num; destruct (_ <? _)%num; try reflexivity; destruct (_ <? _)%num; try reflexivity; destruct (_ <? _)%num; reflexivity.
Qed.
Lemma k_zero g : @neqb RNum (k * g) (@nofZ RNum 0) = @neqb RNum g (@nofZ RNum 0).
Proof. destruct (k_mul g) as [E|E]; rewrite E; [reflexivity|apply opp_test]. Qed.
Lemma k_abs g : Rabs (k * g) = Rabs g.
Proof. destruct (k_mul g) as [E|E]; rewrite E; [reflexivity|apply Rabs_Ropp]. Qed.
Lemma k_inv : / k = k.
Proof. destruct (proj1 HF) as [E|E]; rewrite E; field. Qed.
Lemma k_k : k * k = 1.
Proof. destruct (proj1 HF) as [E|E]; rewrite E; ring. Qed.

Variables (expf : R -> R) (tenth eight pi_ two_pi tiny : R).

Lemma vzero_mir (q : pnt) : vzero_ (K:=RNum) tiny (mir q) = vzero_ (K:=RNum) tiny q.
Proof. unfold vzero_, mir. cbn [x y]. unr. rewrite Rabs_Ropp. reflexivity. Qed.

(** Sums over particles are mirrored and multiplied by [k]. *)
Definition mk (q : pnt) : pnt := vscale (mir q) k.

Lemma vortex_influence_mir v w S :
  vortex_influence (K:=RNum) expf eight tiny (f v) (f w) (mk (fst S), k * snd S) =
  (mk (fst (vortex_influence (K:=RNum) expf eight tiny v w S)), k * snd (vortex_influence (K:=RNum) expf eight tiny v w S)).
Proof.
  unfold vortex_influence. rewrite !f_pr, !f_pg, !f_pe, k_sign, vsub_mir, vzero_mir.
  destruct (negb _); [reflexivity|]. destruct (vzero_ _ _); [reflexivity|]. rewrite vabs_mir. cbv zeta.
  destruct (_ <? _)%num; [reflexivity|]. cbn [fst snd]. f_equal.
  - unfold mk, vadd, vscale, mir. cbn [x y]. unr. unfold Rdiv. vec_ring.
  - unr. num_ring.
Qed.

Lemma segment_influence_mir v w S : segment_influence (K:=RNum) expf eight (f v) (att_mir w) (mir (fst S), snd S) =
  let '(T, g) := segment_influence (K:=RNum) expf eight v w S in (mir (fst T), snd T, k * g).
Proof.
  unfold segment_influence. rewrite f_pr, f_pg, f_pe. cbn [att_mir r dl]. change (@mkVec RNum (- x (dl w)) (y (dl w))) with (rim (dl w)). rewrite vsub_mir, abs2_mir, rotl_rim. cbv zeta.
  destruct (_ <? _)%num; [destruct S; cbn [fst snd]; f_equal; unr; num_ring|]. cbn [fst snd]. rewrite vabs_mir, dot_mir, vscale_mir, vadd_mir. f_equal. unr. num_ring.
Qed.

(** The walls may come in any order. *)
Lemma segment_influence_add v w S : fst (segment_influence (K:=RNum) expf eight v w S) =
  let T := fst (segment_influence (K:=RNum) expf eight v w (vzero (K:=RNum), 0)) in (vadd (fst S) (fst T), snd S + snd T).
Proof.
  unfold segment_influence. cbv zeta. destruct (_ <? _)%num; cbn [fst snd].
  - destruct S as [[u u'] z]. cbn [fst snd]. unfold vadd, vzero. cbn [x y]. unr. f_equal; [vec_ring|num_ring].
  - destruct S as [[u u'] z]. cbn [fst snd]. unfold vadd, vzero. cbn [x y]. unr. f_equal; [vec_ring|num_ring].
Qed.
Lemma walls_out v ws T S : fold_left (fun S w => fst (segment_influence (K:=RNum) expf eight v w S)) ws (vadd (fst S) (fst T), snd S + snd T) =
  let Z := fold_left (fun S w => fst (segment_influence (K:=RNum) expf eight v w S)) ws S in (vadd (fst Z) (fst T), snd Z + snd T).
Proof.
  revert S. induction ws as [|w ws IH]; intros S; [reflexivity|]. cbn [fold_left]. cbv zeta in *. rewrite <- IH. f_equal.
  rewrite segment_influence_add. rewrite (segment_influence_add v w S). cbv zeta. cbn [fst snd]. set (Z := fst _).
  unfold vadd. cbn [x y]. unr. f_equal; [vec_ring|num_ring].
Qed.
Lemma walls_rev v ws S : fold_left (fun S w => fst (segment_influence (K:=RNum) expf eight v w S)) (rev ws) S =
  fold_left (fun S w => fst (segment_influence (K:=RNum) expf eight v w S)) ws S.
Proof.
  revert S. induction ws as [|w ws IH]; intros S; [reflexivity|]. cbn [rev fold_left]. rewrite fold_left_app, IH. cbn [fold_left].
  rewrite (segment_influence_add v w S), segment_influence_add. cbv zeta. rewrite walls_out. reflexivity.
Qed.

Lemma sums_mir nb ws vs v :
  sums (K:=RNum) expf eight tiny nb (rev (map att_mir ws)) (map f vs) (f v) =
  let '(S2, S1, (S3, S0)) := sums (K:=RNum) expf eight tiny nb ws vs v in (mk S2, k * S1, (mir S3, S0)).
Proof.
  unfold sums. rewrite walls_rev.
  assert (F : forall nb S, fold_left (fun S j => match nth_error (map f vs) j with None => S
      | Some b => if (pg b =? nofZ 0)%num then S else vortex_influence (K:=RNum) expf eight tiny (f v) b S end) nb (mk (fst S), k * snd S) =
    let T := fold_left (fun S j => match nth_error vs j with None => S
      | Some b => if (pg b =? nofZ 0)%num then S else vortex_influence (K:=RNum) expf eight tiny v b S end) nb S in (mk (fst T), k * snd T)).
  { clear nb. induction nb as [|j nb IH]; intros S; [reflexivity|]. cbn [fold_left]. cbv zeta in *. rewrite <- IH. f_equal.
    rewrite nth_error_map. destruct (nth_error vs j) as [b|] eqn:E; cbn [option_map]; [|reflexivity]. rewrite f_pg, k_zero.
    destruct (_ =? _)%num; [reflexivity|].
    apply vortex_influence_mir. }
  assert (G : forall ws S, fold_left (fun S w => fst (segment_influence (K:=RNum) expf eight (f v) w S)) (map att_mir ws) (mir (fst S), snd S) =
    let T := fold_left (fun S w => fst (segment_influence (K:=RNum) expf eight v w S)) ws S in (mir (fst T), snd T)).
  { clear ws. induction ws as [|w ws IH]; intros S; [reflexivity|]. cbn [fold_left map]. cbv zeta in *. rewrite <- IH. f_equal.
    rewrite segment_influence_mir. destruct (segment_influence _ _ v w S) as [T g]. reflexivity. }
  specialize (F nb (vzero (K:=RNum), 0)). specialize (G ws (vzero (K:=RNum), 0)). cbv zeta in *. cbn [fst snd] in *.
  replace (mk (vzero (K:=RNum))) with (vzero (K:=RNum)) in F by (unfold mk; unm; vec_ring). replace (k * 0) with 0 in F by ring.
  rewrite !mir_zero in *. change (@mkVec RNum (nofZ 0) (nofZ 0)) with (vzero (K:=RNum)). change (@nofZ RNum 0) with 0 in *.
  match type of F with ?l = _ => match goal with |- (?a, ?b) = _ => change a with l end end.
  rewrite F. match type of G with ?l = _ => match goal with |- (?a, ?b) = _ => change b with l end end. rewrite G. clear F G.
  destruct (fold_left _ nb _) as [S2 S1]. destruct (fold_left _ ws _) as [S3 S0]. reflexivity.
Qed.

Lemma guard_mir S1 g : guard (K:=RNum) tenth (k * S1) (k * g) = k * guard (K:=RNum) tenth S1 g.
Proof.
  unfold guard. rewrite k_sign. unr. change (Num.T RNum) with R in *. replace (tenth * (k * g)) with (k * (tenth * g)) by ring. rewrite !k_abs. destruct (_ || _); reflexivity.
Qed.

Lemma vort_velocity_mir re nb ws vs v :
  vort_velocity (K:=RNum) expf tenth eight pi_ two_pi tiny re nb (rev (map att_mir ws)) (map f vs) (f v) =
  mir (vort_velocity (K:=RNum) expf tenth eight pi_ two_pi tiny re nb ws vs v).
Proof.
  unfold vort_velocity. rewrite sums_mir.
  destruct (sums _ _ _ _ _ _ v) as [[S2 S1] [S3 S0]]. rewrite f_pg, f_pv, f_pe, guard_mir.
  rewrite <- !vadd_mir, vscale_mir. f_equal. f_equal. unr. change (Num.T RNum) with R in *. set (G := guard _ _ _). change (Num.T RNum) with R in *. clearbody G.
  replace (pe v / (re * (k * G))) with (k * (pe v / (re * G))) by (unfold Rdiv; replace (re * (k * G)) with (k * (re * G)) by ring; rewrite (Rinv_mult k), k_inv; ring).
  generalize (pe v / (re * G)). intros q. unfold mk, vscale, mir. cbn [x y]. unr. change (Num.T RNum) with R in *. pose proof k_k as KK.
  apply (f_equal2 (@mkVec RNum)); eqR.
  - replace (x S2 * k * (k * q)) with (k * k * (x S2 * q)) by ring. rewrite KK. ring.
  - replace (- y S2 * k * (k * q)) with (k * k * (- y S2 * q)) by ring. rewrite KK. ring.
Qed.
Lemma friction_mir vs w : friction (K:=RNum) expf eight (map f vs) (att_mir w) = k * friction (K:=RNum) expf eight vs w.
Proof.
  unfold friction. change (@nofZ RNum 0) with 0.
  match goal with |- fold_left ?F _ ?z = _ * fold_left ?G _ ?z => assert (X : forall e, fold_left F (map f vs) (k * e) = k * fold_left G vs e); [|rewrite <- X; f_equal; eqR; ring] end.
  induction vs as [|v vs IH]; intros e; [reflexivity|]. cbn [fold_left map]. rewrite <- IH. f_equal. rewrite f_pg. change 0 with (@nofZ RNum 0) at 1. rewrite k_zero.
  destruct (_ =? _)%num; [reflexivity|].
  pose proof (segment_influence_mir v w (vzero (K:=RNum), 0)) as X. cbn [fst snd] in X. rewrite mir_zero in X.
  change (@mkVec RNum 0 0) with (vzero (K:=RNum)). rewrite X. destruct (segment_influence _ _ v w _) as [T g]. cbn [snd]. unr. num_ring.
Qed.

(** ** Radii and merging *)

Section Radii.
Variables (big tiny0 third merge_c : R).

Lemma dist2_mir p q : dist2 (K:=RNum) (mir p) (mir q) = dist2 p q.
Proof. unfold dist2. rewrite vsub_mir, abs2_mir. reflexivity. Qed.

Lemma look_mir vs i b j : look (K:=RNum) (map f vs) i b j = look vs i b j.
Proof.
  unfold look. rewrite !nth_error_map. destruct (nth_error vs i) as [a|]; cbn [option_map]; [|reflexivity].
  destruct (nth_error vs j) as [o|]; cbn [option_map]; [|reflexivity]. rewrite f_pg, !f_pr, dist2_mir, k_zero. reflexivity.
Qed.
Lemma scan_mir nb vs i : scan (K:=RNum) big nb (map f vs) i = scan (K:=RNum) big nb vs i.
Proof. unfold scan. generalize (@mkBest RNum big None big None). induction nb as [|j nb IH]; intros b; [reflexivity|]. cbn [fold_left]. rewrite look_mir. apply IH. Qed.

Lemma merged_mir a b : merged (K:=RNum) (f a) (f b) = f (merged a b).
Proof.
  rewrite (proj2 HF (merged a b)). unfold merged. cbn [pr pg pv pe]. rewrite !f_pr, !f_pg, f_pv, f_pe, k_sign. unr. change (Num.T RNum) with R in *. rewrite !k_abs.
  f_equal; [|num_ring]. destruct (Z.eqb _ _); [|destruct (_ <? _)%num; reflexivity].
  replace (k * pg a + k * pg b) with (k * (pg a + pg b)) by (eqR; ring). set (G := pg a + pg b).
  unfold vdiv, vscale, vadd, mir. cbn [x y]. unr. unfold Rdiv. change (Num.T RNum) with R in *. rewrite (Rinv_mult k), k_inv. pose proof k_k as KK.
  apply (f_equal2 (@mkVec RNum)); eqR.
  - match goal with |- _ = ?e => transitivity (k * k * e); [ring|rewrite KK; ring] end.
  - match goal with |- _ = ?e => transitivity (k * k * e); [ring|rewrite KK; ring] end.
Qed.
Lemma emptied_mir b : emptied (K:=RNum) (f b) = f (emptied b).
Proof. rewrite (proj2 HF (emptied b)). unfold emptied. cbn [pr pg pv pe]. rewrite f_pr, f_pv, f_pe. f_equal. unr. num_ring. Qed.
Lemma merge_mir vs i j : merge (K:=RNum) (map f vs) i j = map f (merge vs i j).
Proof.
  unfold merge. rewrite !nth_error_map. destruct (nth_error vs i) as [a|]; cbn [option_map]; [|reflexivity].
  destruct (nth_error vs j) as [b|]; cbn [option_map]; [|reflexivity].
  rewrite merged_mir, emptied_mir, !set_nth_map. reflexivity.
Qed.

Definition same_mirrored (eps : list nat -> list (part RNum) -> nat -> option R -> R * list (part RNum) * nat) : Prop :=
  forall nb vs i crit, eps nb (map f vs) i crit = let '(e, vs', n) := eps nb vs i crit in (e, map f vs', n).

Lemma epsv_mir : same_mirrored (epsv (K:=RNum) big tiny0).
Proof.
  intros nb vs i crit. unfold epsv. rewrite scan_mir. destruct (lv1 _) as [j|]; [|reflexivity]. destruct (lv2 _) as [l|]; [|reflexivity].
  destruct crit as [q|]; [|reflexivity]. rewrite !nth_error_map.
  destruct (nth_error vs i) as [a|]; cbn [option_map]; [|reflexivity]. destruct (nth_error vs j) as [b|]; cbn [option_map]; [|reflexivity].
  destruct (nth_error vs l) as [d|]; cbn [option_map]; [|reflexivity]. rewrite !f_pg, !k_sign.
  destruct (_ || _); [|reflexivity]. cbv zeta. rewrite merge_mir, scan_mir. reflexivity.
Qed.
Lemma epsh_mir : same_mirrored (epsh (K:=RNum) big tiny0).
Proof.
  intros nb vs i crit. unfold epsh. rewrite scan_mir. cbv zeta. destruct (_ || _); [reflexivity|].
  destruct crit as [q|]; [|reflexivity]. destruct (lv1 _) as [j|]; [|reflexivity].
  destruct (_ <? _)%num; [|reflexivity]. rewrite merge_mir, scan_mir. reflexivity.
Qed.

Lemma nearer_mir p l z : fold_left (nearer (K:=RNum) (mir p)) (map att_mir l) (fst z, option_map att_mir (snd z)) =
  (fst (fold_left (nearer p) l z), option_map att_mir (snd (fold_left (nearer p) l z))).
Proof.
  revert z. induction l as [|a l IH]; intros z; [reflexivity|]. cbn [map fold_left]. rewrite <- IH. f_equal. unfold nearer.
  change (r (att_mir a)) with (mir (r a)). rewrite dist2_mir. cbn [fst snd]. destruct (_ <? _)%num; destruct z; reflexivity.
Qed.
Lemma skim_mir p l : forall n z, skim (K:=RNum) (mir p) n (fst z, option_map att_mir (snd z)) (map att_mir l) =
  (fst (skim p n z l), option_map att_mir (snd (skim p n z l))).
Proof.
  induction l as [|a l IH]; intros n z; [destruct z; reflexivity|]. cbn [map skim]. destruct n as [|n]; [|apply IH].
  change (r (att_mir a)) with (mir (r a)). rewrite dist2_mir. cbn [fst]. destruct (_ <? _)%num; [|apply IH].
  apply (IH 0%nat (dist2 p (r a), Some a)).
Qed.
Lemma nearest_mir bs c : nearest (K:=RNum) big (map (map att_mir) bs) (cell_mir c) (mir (centre c)) = option_map att_mir (nearest (K:=RNum) big bs c (centre c)).
Proof.
  unfold nearest. cbn [cell_mir Vortex.Model.walls].
  pose proof (nearer_mir (centre c) (Vortex.Model.walls c) (big, None)) as N. cbn [fst snd option_map] in N. rewrite N. cbn [snd]. clear N.
  destruct (snd (fold_left (nearer (centre c)) _ _)) as [a|]; [reflexivity|]. cbn [option_map].
  assert (G : forall z, fold_left (skim (K:=RNum) (mir (centre c)) 0) (map (map att_mir) bs) (fst z, option_map att_mir (snd z)) =
    (fst (fold_left (skim (centre c) 0) bs z), option_map att_mir (snd (fold_left (skim (centre c) 0) bs z)))).
  { induction bs as [|l bs IH]; intros z; [reflexivity|]. cbn [map fold_left]. rewrite skim_mir. apply IH. }
  specialize (G (big, None)). cbn [fst snd option_map] in G. rewrite G. reflexivity.
Qed.
Lemma criterion_mir m w p : criterion (K:=RNum) merge_c m (option_map att_mir w) (mir p) = criterion (K:=RNum) merge_c m w p.
Proof.
  unfold criterion. destruct m; [|reflexivity]. destruct w as [a|]; cbn [option_map]; [|reflexivity].
  change (dl (att_mir a)) with (rim (dl a)). change (r (att_mir a)) with (mir (r a)). rewrite vsub_mir, vabs_mir, abs2_rim. reflexivity.
Qed.
Lemma restriction_mir w : restriction (K:=RNum) third (option_map att_mir w) = restriction (K:=RNum) third w.
Proof. destruct w as [a|]; [|reflexivity]. cbn [option_map restriction]. change (dl (att_mir a)) with (rim (dl a)). rewrite vabs_rim. reflexivity. Qed.

Lemma calc_one_mir eps nb crit low st i : same_mirrored eps ->
  calc_one (K:=RNum) eps nb crit low (map f (fst st), snd st) i = let '(vs, n) := calc_one eps nb crit low st i in (map f vs, n).
Proof.
  intros E. destruct st as [vs n]. unfold calc_one. cbn [fst snd]. rewrite nth_error_map. destruct (nth_error vs i) as [a|]; cbn [option_map]; [|reflexivity].
  rewrite f_pg, k_zero. destruct (_ =? _)%num; [reflexivity|]. rewrite E. destruct (eps nb vs i crit) as [[e vs'] m]. rewrite nth_error_map.
  destruct (nth_error vs' i) as [a'|]; cbn [option_map]; [|reflexivity]. rewrite f_pr, f_pg, f_pv, <- set_nth_map. rewrite (proj2 HF (mkPart _ _ _ _)). reflexivity.
Qed.
Lemma calc_epsilon_mir eps bs m cells vs : same_mirrored eps ->
  calc_epsilon (K:=RNum) big third merge_c eps (map (map att_mir) bs) m (map cell_mir cells) (map f vs) =
  let '(vs', n) := calc_epsilon (K:=RNum) big third merge_c eps bs m cells vs in (map f vs', n).
Proof.
  intros E. unfold calc_epsilon.
  assert (G : forall st, fold_left (calc_cell (K:=RNum) big third merge_c eps (map (map att_mir) bs) m) (map cell_mir cells) (map f (fst st), snd st) =
    let '(vs', n) := fold_left (calc_cell (K:=RNum) big third merge_c eps bs m) cells st in (map f vs', n)).
  { induction cells as [|c cells IH]; intros st; [destruct st; reflexivity|]. cbn [map fold_left].
    assert (C : calc_cell (K:=RNum) big third merge_c eps (map (map att_mir) bs) m (map f (fst st), snd st) (cell_mir c) =
      let '(vs', n) := calc_cell (K:=RNum) big third merge_c eps bs m st c in (map f vs', n)).
    { unfold calc_cell. change (centre (cell_mir c)) with (mir (centre c)). rewrite nearest_mir, criterion_mir, restriction_mir.
      cbn [cell_mir near mine]. generalize (criterion (K:=RNum) merge_c m (nearest (K:=RNum) big bs c (centre c)) (centre c)) (restriction (K:=RNum) third (nearest (K:=RNum) big bs c (centre c))).
      intros q low. revert st. induction (mine c) as [|i l IHl]; intros st; [destruct st; reflexivity|]. cbn [fold_left]. rewrite calc_one_mir by exact E.
      destruct (calc_one eps (near c) q low st i) as [vs' n]. exact (IHl (vs', n)). }
    rewrite C. destruct (calc_cell (K:=RNum) big third merge_c eps bs m st c) as [vs' n]. exact (IH (vs', n)). }
  exact (G (vs, 0%nat)).
Qed.
End Radii.
End Mirror.

(** The heat is not turned. *)
Lemma heat_velocity_mir expf tenth eight tiny prandtl re nb ws vs v :
  heat_velocity (K:=RNum) expf tenth eight tiny prandtl re nb (rev (map att_mir ws)) (map part_mir vs) (part_mir v) =
  mir (heat_velocity (K:=RNum) expf tenth eight tiny prandtl re nb ws vs v).
Proof.
  unfold heat_velocity. rewrite (sums_mir 1 part_mir mirror_part).
  destruct (sums _ _ _ _ _ _ v) as [[S2 S1] [S3 S0]]. cbn [part_mir pg pv pe].
  replace (mk 1 S2) with (mir S2) by (unfold mk, vscale, mir; cbn [x y]; unr; vec_ring). rewrite Rmult_1_l.
  rewrite vscale_mir, vadd_mir, !vdiv_mir, vadd_mir. reflexivity.
Qed.
