(** Moving the flow: radii, merging and diffusion. *)

From Coq Require Import ZArith Bool List Lia Reals Lra.
From Verif.Base Require Import Num.
From Verif.Body Require Import Model Spec.
From Verif.Tree Require Import Model.
From Verif.Map Require Import Model SpecPlace ProofsPlace.
From Verif.Vortex Require Import Model ModelFar ProofsKernel.
Import ListNotations.
Local Open Scope R_scope.

Section Moved.
Variable d : vec RNum.
Notation mp := (part_at d).
Notation ma := (att_at d).
Variables big tiny third merge_c : R.

Lemma dist2_at p q : dist2 (K:=RNum) (at_ d p) (at_ d q) = dist2 (K:=RNum) p q.
Proof. unfold dist2. rewrite vsub_at. reflexivity. Qed.

Lemma look_at vs i s j : look (K:=RNum) (map mp vs) i s j = look (K:=RNum) vs i s j.
Proof.
  unfold look. rewrite !nth_error_map. destruct (nth_error vs i); [|reflexivity]. cbn [option_map].
  destruct (nth_error vs j); [|reflexivity]. cbn [option_map part_at pg pr]. rewrite dist2_at. reflexivity.
Qed.
Lemma scan_at nb vs i : scan (K:=RNum) big nb (map mp vs) i = scan (K:=RNum) big nb vs i.
Proof. unfold scan. apply fold_ext. intros s j. apply look_at. Qed.

Lemma put_at vs : forall k v, set_nth k (mp v) (map mp vs) = map mp (set_nth k v vs).
Proof. induction vs as [|a vs IH]; intros [|k] v; cbn; [reflexivity..|]. rewrite IH. reflexivity. Qed.

Lemma sign_sum (a b : R) : a <> 0 -> Z.eqb (sign (K:=RNum) a) (sign (K:=RNum) b) = true -> a + b <> 0.
Proof.
  intros N E. apply Z.eqb_eq in E. unfold sign in E. change (@nofZ RNum 0) with 0 in E. change (@nltb RNum) with Rltb in E.
  change (Num.T RNum) with R in *.
  destruct (Rltb 0 a) eqn:A1; [apply Rltb_true in A1|apply Rltb_false in A1];
  destruct (Rltb a 0) eqn:A2; [apply Rltb_true in A2|apply Rltb_false in A2| apply Rltb_true in A2|apply Rltb_false in A2]; try lra;
  destruct (Rltb 0 b) eqn:B1; try apply Rltb_true in B1; try apply Rltb_false in B1; try discriminate;
  destruct (Rltb b 0) eqn:B2; try apply Rltb_true in B2; try apply Rltb_false in B2; try discriminate; lra.
Qed.

Lemma merged_at (a b : part RNum) : (pg a : R) <> 0 -> merged (K:=RNum) (mp a) (mp b) = mp (merged (K:=RNum) a b).
Proof.
  intros N. unfold merged, part_at. cbn [pg pr pv pe].
  destruct (Z.eqb (sign (pg a)) (sign (pg b))) eqn:E.
  - pose proof (sign_sum _ _ N E) as Q. f_equal. unfold vdiv, vscale, vadd, at_. cbn [x y]. unr. change (Num.T RNum) with R in *. f_equal; field; exact Q.
  - destruct (@nltb RNum (nabs (pg a)) (nabs (pg b))); reflexivity.
Qed.

Definition live (vs : list (part RNum)) (i : nat) : Prop := exists a, nth_error vs i = Some a /\ (pg a : R) <> 0.

Lemma merge_at vs i j : live vs i -> merge (K:=RNum) (map mp vs) i j = map mp (merge (K:=RNum) vs i j).
Proof.
  intros (a & A & N). unfold merge. rewrite !nth_error_map, A. cbn [option_map].
  destruct (nth_error vs j) as [b|]; [|reflexivity]. cbn [option_map]. rewrite (merged_at _ _ N), put_at.
  change (emptied (mp b)) with (mp (emptied b)). apply put_at.
Qed.

Definition keeps (eps : list nat -> list (part RNum) -> nat -> option R -> R * list (part RNum) * nat) : Prop :=
  forall nb vs i crit, live vs i ->
  eps nb (map mp vs) i crit = let '(e, l, m) := eps nb vs i crit in (e, map mp l, m).

Lemma epsv_at : keeps (epsv (K:=RNum) big tiny).
Proof.
  intros nb vs i crit L. unfold epsv. cbv zeta. rewrite scan_at.
  destruct (lv1 (scan (K:=RNum) big nb vs i)) as [j|]; [|reflexivity].
  destruct (lv2 (scan (K:=RNum) big nb vs i)) as [k|]; [|reflexivity].
  destruct crit as [c|]; [|reflexivity]. rewrite !nth_error_map.
  destruct (nth_error vs i) as [a|]; [|reflexivity]. cbn [option_map].
  destruct (nth_error vs j) as [b|]; [|reflexivity]. cbn [option_map].
  destruct (nth_error vs k) as [q|]; [|reflexivity]. cbn [option_map part_at pg].
  rewrite (merge_at _ _ _ L), scan_at.
  match goal with |- (if ?c then _ else _) = _ => destruct c; reflexivity end.
Qed.

Lemma epsh_at : keeps (epsh (K:=RNum) big tiny).
Proof.
  intros nb vs i crit L. unfold epsh. cbv zeta. rewrite scan_at.
  match goal with |- (if ?c then _ else _) = _ => destruct c; [reflexivity|] end.
  destruct crit as [c|]; [|reflexivity].
  destruct (lv1 (scan (K:=RNum) big nb vs i)) as [j|]; [|reflexivity].
  rewrite (merge_at _ _ _ L), scan_at.
  match goal with |- (if ?c then _ else _) = _ => destruct c; reflexivity end.
Qed.

Lemma nearer_at p s l : fold_left (nearer (K:=RNum) (at_ d p)) (map ma l) (fst s, option_map ma (snd s)) =
  let q := fold_left (nearer (K:=RNum) p) l s in (fst q, option_map ma (snd q)).
Proof.
  cbv zeta. revert s. induction l as [|a l IH]; intros s; [reflexivity|]. cbn [map fold_left].
  rewrite <- IH. f_equal. unfold nearer. cbn [att_at r]. rewrite dist2_at. cbn [fst].
  destruct (@nltb RNum (dist2 p (r a)) (fst s)); reflexivity.
Qed.
Lemma skim_at p l : forall k s, skim (K:=RNum) (at_ d p) k (fst s, option_map ma (snd s)) (map ma l) =
  let q := skim (K:=RNum) p k s l in (fst q, option_map ma (snd q)).
Proof.
  cbv zeta. induction l as [|a l IH]; intros k s; [reflexivity|]. cbn [map skim]. destruct k as [|k]; [|apply IH].
  cbn [att_at r fst]. rewrite dist2_at. cbv zeta. destruct (@nltb RNum (dist2 p (r a)) (fst s)); [|apply IH].
  rewrite <- (IH 0%nat (dist2 p (r a), Some a)). reflexivity.
Qed.
Lemma nearest_at bs c p : nearest (K:=RNum) big (map (map ma) bs) (cell_at d c) (at_ d p) = option_map ma (nearest (K:=RNum) big bs c p).
Proof.
  unfold nearest. cbn [cell_at walls].
  pose proof (nearer_at p (@pair (Num.T RNum) (option (att RNum)) big None) (walls c)) as E. cbn [fst snd option_map] in E. rewrite E. cbv zeta. cbn [snd].
  destruct (snd (fold_left (nearer (K:=RNum) p) (walls c) (@pair (Num.T RNum) (option (att RNum)) big None))); [reflexivity|]. cbn [option_map].
  assert (F : forall bs s, fold_left (skim (K:=RNum) (at_ d p) 0) (map (map ma) bs) (fst s, option_map ma (snd s)) =
    let q := fold_left (skim (K:=RNum) p 0) bs s in (fst q, option_map ma (snd q))).
  { cbv zeta. induction bs0 as [|b bs0 IH]; intros s; [reflexivity|]. cbn [map fold_left]. rewrite skim_at. cbv zeta. apply IH. }
  pose proof (F bs (@pair (Num.T RNum) (option (att RNum)) big None)) as G. cbn [fst snd option_map] in G. rewrite G. reflexivity.
Qed.
Lemma criterion_at mg w p : criterion (K:=RNum) merge_c mg (option_map ma w) (at_ d p) = criterion (K:=RNum) merge_c mg w p.
Proof. unfold criterion. destruct w as [a|]; [|reflexivity]. cbn [option_map att_at r dl]. rewrite vsub_at. reflexivity. Qed.
Lemma restriction_at w : restriction (K:=RNum) third (option_map ma w) = restriction (K:=RNum) third w.
Proof. destruct w; reflexivity. Qed.

Section Eps.
Variable eps : list nat -> list (part RNum) -> nat -> option R -> R * list (part RNum) * nat.
Hypothesis H : keeps eps.

Lemma calc_one_at nb crit low vs n i : calc_one (K:=RNum) eps nb crit low (map mp vs, n) i =
  let q := calc_one (K:=RNum) eps nb crit low (vs, n) i in (map mp (fst q), snd q).
Proof.
  unfold calc_one. cbv zeta. rewrite nth_error_map. destruct (nth_error vs i) as [a|] eqn:A; [|reflexivity].
  cbn [option_map part_at pg]. destruct (@neqb RNum (pg a) (nofZ 0)) eqn:E; [reflexivity|].
  assert (L : live vs i). { exists a. split; [exact A|]. apply eqb_nonzero. exact E. }
  rewrite (H nb vs i crit L). destruct (eps nb vs i crit) as [[e l] m]. rewrite nth_error_map.
  destruct (nth_error l i) as [a'|]; [|reflexivity]. cbn [option_map fst snd]. rewrite <- put_at. reflexivity.
Qed.

Lemma calc_cell_at bs mg vs n c : calc_cell (K:=RNum) big third merge_c eps (map (map ma) bs) mg (map mp vs, n) (cell_at d c) =
  let q := calc_cell (K:=RNum) big third merge_c eps bs mg (vs, n) c in (map mp (fst q), snd q).
Proof.
  unfold calc_cell. cbv zeta. change (centre (cell_at d c)) with (at_ d (centre c)). rewrite nearest_at, criterion_at, restriction_at.
  change (near (cell_at d c)) with (near c). change (mine (cell_at d c)) with (mine c).
  generalize (mine c). intros l. revert vs n. induction l as [|i l IH]; intros vs n; [reflexivity|]. cbn [fold_left].
  rewrite calc_one_at. cbv zeta. rewrite IH. rewrite <- surjective_pairing. reflexivity.
Qed.

Lemma calc_epsilon_at bs mg cs vs : calc_epsilon (K:=RNum) big third merge_c eps (map (map ma) bs) mg (map (cell_at d) cs) (map mp vs) =
  let q := calc_epsilon (K:=RNum) big third merge_c eps bs mg cs vs in (map mp (fst q), snd q).
Proof.
  unfold calc_epsilon. generalize 0%nat as n. revert vs. induction cs as [|c cs IH]; intros vs n; [reflexivity|]. cbn [map fold_left].
  rewrite calc_cell_at. cbv zeta. rewrite IH. rewrite <- surjective_pairing. reflexivity.
Qed.
End Eps.

(** ** Diffusion *)

Variables (expf : R -> R) (tenth eight pi_ two_pi tiny10 : R).

Lemma vortex_influence_at v w s : vortex_influence (K:=RNum) expf eight tiny10 (mp v) (mp w) s = vortex_influence (K:=RNum) expf eight tiny10 v w s.
Proof. unfold vortex_influence. cbn [part_at pg pr pe]. rewrite vsub_at. reflexivity. Qed.
Lemma segment_influence_at v a s : segment_influence (K:=RNum) expf eight (mp v) (ma a) s = segment_influence (K:=RNum) expf eight v a s.
Proof. unfold segment_influence. cbn [part_at pg pr pe att_at r dl]. rewrite vsub_at. reflexivity. Qed.
Lemma sums_at nb ws vs v : sums (K:=RNum) expf eight tiny10 nb (map ma ws) (map mp vs) (mp v) = sums (K:=RNum) expf eight tiny10 nb ws vs v.
Proof.
  unfold sums. f_equal.
  - apply fold_ext. intros s j. rewrite nth_error_map. destruct (nth_error vs j) as [b|]; [|reflexivity]. cbn [option_map].
    change (pg (mp b)) with (pg b). destruct (@neqb RNum (pg b) (nofZ 0)); [reflexivity|]. apply vortex_influence_at.
  - rewrite fold_map. apply fold_ext. intros s w. rewrite segment_influence_at. reflexivity.
Qed.
Lemma vort_velocity_at re nb ws vs v : vort_velocity (K:=RNum) expf tenth eight pi_ two_pi tiny10 re nb (map ma ws) (map mp vs) (mp v) =
  vort_velocity (K:=RNum) expf tenth eight pi_ two_pi tiny10 re nb ws vs v.
Proof. unfold vort_velocity. rewrite sums_at. reflexivity. Qed.
Lemma heat_velocity_at pr_ re nb ws vs v : heat_velocity (K:=RNum) expf tenth eight tiny10 pr_ re nb (map ma ws) (map mp vs) (mp v) =
  heat_velocity (K:=RNum) expf tenth eight tiny10 pr_ re nb ws vs v.
Proof. unfold heat_velocity. rewrite sums_at. reflexivity. Qed.
Lemma friction_at vs w : friction (K:=RNum) expf eight (map mp vs) (ma w) = friction (K:=RNum) expf eight vs w.
Proof.
  unfold friction. rewrite fold_map. apply fold_ext. intros f v. change (pg (mp v)) with (pg v).
  destruct (@neqb RNum (pg v) (nofZ 0)); [reflexivity|]. rewrite segment_influence_at. reflexivity.
Qed.
End Moved.
