(** The order of the jobs does not matter; which springs come before which. *)

From Coq Require Import ZArith Bool List Lia Permutation Reals.
From Verif.Base Require Import Num.
From Verif.Matrix Require Import Model Proofs.
From Verif.Body Require Import Model Spec.
From Verif.Flow Require Import Model.
From Verif.System Require Import Model Spec Proofs ProofsCollision ProofsWrite ProofsPhysics ProofsSolve ProofsReuse.
Import ListNotations.

Lemma column_known sizes c : c < system_size sizes -> exists u, known sizes u /\ col sizes u = c.
Proof.
  intros Hc. assert (Hc' : c < length (unknowns sizes)) by (rewrite unknowns_length; exact Hc).
  pose proof (nth_In (unknowns sizes) (UG 0 0) Hc') as Hu. exists (nth c (unknowns sizes) (UG 0 0)).
  apply unknowns_known in Hu. split; [exact Hu|].
  apply (proj1 (NoDup_nth_error _) (unknowns_nodup sizes)); [rewrite unknowns_length; apply col_lt, Hu|].
  rewrite (unknowns_at _ _ Hu). symmetry. apply nth_error_nth'. exact Hc'.
Qed.

Section Order.
Context {K : Num}.
Variables (lnf : K -> K) (at2 : K -> K -> K) (tp ip qu mi : K) (S : sspace K)
  (sk : vec K -> vec K) (ff : att K -> K) (addr : unk -> Z) (sl : slots).

Lemma any_order p es q o1 o2 ro M : plan (shapes_of S) p = Some (es, q) -> Permutation es o1 -> Permutation es o2 ->
  registered addr (sizes_of S) sl -> roots_listed S ->
  exists M1 M2,
    fill_in lnf at2 tp ip qu mi S sk ff addr (system_size (sizes_of S)) o1 ro sl M = Ok M1 /\
    fill_in lnf at2 tp ip qu mi S sk ff addr (system_size (sizes_of S)) o2 ro sl M = Ok M2 /\
    (forall k, k < system_size (sizes_of S) * system_size (sizes_of S) -> cell M1 k = cell M2 k) /\
    (forall row, row < system_size (sizes_of S) -> right_ M1 row = right_ M2 row).
Proof.
  intros Hp P1 P2 Reg HL.
  destruct (fill_in_spec lnf at2 tp ip qu mi S sk ff addr p es q o1 ro sl M Hp P1 Reg HL) as (M1 & E1 & R1 & C1 & _).
  destruct (fill_in_spec lnf at2 tp ip qu mi S sk ff addr p es q o2 ro sl M Hp P2 Reg HL) as (M2 & E2 & R2 & C2 & _).
  exists M1, M2. split; [exact E1|]. split; [exact E2|].
  pose proof (plan_rows _ _ _ _ Hp) as Rows. rewrite sizes_shapes in Rows.
  assert (Row : forall row, row < system_size (sizes_of S) -> exists e qn, In e es /\ erow e = row /\ eqn_of lnf at2 tp ip qu mi S sk ff e = Some qn).
  { intros row Hr. assert (Hin : In row (map erow es)) by (rewrite Rows; apply in_seq; lia).
    apply in_map_iff in Hin. destruct Hin as (e & Ee & He).
    destruct (entry_eqn lnf at2 tp ip qu mi S sk ff e) as (qn & Eq); [apply (plan_entries _ _ _ _ _ _ _ [] Hp eq_refl _ He)|].
    exists e, qn. auto. }
  split.
  - intros k Hk. destruct (cell_index _ _ Hk) as (row & c & Hr & Hc & ->).
    destruct (Row row Hr) as (e & qn & He & Ee & Eq). destruct (column_known _ _ Hc) as (u & Hu & Ec).
    rewrite <- Ec, <- Ee. rewrite (C1 e qn u He Eq Hu), (C2 e qn u He Eq Hu). reflexivity.
  - intros row Hr. destruct (Row row Hr) as (e & qn & He & Ee & Eq). rewrite <- Ee.
    rewrite (R1 e qn He Eq), (R2 e qn He Eq). reflexivity.
Qed.
End Order.

(** ** Order of the springs *)


Lemma springs_split l : forall b k c s, nth_error l k = Some s ->
  exists pre post, springs_from b l = pre ++ (b + k, c, rigid s c) :: post /\
    (forall i d rg, In (i, d, rg) pre -> earlier i d (b + k) c) /\
    (forall i d rg, In (i, d, rg) post -> earlier (b + k) c i d).
Proof.
  induction l as [|a t IH]; intros b k c s; [destruct k; discriminate|].
  destruct k as [|k]; simpl.
  - intros E. assert (s = a) by congruence. subst s. rewrite Nat.add_0_r.
    assert (T : forall i d rg, In (i, d, rg) (springs_from (S b) t) -> b < i) by (intros i d rg H; apply springs_in in H; lia).
    destruct c.
    + exists [], ((b, CY, rigid a CY) :: (b, CO, rigid a CO) :: springs_from (S b) t). split; [reflexivity|]. split; [intros i d rg []|].
      intros i d rg [H|[H|H]]; try (inversion H; subst; right; simpl; lia). left. eapply T, H.
    + exists [(b, CX, rigid a CX)], ((b, CO, rigid a CO) :: springs_from (S b) t). split; [reflexivity|]. split.
      * intros i d rg [H|[]]. inversion H; subst; right; simpl; lia.
      * intros i d rg [H|H]; try (inversion H; subst; right; simpl; lia). left. eapply T, H.
    + exists [(b, CX, rigid a CX); (b, CY, rigid a CY)], (springs_from (S b) t). split; [reflexivity|]. split.
      * intros i d rg [H|[H|[]]]; inversion H; subst; right; simpl; lia.
      * intros i d rg H. left. eapply T, H.
  - intros E. destruct (IH (S b) k c s E) as (pre & post & Eq & H1 & H2).
    exists ((b, CX, rigid a CX) :: (b, CY, rigid a CY) :: (b, CO, rigid a CO) :: pre), post.
    rewrite Eq. replace (b + S k) with (S b + k) by lia. split; [reflexivity|]. split; [|exact H2].
    intros i d rg [H|[H|[H|H]]]; try (inversion H; subst; left; lia). eapply H1, H.
Qed.

Lemma earlier_irrefl b c : ~ earlier b c b c.
Proof. unfold earlier. lia. Qed.

(** Both passes after a report that [c] of body [b] hit its limit. *)
Lemma bounce_passes l b c s es1 es2 q : nth_error l b = Some s -> rigid s c = false ->
  plans l (PSpring b c) = Some ([es1; es2], q) ->
  (has es1 b (Stop c) <-> forall i a d, nth_error l i = Some a -> earlier i d b c -> rigid a d = true) /\
  (has es2 b (Hooke c true) <-> forall i a d, nth_error l i = Some a -> (i, d) <> (b, c) -> rigid a d = true).
Proof.
  intros Es Rg. unfold plans. cbn [ptr_eqb].
  destruct (plan l (PSpring b c)) as [[f1 p1]|] eqn:E1; [|discriminate].
  destruct (plan l p1) as [[f2 p2]|] eqn:E2; [|discriminate]. intros H.
  assert (f1 = es1 /\ f2 = es2) as [-> ->] by (inversion H; auto). clear H.
  destruct (plan_walk _ _ _ _ _ _ _ E1) as [Q1 W1]. destruct (plan_walk _ _ _ _ _ _ _ E2) as [Q2 W2].
  destruct (springs_split l 0 b c s Es) as (pre & post & Eq & Hpre & Hpost). simpl in Eq, Hpre, Hpost. rewrite Rg in Eq.
  assert (N1 : ~ In (b, c) (map comp_of pre)).
  { intros X. apply in_map_iff in X. destruct X as ([[i d] rg] & X & I). cbn in X. inversion X; subst.
    exact (earlier_irrefl _ _ (Hpre _ _ _ I)). }
  assert (N2 : ~ In (b, c) (map comp_of post)).
  { intros X. apply in_map_iff in X. destruct X as ([[i d] rg] & X & I). cbn in X. inversion X; subst.
    exact (earlier_irrefl _ _ (Hpost _ _ _ I)). }
  pose proof (walk_bounce b c pre post N1 N2) as W. cbv zeta in W. unfold spring in *. rewrite <- Eq in W.
  destruct (walk (springs_from 0 l) (PSpring b c)) as [k1 q1] eqn:K1.
  cbn [fst snd] in Q1, W1. subst p1.
  destruct (walk (springs_from 0 l) q1) as [k2 q2] eqn:K2. cbn [fst snd] in Q2, W2.
  destruct W as (A1 & A2 & B1 & B2 & _).
  assert (Hin : forall i a d, nth_error l i = Some a -> In (i, d, rigid a d) (springs_from 0 l)).
  { intros i a d Hi. apply springs_in. split; [lia|]. exists a. rewrite Nat.sub_0_r. auto. }
  assert (Hout : forall i d rg, In (i, d, rg) (springs_from 0 l) -> exists a, nth_error l i = Some a /\ rg = rigid a d).
  { intros i d rg Hi. apply springs_in in Hi. rewrite Nat.sub_0_r in Hi. exact (proj2 Hi). }
  assert (P1 : all_rigid pre <-> forall i a d, nth_error l i = Some a -> earlier i d b c -> rigid a d = true).
  { split.
    - intros X i a d Hi Hl. pose proof (Hin i a d Hi) as Y. rewrite Eq in Y. apply in_app_or in Y.
      destruct Y as [Y|[Y|Y]]; [eapply X, Y| |].
      + inversion Y; subst. destruct (earlier_irrefl _ _ Hl).
      + apply Hpost in Y. unfold earlier in *. lia.
    - intros X i d rg Hi. destruct (Hout i d rg) as (a & Ha & ->); [rewrite Eq; apply in_or_app; auto|].
      eapply X; [exact Ha|]. eapply Hpre, Hi. }
  assert (P2 : all_rigid pre /\ all_rigid post <-> forall i a d, nth_error l i = Some a -> (i, d) <> (b, c) -> rigid a d = true).
  { split.
    - intros [X Y] i a d Hi Hne. pose proof (Hin i a d Hi) as Z. rewrite Eq in Z. apply in_app_or in Z.
      destruct Z as [Z|[Z|Z]]; [eapply X, Z| |eapply Y, Z]. inversion Z; subst. congruence.
    - intros X. split; intros i d rg Hi.
      + destruct (Hout i d rg) as (a & Ha & ->); [rewrite Eq; apply in_or_app; auto|].
        eapply X; [exact Ha|]. intros [= -> ->]. exact (earlier_irrefl _ _ (Hpre _ _ _ Hi)).
      + destruct (Hout i d rg) as (a & Ha & ->); [rewrite Eq; apply in_or_app; right; right; auto|].
        eapply X; [exact Ha|]. intros [= -> ->]. exact (earlier_irrefl _ _ (Hpost _ _ _ Hi)). }
  assert (Dec : forall m, all_rigid m \/ ~ all_rigid m).
  { intros m. destruct (forallb (fun z : spring => snd z) m) eqn:F.
    - left. intros i d rg Hi. rewrite forallb_forall in F. exact (F _ Hi).
    - right. intros X. apply Bool.not_true_iff_false in F. apply F. apply forallb_forall. intros [[i d] rg] Hi. cbn. eapply X, Hi. }
  split.
  - rewrite <- P1. unfold has. rewrite <- (W1 b (Stop c) eq_refl). split; [|exact A1].
    intros I. destruct (Dec pre) as [X|X]; [exact X|]. destruct (A2 X _ _ I c eq_refl).
  - rewrite <- P2. unfold has. rewrite <- (W2 b (Hooke c true) eq_refl). split; [|exact B1].
    intros I. destruct (Dec pre) as [X|X]; [destruct (Dec post) as [Y|Y]; [auto|]|].
    + destruct (B2 (fun Z => Y (proj2 Z)) _ _ I) as (d & [Z|Z]); discriminate Z.
    + destruct (B2 (fun Z => X (proj1 Z)) _ _ I) as (d & [Z|Z]); discriminate Z.
Qed.
