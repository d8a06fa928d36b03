(** The linear system of two flows mixed. *)

From Coq Require Import ZArith Bool List Reals Lra Lia Permutation.
From Verif.Base Require Import Num.
From Verif.Matrix Require Import Model.
From Verif.Body Require Import Model Spec.
From Verif.Flow Require Import Model.
From Verif.System Require Import Model Spec SpecMix Proofs ProofsCollision ProofsWrite ProofsPhysics ProofsSolve ProofsXi ProofsLaws ProofsTurn.
From Verif.Vortex Require Import ProofsKernel.
Import ListNotations.
Local Open Scope R_scope.

Section Mix.
Variables (m : R) (S T : sspace RNum).
Hypothesis A : alike S T.
Notation mix := (mix m).
Notation M := (mix_system m S T).

Lemma mix_nth i a b : nth_error (sbodies S) i = Some a -> nth_error (sbodies T) i = Some b -> nth_error (sbodies M) i = Some (mix_body m a b).
Proof.
  cbn [sbodies mix_system]. generalize (sbodies S) (sbodies T). intros l l'. revert i l'. induction l as [|a0 l IH]; intros [|i] [|b0 l']; cbn; try discriminate.
  - intros H H'. injection H as ->. injection H' as ->. reflexivity.
  - apply IH.
Qed.
Lemma mix_length : length (sbodies M) = length (sbodies S) /\ length (sbodies T) = length (sbodies S).
Proof. cbn [sbodies mix_system]. destruct A as [F _]. induction F as [|a b l l' _ F [IH IH']]; [split; reflexivity|]. cbn. lia. Qed.
Lemma alike_nth i a b : nth_error (sbodies S) i = Some a -> nth_error (sbodies T) i = Some b -> alike_body a b.
Proof.
  destruct A as [F _]. revert i. induction F as [|a0 b0 l l' E F IH]; intros [|i]; cbn; try discriminate; [congruence|apply IH].
Qed.
Lemma mix_cases i c : nth_error (sbodies M) i = Some c -> exists a b, nth_error (sbodies S) i = Some a /\ nth_error (sbodies T) i = Some b /\ c = mix_body m a b /\ alike_body a b.
Proof.
  intros H. destruct mix_length as [L L']. assert (Li : (i < length (sbodies S))%nat) by (rewrite <- L; apply nth_error_Some; congruence).
  destruct (nth_error (sbodies S) i) as [a|] eqn:Ha; [|apply nth_error_None in Ha; lia].
  destruct (nth_error (sbodies T) i) as [b|] eqn:Hb; [|apply nth_error_None in Hb; lia].
  exists a, b. split; [reflexivity|]. split; [reflexivity|]. rewrite (mix_nth i a b Ha Hb) in H. split; [congruence|]. eapply alike_nth; eassumption.
Qed.

(** ** Sums *)

Lemma total_mix (f f0 f1 : nat * sbody RNum -> R) :
  (forall i a b, nth_error (sbodies S) i = Some a -> nth_error (sbodies T) i = Some b -> f (i, mix_body m a b) = mix (f0 (i, a)) (f1 (i, b))) ->
  total f (bodies_i M) = mix (total f0 (bodies_i S)) (total f1 (bodies_i T)).
Proof.
  destruct A as [F _]. unfold bodies_i, indexed. cbn [sbodies mix_system]. revert F. generalize (sbodies S) (sbodies T). intros l l' F H.
  assert (X : forall n, (forall i a b, nth_error l i = Some a -> nth_error l' i = Some b -> f ((n + i)%nat, mix_body m a b) = mix (f0 ((n + i)%nat, a)) (f1 ((n + i)%nat, b))) ->
    total f (combine (seq n (length (mix_bodies m l l'))) (mix_bodies m l l')) = mix (total f0 (combine (seq n (length l)) l)) (total f1 (combine (seq n (length l')) l'))).
  { clear H. induction F as [|a b l l' E F IH]; intros n H; [unfold SpecMix.mix, total; cbn; lra|]. cbn [mix_bodies length seq combine]. rewrite !total_cons, IH.
    - specialize (H 0%nat a b eq_refl eq_refl). rewrite Nat.add_0_r in H. rewrite H. unfold SpecMix.mix. lra.
    - intros i a' b' Ha Hb. specialize (H (Datatypes.S i) a' b' Ha Hb). rewrite Nat.add_succ_r in H. exact H. }
  apply X. exact H.
Qed.

Variables v w : unk -> R.
Notation u := (mix_unknowns m v w).
Lemma lin_mix l : lin u l = mix (lin v l) (lin w l).
Proof.
  unfold lin, SpecMix.mix. induction l as [|[k c] l IH]; [unfold total; cbn; lra|]. rewrite !total_cons, IH. cbn [fst snd]. unfold mix_unknowns, SpecMix.mix. lra.
Qed.

Lemma axis_mix a b : alike_body a b -> g_of b = g_of a.
Proof. intros (E & _). exact E. Qed.

(** ** Equations *)

Definition mixed_row (q q0 q1 : eqn RNum) : Prop := lin u (coefs q) = mix (lin v (coefs q0)) (lin w (coefs q1)) /\ rhs q = mix (rhs q0) (rhs q1).
Lemma same_coefs (q q0 q1 : eqn RNum) : coefs q = coefs q0 -> coefs q1 = coefs q0 -> rhs q = mix (rhs q0) (rhs q1) -> mixed_row q q0 q1.
Proof. intros E E1 R. split; [change (lin u (coefs q) = mix (lin v (coefs q0)) (lin w (coefs q1))); rewrite E, E1; apply lin_mix|exact R]. Qed.

Lemma zero_row i n : mixed_row (zero_eq (K:=RNum) i n) (zero_eq (K:=RNum) i n) (zero_eq (K:=RNum) i n).
Proof. apply same_coefs; try reflexivity. unfold zero_eq, SpecMix.mix. cbn [rhs]. unr. eqR. ring. Qed.
Lemma inf_row : mixed_row (inf_eq (K:=RNum) M) (inf_eq (K:=RNum) S) (inf_eq (K:=RNum) T).
Proof.
  split; [|unfold inf_eq; cbn [rhs mix_system gfree inf_g]; unfold SpecMix.mix; unr; eqR; ring].
  unfold inf_eq. cbn [coefs]. unfold lin. rewrite !total_flat_map. apply total_mix. intros i a b Ha Hb.
  pose proof (alike_nth i a b Ha Hb) as Al. cbn [fst snd]. unfold ones. rewrite (axis_mix a b Al). change (g_of (mix_body m a b)) with (g_of a). exact (lin_mix _).
Qed.
Lemma steady_row i a b : alike_body a b -> mixed_row (steady_eq (K:=RNum) i (mix_body m a b)) (steady_eq (K:=RNum) i a) (steady_eq (K:=RNum) i b).
Proof.
  intros Al. apply same_coefs; unfold steady_eq, ones; cbn [coefs rhs]; rewrite ?(axis_mix a b Al); change (g_of (mix_body m a b)) with (g_of a); try reflexivity.
  cbn [mix_body fb g_dead]. unfold SpecMix.mix. unr. eqR. ring.
Qed.
Lemma hooke_row c i a b : alike_body a b -> mixed_row (hooke_eq (K:=RNum) c false i (mix_body m a b)) (hooke_eq (K:=RNum) c false i a) (hooke_eq (K:=RNum) c false i b).
Proof.
  intros Al. pose proof (axis_mix a b Al) as G. destruct Al as (_ & K & _ & _ & D & _). apply same_coefs; unfold hooke_eq; cbn [coefs rhs]; rewrite ?G, ?K, ?D; try reflexivity.
  change (g_of (mix_body m a b)) with (g_of a). cbn [mix_body fb Flow.Model.kspring torque]. unfold SpecMix.mix. destruct c; unr; eqR; ring.
Qed.
Lemma hydro_rhs k d f f' e e' : k - mix f f' + mix e e' * d = mix (k - f + e * d) (k - f' + e' * d).
Proof. unfold SpecMix.mix. ring. Qed.
Lemma hydro_row c i a b : alike_body a b -> mixed_row (hydro_eq (K:=RNum) M c i (mix_body m a b)) (hydro_eq (K:=RNum) S c i a) (hydro_eq (K:=RNum) T c i b).
Proof.
  intros Al. pose proof (axis_mix a b Al) as G. destruct A as (_ & _ & Ed). apply same_coefs; unfold hydro_eq; rewrite ?G, ?Ed; change (g_of (mix_body m a b)) with (g_of a); change (dt M) with (dt S).
  - destruct c; reflexivity.
  - destruct c; reflexivity.
  - destruct c; cbn [rhs mix_body friction_prev fb fdt_dead mix_vec3 r3 o3 mix_pt]; exact (hydro_rhs _ _ _ _ _ _).
Qed.
Lemma mix_plus a b c d : mix a b + mix c d = mix (a + c) (b + d).
Proof. unfold SpecMix.mix. ring. Qed.
Lemma newton_rhs k d e g g' : k - d * mix g g' * e = mix (k - d * g * e) (k - d * g' * e).
Proof. unfold SpecMix.mix. ring. Qed.
Lemma newton_row c i a b : alike_body a b -> mixed_row (newton_eq (K:=RNum) M c i (mix_body m a b)) (newton_eq (K:=RNum) S c i a) (newton_eq (K:=RNum) T c i b).
Proof.
  intros Al. pose proof (axis_mix a b Al) as G. destruct A as (_ & _ & Ed). pose proof Al as (_ & _ & _ & De & _). split.
  - unfold newton_eq; rewrite ?G, ?Ed, ?De; change (g_of (mix_body m a b)) with (g_of a); change (dt M) with (dt S); change (density (mix_body m a b)) with (density a).
    destruct c; cbn [coefs]; rewrite !lin_app, (lin_mix [_; _; _; _; _]).
    + assert (X : lin u (map (fun e => (UF (fst e) CX, @nofZ RNum 1)) (children M i)) = mix (lin v (map (fun e => (UF (fst e) CX, @nofZ RNum 1)) (children S i))) (lin w (map (fun e => (UF (fst e) CX, @nofZ RNum 1)) (children T i)))).
      { unfold lin, children. rewrite !total_map, !total_filter. apply total_mix. intros j d e Hd He. pose proof (alike_nth j d e Hd He) as (_ & _ & Er & _). cbn [fst snd]. cbn [mix_body fb root]. rewrite Er.
        destruct (match root (fb d) with Some k => Nat.eqb k i | None => false end); unfold mix_unknowns, SpecMix.mix; unr; eqR; ring. }
      rewrite X. exact (mix_plus _ _ _ _).
    + assert (X : lin u (map (fun e => (UF (fst e) CY, @nofZ RNum 1)) (children M i)) = mix (lin v (map (fun e => (UF (fst e) CY, @nofZ RNum 1)) (children S i))) (lin w (map (fun e => (UF (fst e) CY, @nofZ RNum 1)) (children T i)))).
      { unfold lin, children. rewrite !total_map, !total_filter. apply total_mix. intros j d e Hd He. pose proof (alike_nth j d e Hd He) as (_ & _ & Er & _). cbn [fst snd]. cbn [mix_body fb root]. rewrite Er.
        destruct (match root (fb d) with Some k => Nat.eqb k i | None => false end); unfold mix_unknowns, SpecMix.mix; unr; eqR; ring. }
      rewrite X. exact (mix_plus _ _ _ _).
    + set (F := fun e : nat * sbody RNum => let arm := vsub (get_axis (g_of (snd e))) (get_axis (g_of a)) in [(UF (fst e) CX, (- y arm)%num); (UF (fst e) CY, x arm); (UF (fst e) CO, nofZ 1)]).
      assert (X : lin u (flat_map F (children M i)) = mix (lin v (flat_map F (children S i))) (lin w (flat_map F (children T i)))).
      { unfold lin, children. rewrite !total_flat_map, !total_filter. apply total_mix. intros j d e Hd He. pose proof (alike_nth j d e Hd He) as Al'. pose proof (axis_mix d e Al') as G'. destruct Al' as (_ & _ & Er & _).
        cbn [fst snd]. cbn [mix_body fb root]. rewrite Er.
        destruct (match root (fb d) with Some k => Nat.eqb k i | None => false end); [|unfold SpecMix.mix; eqR; ring]. unfold F. cbn [fst snd]. rewrite G'. change (g_of (mix_body m d e)) with (g_of d). match goal with |- total _ ?L = _ => exact (lin_mix L) end. }
      rewrite X. exact (mix_plus _ _ _ _).
  - unfold newton_eq; rewrite ?G, ?Ed, ?De; change (g_of (mix_body m a b)) with (g_of a); change (dt M) with (dt S); change (density (mix_body m a b)) with (density a).
    destruct c; cbn [rhs mix_system gravity mix_pt]; [exact (newton_rhs _ _ _ _ _)|exact (newton_rhs _ _ _ _ _)|].
    assert (D : forall z : pt, dot (K:=RNum) z (mix_pt m (gravity S) (gravity T)) = mix (dot (K:=RNum) z (gravity S)) (dot (K:=RNum) z (gravity T))).
    { intros z. unfold dot, mix_pt, SpecMix.mix, P, px, py. cbn [x y]. unr. eqR. ring. }
    rewrite D. exact (newton_rhs _ _ _ _ _).
Qed.
Lemma speed_row c i a b : alike_body a b -> mixed_row (speed_eq (K:=RNum) M c i (mix_body m a b)) (speed_eq (K:=RNum) S c i a) (speed_eq (K:=RNum) T c i b).
Proof.
  intros Al. pose proof (axis_mix a b Al) as G. pose proof Al as (_ & _ & Er & _).
  assert (AX : forall j (z : sspace RNum -> vec RNum), z = (fun Z => match nth_error (sbodies Z) j with Some rt => get_axis (g_of rt) | None => vzero end) -> z M = z S /\ z T = z S).
  { intros j z ->. destruct (nth_error (sbodies M) j) as [c0|] eqn:Hc.
    - destruct (mix_cases j c0 Hc) as (a' & b' & Ha & Hb & -> & Al'). rewrite Ha, Hb. rewrite (axis_mix a' b' Al'). split; reflexivity.
    - apply nth_error_None in Hc. destruct mix_length as [L L']. rewrite (proj2 (nth_error_None (sbodies S) j)), (proj2 (nth_error_None (sbodies T) j)) by lia. split; reflexivity. }
  apply same_coefs.
  - unfold speed_eq. cbn [coefs]. f_equal. change (root (fb (mix_body m a b))) with (root (fb a)). destruct (root (fb a)) as [j|]; [|reflexivity].
    destruct (AX j _ eq_refl) as [E _]. rewrite E. reflexivity.
  - unfold speed_eq. cbn [coefs]. f_equal. rewrite Er, G. destruct (root (fb a)) as [j|]; [|reflexivity]. destruct (AX j _ eq_refl) as [_ E]. rewrite E. reflexivity.
  - unfold speed_eq. cbn [rhs]. cbn [mix_body fb own]. destruct c; reflexivity.
Qed.

(** ** Slip *)

Section Slip.
Variables (at2 : R -> R -> R) (tp ip : R) (sk sk' sk2 : pt -> pt) (ff ff' ff2 : att RNum -> R).
Hypothesis (Hsk : forall q, sk2 q = mix_pt m (sk q) (sk' q)) (Hff : forall a, ff2 a = mix (ff a) (ff' a)).
Hypothesis (NSR : no_self_root S) (SolS : solution S PNull v) (SolT : solution T PNull w).
Notation slipS := (slip_eq (K:=RNum) ln at2 tp ip (/4) (/1000) S sk ff).
Notation slipT := (slip_eq (K:=RNum) ln at2 tp ip (/4) (/1000) T sk' ff').
Notation slipM := (slip_eq (K:=RNum) ln at2 tp ip (/4) (/1000) M sk2 ff2).

(** The whole sum, also for bodies that do not turn. *)
Definition a3_full (s : att RNum) (same : bool) (n : nat) (g : body RNum) : R :=
  fold_left (fun a e => let '(j, l) := e in
    let X := xi (K:=RNum) ln at2 (/1000) (same && Nat.eqb n j) (r l) s (vabs (dl l) * / 4)%num in
    let r0 := vsub (r l) (get_axis g) in
    (a - dot X (mkVec (dot (rotl r0) (dl l)) (dot (mkVec (- x (dl l)) (- y (dl l))) r0)))%num) (indexed (alist g)) (@nofZ RNum 0).
Lemma a3_times (s : att RNum) (same : bool) (n : nat) (b : sbody RNum) (z : R) :
  (isrigid (o3 (Flow.Model.kspring (fb b))) = true -> root (fb b) = None -> z = o3 (own (fb b))) ->
  a3 (K:=RNum) ln at2 (/4) (/1000) s same n b * z = a3_full s same n (g_of b) * z.
Proof.
  intros H. unfold a3. destruct (isrigid (o3 (Flow.Model.kspring (fb b)))); [|reflexivity]. destruct (root (fb b)) as [k|]; [rewrite andb_false_r; reflexivity|].
  destruct (@neqb RNum (o3 (own (fb b))) (nofZ 0)) eqn:E; [|reflexivity]. cbn [andb]. change (@neqb RNum) with Reqb in E. change (@nofZ RNum) with IZR in *. apply Reqb_true in E.
  rewrite H by reflexivity. rewrite E. eqR. ring.
Qed.
Lemma self_T : no_self_root T.
Proof.
  intros i b Hb. destruct mix_length as [_ L]. destruct (nth_error (sbodies S) i) as [a|] eqn:Ha.
  - destruct (alike_nth i a b Ha Hb) as (_ & _ & -> & _). apply (NSR i a Ha).
  - apply nth_error_None in Ha. assert (i < length (sbodies T))%nat by (apply nth_error_Some; congruence). lia.
Qed.
Lemma turn_S i a : nth_error (sbodies S) i = Some a -> isrigid (o3 (Flow.Model.kspring (fb a))) = true -> root (fb a) = None -> v (UV i CO) = o3 (own (fb a)).
Proof. intros Ha K Rt. pose proof (speed_rows S PNull v SolS i a CO Ha (NSR i a Ha) (or_introl K)) as X. rewrite Rt in X. exact X. Qed.
Lemma turn_T i b : nth_error (sbodies T) i = Some b -> isrigid (o3 (Flow.Model.kspring (fb b))) = true -> root (fb b) = None -> w (UV i CO) = o3 (own (fb b)).
Proof. intros Hb K Rt. pose proof (speed_rows T PNull w SolT i b CO Hb (self_T i b Hb) (or_introl K)) as X. rewrite Rt in X. exact X. Qed.

Lemma slip_row i n s : mixed_row (slipM i n s) (slipS i n s) (slipT i n s).
Proof.
  split.
  - rewrite !slip_coefs. unfold lin. rewrite !total_flat_map. apply total_mix. intros j a b Ha Hb. pose proof (alike_nth j a b Ha Hb) as Al. pose proof (axis_mix a b Al) as G.
    cbn [fst snd]. unfold slip_terms. rewrite !total_app, G. change (g_of (mix_body m a b)) with (g_of a).
    set (L := map _ (indexed (alist (g_of a)))). change (total (fun t : unk * R => snd t * u (fst t)) L) with (lin u L). change (total (fun t : unk * R => snd t * v (fst t)) L) with (lin v L).
    change (total (fun t : unk * R => snd t * w (fst t)) L) with (lin w L). rewrite lin_mix. rewrite !total_cons. cbn [fst snd].
    pose proof (a3_times s (Nat.eqb i j) n a (v (UV j CO)) (turn_S j a Ha)) as XS. pose proof (a3_times s (Nat.eqb i j) n b (w (UV j CO)) (turn_T j b Hb)) as XT.
    pose proof (a3_times s (Nat.eqb i j) n (mix_body m a b) (u (UV j CO))) as XM. rewrite G in XT. change (g_of (mix_body m a b)) with (g_of a) in XM.
    assert (HM : isrigid (o3 (Flow.Model.kspring (fb (mix_body m a b)))) = true -> root (fb (mix_body m a b)) = None -> u (UV j CO) = o3 (own (fb (mix_body m a b)))).
    { cbn [mix_body fb Flow.Model.kspring root own mix_vec3 o3]. intros K Rt. unfold mix_unknowns. destruct Al as (_ & Ks & Er & _).
      rewrite (turn_S j a Ha K Rt), (turn_T j b Hb); [reflexivity|rewrite Ks; exact K|rewrite Er; exact Rt]. }
    specialize (XM HM). clear HM. set (A0 := a3_full s (Nat.eqb i j) n (g_of a)) in *.
    set (aM := a3 (K:=RNum) ln at2 (/4) (/1000) s (Nat.eqb i j) n (mix_body m a b)) in *. set (aS := a3 (K:=RNum) ln at2 (/4) (/1000) s (Nat.eqb i j) n a) in *. set (aT := a3 (K:=RNum) ln at2 (/4) (/1000) s (Nat.eqb i j) n b) in *.
    clearbody aM aS aT A0. change (Num.T RNum) with R in *. unfold total. cbn [fold_right map]. unfold mix_unknowns, SpecMix.mix in *.
    replace (aM * ip * ((1 - m) * v (UV j CO) + m * w (UV j CO))) with (ip * (aM * ((1 - m) * v (UV j CO) + m * w (UV j CO)))) by ring. rewrite XM.
    replace (aS * ip * v (UV j CO)) with (ip * (aS * v (UV j CO))) by ring. rewrite XS. replace (aT * ip * w (UV j CO)) with (ip * (aT * w (UV j CO))) by ring. rewrite XT. ring.
  - unfold slip_eq. cbn [rhs mix_system inf_speed]. rewrite Hsk, Hff. unfold mix_pt, SpecMix.mix, P, px, py, dot, rotl. cbn [x y]. unr. eqR. ring.
Qed.
End Slip.
End Mix.

(** ** Solutions *)

Lemma shapes_mix m S T : alike S T -> shapes_of (mix_system m S T) = shapes_of S /\ shapes_of T = shapes_of S.
Proof.
  intros (F & El & _). unfold shapes_of. cbn [sbodies mix_system late]. rewrite El. induction F as [|a b l l' (E & K & _ & _ & _ & Es & Eu) F [IH IH']]; [split; reflexivity|].
  cbn [mix_bodies map]. rewrite IH, IH'. split; f_equal. unfold shape_of, g_of. rewrite E, K, Es, Eu. reflexivity.
Qed.

Lemma solution_mix m at2 tp ip sk sk' sk2 ff ff' ff2 S T v w : alike S T -> no_self_root S ->
  (forall q, sk2 q = mix_pt m (sk q) (sk' q)) -> (forall a, ff2 a = mix m (ff a) (ff' a)) ->
  solution_with at2 tp ip sk ff S PNull v -> solution_with at2 tp ip sk' ff' T PNull w ->
  solution_with at2 tp ip sk2 ff2 (mix_system m S T) PNull (mix_unknowns m v w).
Proof.
  intros Al NSR Hsk Hff Sol Sol'. pose proof (with_solution _ _ _ _ _ _ _ _ Sol) as Sol0. pose proof (with_solution _ _ _ _ _ _ _ _ Sol') as Sol0'.
  destruct (shapes_mix m S T Al) as [ShM ShT]. pose proof (mix_length m S T Al) as [LM LT].
  destruct Sol as (addr & es & q & order & sl & M0 & M0' & Hp & HP & HR & HL & HF & Hsol).
  destruct Sol' as (addr' & es' & q' & order' & sl' & M1 & M1' & Hp' & HP' & HR' & HL' & HF' & Hsol').
  assert (Ees : es' = es /\ q' = q) by (rewrite ShT in Hp'; split; congruence). destruct Ees as [-> ->].
  assert (NSM : no_self_root (mix_system m S T)).
  { intros i c Hc. destruct (mix_cases m S T Al i c Hc) as (a & b & Ha & _ & -> & _). exact (NSR i a Ha). }
  assert (NST : no_self_root T) by (apply (self_T 0 S T Al NSR)).
  apply (holds_with at2 tp ip (mix_system m S T) sk2 ff2 PNull es q); [rewrite ShM; exact Hp| |].
  - intros c j Hc Rc. apply In_nth_error in Hc. destruct Hc as (i & Hc). destruct (mix_cases m S T Al i c Hc) as (a & b & Ha & _ & -> & _). rewrite LM. exact (HL a j (nth_error_In _ _ Ha) Rc).
  - intros e qm He Eq. pose proof (plan_fits_S _ _ _ _ (eq_trans Hp (f_equal Some (f_equal (pair es) eq_refl))) He) as Ft.
    assert (Row : forall qs, eqn_of (K:=RNum) ln at2 tp ip (/4) (/1000) S sk ff e = Some qs -> NoDup (map fst (coefs qs)) -> lin v (coefs qs) = rhs qs).
    { intros qs E ND. exact (row_holds at2 tp ip S sk ff addr PNull es q order sl M0 M0' v e qs Hp HP HR HL HF Hsol He E ND). }
    assert (Row' : forall qs, eqn_of (K:=RNum) ln at2 tp ip (/4) (/1000) T sk' ff' e = Some qs -> NoDup (map fst (coefs qs)) -> lin w (coefs qs) = rhs qs).
    { intros qs E ND. exact (row_holds at2 tp ip T sk' ff' addr' PNull es q order' sl' M1 M1' w e qs Hp' HP' HR' HL' HF' Hsol' He E ND). }
    assert (Close : forall q0 q1, eqn_of (K:=RNum) ln at2 tp ip (/4) (/1000) S sk ff e = Some q0 -> eqn_of (K:=RNum) ln at2 tp ip (/4) (/1000) T sk' ff' e = Some q1 ->
      NoDup (map fst (coefs q0)) -> NoDup (map fst (coefs q1)) -> NoDup (map fst (coefs qm)) -> mixed_row m v w qm q0 q1 ->
      NoDup (map fst (coefs qm)) /\ total (fun t : unk * R => snd t * mix_unknowns m v w (fst t)) (coefs qm) = rhs qm).
    { intros q0 q1 E0 E1 N0 N1 NM [L R]. split; [exact NM|]. transitivity (mix m (lin v (coefs q0)) (lin w (coefs q1))); [exact L|]. rewrite R, (Row q0 E0 N0), (Row' q1 E1 N1). reflexivity. }
    clear Row Row'. unfold eqn_of in Eq, Close. destruct (nth_error (sbodies (mix_system m S T)) (ebody e)) as [c|] eqn:Hc; [|discriminate].
    destruct (mix_cases m S T Al _ c Hc) as (a & b & Ha & Hb & -> & Ab). rewrite Ha, Hb in Close. unfold fits in Ft.
    destruct (ekind e) as [| | | |c|c|c k|c|c] eqn:Ek.
    + change (alist (g_of (mix_body m a b))) with (alist (g_of a)) in Eq. rewrite (axis_mix a b Ab) in Close. destruct (nth_error (alist (g_of a)) (eseg e)) as [s|]; [|discriminate].
      cbn [option_map] in *. injection Eq as <-. apply (Close _ _ eq_refl eq_refl); try apply slip_nodup. apply slip_row; assumption.
    + injection Eq as <-. apply (Close _ _ eq_refl eq_refl); try (cbn; repeat constructor; simpl; tauto). apply zero_row.
    + injection Eq as <-. apply (Close _ _ eq_refl eq_refl); try apply inf_nodup. apply inf_row; assumption.
    + injection Eq as <-. apply (Close _ _ eq_refl eq_refl); try apply ones_nodup. apply steady_row; assumption.
    + injection Eq as <-. apply (Close _ _ eq_refl eq_refl); try (apply ProofsTurn.speed_nodup; assumption). apply speed_row; assumption.
    + injection Eq as <-. apply (Close _ _ eq_refl eq_refl); try (cbn; repeat constructor; simpl; tauto). apply same_coefs; try reflexivity. unfold stop_eq, mix. cbn [rhs]. unr. eqR. ring.
    + subst k. injection Eq as <-. apply (Close _ _ eq_refl eq_refl); try (cbn; repeat constructor; simpl; intuition discriminate). apply hooke_row; assumption.
    + injection Eq as <-. apply (Close _ _ eq_refl eq_refl); try apply hydro_nodup. apply hydro_row; assumption.
    + injection Eq as <-. apply (Close _ _ eq_refl eq_refl); try (apply newton_nodup; assumption). apply newton_row; assumption.
Qed.
