(** The linear system with the bodies in another order. *)

From Coq Require Import ZArith Bool List Reals Lra Lia Permutation FunctionalExtensionality.
From Verif.Base Require Import Num.
From Verif.Matrix Require Import Model.
From Verif.Body Require Import Model Spec.
From Verif.Flow Require Import Model.
From Verif.System Require Import Model Spec SpecNumber Proofs ProofsCollision ProofsWrite ProofsPhysics ProofsSolve ProofsXi ProofsLaws ProofsTurn.
Import ListNotations.
Local Open Scope R_scope.

(** ** The plan *)

(** What the plan of a body holds, but for the order of the bodies. *)
Definition loc (s : shape) (k : kind) (n : nat) : Prop :=
  match k with
  | Slip => (n < nseg s)%nat /\ n <> special s
  | Zero => n = special s /\ kutta s = true
  | InfSteady | Steady => n = special s /\ kutta s = false
  | Speed c => n = 0%nat /\ rigid s c = true
  | Hooke c u => n = 0%nat /\ u = false /\ rigid s c = false
  | Stop _ => False
  | Hydro _ | Newton _ => n = 0%nat
  end.

Lemma plan_segs_loc sp ku b l : forall row once e, In e (fst (plan_segs sp ku b l row once)) ->
  ebody e = b /\ In (eseg e) l /\
  match ekind e with
  | Slip => eseg e <> sp
  | Zero => eseg e = sp /\ ku = true
  | InfSteady | Steady => eseg e = sp /\ ku = false
  | _ => False
  end.
Proof.
  induction l as [|i l IH]; intros row once e; [intros []|]. cbn [plan_segs].
  destruct (Nat.eqb_spec i sp) as [->|N]; cbn [negb]; [destruct ku|].
  - specialize (IH (Datatypes.S row) once). destruct (plan_segs _ _ _ _ _ _) as [m o]. cbn [fst] in *. intros [<-|H]; [cbn; auto|]. destruct (IH e H) as (A & B & C). split; [exact A|]. split; [right; exact B|exact C].
  - specialize (IH (Datatypes.S row) true). destruct (plan_segs _ _ _ _ _ _) as [m o]. cbn [fst] in *. intros [<-|H]; [destruct once; cbn; auto|]. destruct (IH e H) as (A & B & C). split; [exact A|]. split; [right; exact B|exact C].
  - specialize (IH (Datatypes.S row) once). destruct (plan_segs _ _ _ _ _ _) as [m o]. cbn [fst] in *. intros [<-|H]; [cbn; auto|]. destruct (IH e H) as (A & B & C). split; [exact A|]. split; [right; exact B|exact C].
Qed.
(** The first special segment of all ends the search. *)
Lemma plan_segs_steady sp ku b l : forall row once, NoDup l -> forall e, In e (fst (plan_segs sp ku b l row once)) -> ekind e = Steady -> once = true.
Proof.
  induction l as [|i l IH]; intros row once ND e; [intros []|]. apply NoDup_cons_iff in ND. destruct ND as [Ni ND]. cbn [plan_segs].
  destruct (Nat.eqb_spec i sp) as [->|N]; cbn [negb]; [destruct ku|].
  - specialize (IH (Datatypes.S row) once ND e). destruct (plan_segs _ _ _ _ _ _) as [m o]. cbn [fst] in *. intros [<-|H]; [discriminate|auto].
  - pose proof (plan_segs_loc sp false b l (Datatypes.S row) true e) as X. destruct (plan_segs _ _ _ _ _ _) as [m o]. cbn [fst] in *. intros [<-|H]; [destruct once; [reflexivity|discriminate]|].
    intros K. destruct (X H) as (_ & B & C). rewrite K in C. destruct C as [C _]. rewrite C in B. contradiction.
  - specialize (IH (Datatypes.S row) once ND e). destruct (plan_segs _ _ _ _ _ _) as [m o]. cbn [fst] in *. intros [<-|H]; [discriminate|auto].
Qed.

Lemma plan_loc l : forall b row once es p e, plan_from b l row once PNull = Some (es, p) -> In e es ->
  (b <= ebody e)%nat /\ exists s, nth_error l (ebody e - b) = Some s /\ loc s (ekind e) (eseg e) /\
  (ekind e = Steady -> once || existsb (fun s => negb (kutta s)) (firstn (ebody e - b) l) = true).
Proof.
  induction l as [|s l IH]; intros b row once es p e; cbn [plan_from]; [intros H; injection H as <- _; intros []|].
  unfold plan_body. destruct (Nat.leb_spec (nseg s) (special s)) as [|L]; [discriminate|].
  pose proof (plan_segs_loc (special s) (kutta s) b (seq 0 (nseg s)) row once) as K.
  pose proof (plan_segs_steady (special s) (kutta s) b (seq 0 (nseg s)) row once (seq_NoDup _ _)) as K2.
  pose proof (plan_segs_once (special s) (kutta s) b (seq 0 (nseg s)) row once (seq_NoDup _ _) ltac:(apply in_seq; lia)) as K3.
  destruct (plan_segs _ _ _ _ _ _) as [m o]. cbn [fst snd] in K, K2, K3. rewrite !plan_spring_null.
  destruct (plan_from _ l _ o PNull) as [[es' p']|] eqn:E; [|discriminate]. intros H. injection H as <- _. rewrite !in_app_iff. intros [[H|H]|H].
  - destruct (K e H) as (EB & EI & EK). split; [lia|]. exists s. replace (ebody e - b)%nat with 0%nat by lia. split; [reflexivity|]. apply in_seq in EI. split.
    + unfold loc. destruct (ekind e); tauto.
    + intros ES. rewrite (K2 e H ES). reflexivity.
  - assert (Q : forall c n, (b <= b)%nat /\ exists s0, nth_error (s :: l) (b - b) = Some s0 /\ loc s0 (if rigid s c then Speed c else Hooke c false) 0 /\ ((if rigid s c then Speed c else Hooke c false) = Steady -> n = true)).
    { intros c n. split; [lia|]. exists s. rewrite Nat.sub_diag. split; [reflexivity|]. destruct (rigid s c) eqn:Er; (split; [cbn; auto|discriminate]). }
    assert (Q' : forall k n, match k with Hydro _ | Newton _ => True | _ => False end -> (b <= b)%nat /\ exists s0, nth_error (s :: l) (b - b) = Some s0 /\ loc s0 k 0 /\ (k = Steady -> n = true)).
    { intros k n Hk. split; [lia|]. exists s. rewrite Nat.sub_diag. split; [reflexivity|]. destruct k; try tauto; (split; [reflexivity|discriminate]). }
    cbn [In] in H. destruct H as [<-|[<-|[<-|[<-|[<-|[<-|[<-|[<-|[<-|[]]]]]]]]]]; cbn [ebody ekind eseg]; first [apply Q | apply Q'; exact I].
  - destruct (IH _ _ _ _ _ _ E H) as (Le & s' & N & Lc & F). split; [lia|]. exists s'.
    replace (ebody e - b)%nat with (Datatypes.S (ebody e - Datatypes.S b)) by lia. split; [exact N|]. split; [exact Lc|].
    intros ES. cbn [firstn existsb]. rewrite orb_assoc, <- K3. apply F, ES.
Qed.

Ltac pick := first [left; reflexivity|right; pick].
Lemma plan_has l : forall b row once es p, plan_from b l row once PNull = Some (es, p) -> forall i s k n, nth_error l i = Some s -> loc s k n ->
  match k with InfSteady | Steady => False | _ => True end -> exists e, In e es /\ ebody e = (b + i)%nat /\ eseg e = n /\ ekind e = k.
Proof.
  induction l as [|s l IH]; intros b row once es p H i s' k n Hi Lc NS; [destruct i; discriminate|]. pose proof H as H0. cbn [plan_from] in H.
  unfold plan_body in H. destruct (Nat.leb_spec (nseg s) (special s)) as [|L]; [discriminate|].
  pose proof (fun Hn N => plan_segs_all (special s) (kutta s) b n (seq 0 (nseg s)) row once Hn N) as KA.
  pose proof (plan_segs_special (special s) (kutta s) b (seq 0 (nseg s)) row once ltac:(apply in_seq; lia) (seq_NoDup _ _)) as KS.
  destruct (plan_segs _ _ _ _ _ _) as [m o]. cbn [fst] in KA, KS. rewrite !plan_spring_null in H.
  destruct (plan_from _ l _ o PNull) as [[es' p']|] eqn:E; [|discriminate]. injection H as <- _.
  destruct i as [|i].
  - cbn in Hi. injection Hi as <-. destruct k as [| | | |c|c|c u|c|c]; cbn [loc] in Lc; try tauto.
    + destruct (KA ltac:(apply in_seq; lia) ltac:(tauto)) as (e & A & B & C & D). exists e. split; [apply in_or_app; left; apply in_or_app; left; exact A|]. split; [lia|auto].
    + destruct Lc as [-> Ku]. rewrite Ku in KS. destruct KS as (r & A). eexists. split; [apply in_or_app; left; apply in_or_app; left; exact A|]. cbn. split; [lia|auto].
    + destruct Lc as [-> Rg]. destruct c; (refine (ex_intro _ (mkEntry _ _ b 0) (conj _ (conj _ (conj eq_refl eq_refl)))); [apply in_or_app; left; apply in_or_app; right; cbn [In]; rewrite Rg; pick|cbn; lia]).
    + destruct Lc as (-> & -> & Rg). destruct c; (refine (ex_intro _ (mkEntry _ _ b 0) (conj _ (conj _ (conj eq_refl eq_refl)))); [apply in_or_app; left; apply in_or_app; right; cbn [In]; rewrite Rg; pick|cbn; lia]).
    + subst n. destruct c; (refine (ex_intro _ (mkEntry _ _ b 0) (conj _ (conj _ (conj eq_refl eq_refl)))); [apply in_or_app; left; apply in_or_app; right; cbn [In]; pick|cbn; lia]).
    + subst n. destruct c; (refine (ex_intro _ (mkEntry _ _ b 0) (conj _ (conj _ (conj eq_refl eq_refl)))); [apply in_or_app; left; apply in_or_app; right; cbn [In]; pick|cbn; lia]).
  - destruct (IH _ _ _ _ _ E i s' k n Hi Lc NS) as (e & A & B & C). exists e. split; [apply in_or_app; right; exact A|]. split; [lia|exact C].
Qed.

Lemma plan_some l : forall b row once, (exists es, plan_from b l row once PNull = Some (es, PNull)) <-> Forall (fun s => (special s < nseg s)%nat) l.
Proof.
  induction l as [|s l IH]; intros b row once; [split; [constructor|exists []; reflexivity]|]. cbn [plan_from]. unfold plan_body.
  destruct (Nat.leb_spec (nseg s) (special s)) as [L|L].
  - split; [intros (es & H); discriminate|]. intros H. apply Forall_cons_iff in H. lia.
  - destruct (plan_segs _ _ _ _ _ _) as [m o]. rewrite !plan_spring_null. specialize (IH (Datatypes.S b) (row + nseg s + 9)%nat o). rewrite Forall_cons_iff, <- IH. split.
    + intros (es & H). split; [exact L|]. destruct (plan_from _ l _ o PNull) as [[es' p']|]; [|discriminate]. injection H as _ ->. exists es'. reflexivity.
    + intros (_ & es & ->). eexists. reflexivity.
Qed.
Lemma plan_null l : forall b row once es p, plan_from b l row once PNull = Some (es, p) -> p = PNull.
Proof.
  intros b row once es p. pose proof (plan_qt l b row once) as X. intros H. rewrite H in X. destruct (plan_from b (map shape_qt l) row once PNull) as [[es' p']|]; [|destruct X]. apply X.
Qed.

(** ** Sums in another order *)

Lemma total_perm {A} (f : A -> R) l l' : Permutation l l' -> total f l = total f l'.
Proof. induction 1; rewrite ?total_cons in *; try lra. Qed.
Lemma in_indexed {A} (l : list A) i a : In (i, a) (indexed l) <-> nth_error l i = Some a.
Proof.
  unfold indexed. assert (X : forall (l : list A) s i, In (i, a) (combine (seq s (length l)) l) <-> (s <= i)%nat /\ nth_error l (i - s) = Some a).
  { clear. induction l as [|c l IH]; intros s i; [split; [intros []|intros [_ H]; destruct (i - s)%nat; discriminate]|]. cbn [length seq combine In]. rewrite IH. split.
    - intros [H|[H1 H2]]; [injection H as <- <-; rewrite Nat.sub_diag; auto|]. split; [lia|]. replace (i - s)%nat with (Datatypes.S (i - Datatypes.S s)) by lia. exact H2.
    - intros [H1 H2]. destruct (Nat.eq_dec i s) as [->|N]; [rewrite Nat.sub_diag in H2; injection H2 as <-; left; reflexivity|]. right. split; [lia|].
      replace (i - s)%nat with (Datatypes.S (i - Datatypes.S s)) in H2 by lia. exact H2. }
  rewrite X, Nat.sub_0_r. split; [tauto|]. intros H. split; [lia|exact H].
Qed.
Lemma nodup_indexed {A} (l : list A) : NoDup (indexed l).
Proof. apply (NoDup_map_inv fst). unfold indexed. rewrite map_fst_indexed. apply seq_NoDup. Qed.

Section Number.
Variables (s t : nat -> nat) (S S' : sspace RNum).
Hypothesis (U : undoes s t) (Ren : renumbered s S S').
Let ts i : t (s i) = i := proj1 U i.
Let st i : s (t i) = i := proj2 U i.

Definition moved_to (e : nat * sbody RNum) : nat * sbody RNum := (s (fst e), reroot s (snd e)).
Lemma s_inj i j : s i = s j -> i = j.
Proof. intros H. apply (f_equal t) in H. rewrite !ts in H. exact H. Qed.
Lemma s_eqb i j : Nat.eqb (s i) (s j) = Nat.eqb i j.
Proof. destruct (Nat.eqb_spec i j) as [->|N]; [apply Nat.eqb_refl|]. apply Nat.eqb_neq. intros H. apply N, s_inj, H. Qed.
Lemma nth_new i : nth_error (sbodies S') (s i) = option_map (reroot s) (nth_error (sbodies S) i).
Proof. exact (proj1 Ren i). Qed.
Lemma nth_old i b' : nth_error (sbodies S') i = Some b' -> exists b, nth_error (sbodies S) (t i) = Some b /\ b' = reroot s b.
Proof.
  intros H. rewrite <- (st i), nth_new in H. destruct (nth_error (sbodies S) (t i)) as [b|]; [|discriminate]. cbn in H. injection H as <-. exists b. auto.
Qed.
Lemma bodies_perm : Permutation (bodies_i S') (map moved_to (bodies_i S)).
Proof.
  apply NoDup_Permutation.
  - apply nodup_indexed.
  - apply (NoDup_map_inv fst). rewrite map_map. cbn [moved_to fst]. rewrite <- (map_map fst s). apply FinFun.Injective_map_NoDup; [intros a c; apply s_inj|].
    unfold bodies_i, indexed. rewrite map_fst_indexed. apply seq_NoDup.
  - intros [i b']. unfold bodies_i. rewrite in_indexed, in_map_iff. split.
    + intros H. destruct (nth_old i b' H) as (b & Hb & ->). exists (t i, b). split; [unfold moved_to; cbn [fst snd]; rewrite st; reflexivity|apply in_indexed, Hb].
    + intros ([j b] & E & H). unfold moved_to in E. cbn [fst snd] in E. injection E as <- <-. apply in_indexed in H. rewrite nth_new, H. reflexivity.
Qed.
Lemma children_perm i : Permutation (children S' (s i)) (map moved_to (children S i)).
Proof.
  unfold children. assert (X : forall l l' (f : nat * sbody RNum -> bool), Permutation l l' -> Permutation (filter f l) (filter f l')).
  { clear. intros l l' f H. induction H as [|a l l' H IH|a c l|l l' l'' H IH H' IH']; cbn [filter]; [constructor| | |eapply Permutation_trans; eauto].
    - destruct (f a); [constructor; exact IH|exact IH].
    - destruct (f a), (f c); try apply Permutation_refl. apply perm_swap. }
  eapply Permutation_trans; [apply X, bodies_perm|]. clear X.
  replace (filter _ (map moved_to (bodies_i S))) with (map moved_to (filter (fun e : nat * sbody RNum => match root (fb (snd e)) with Some k => Nat.eqb k i | None => false end) (bodies_i S))); [apply Permutation_refl|].
  induction (bodies_i S) as [|[j b] l IH]; [reflexivity|]. cbn [map filter moved_to fst snd]. cbn [reroot fb root].
  destruct (root (fb b)) as [k|]; cbn [option_map]; [rewrite s_eqb; destruct (Nat.eqb k i)|]; cbn [map]; rewrite IH; reflexivity.
Qed.

(** ** The equations *)

Variable v : unk -> R.
Notation v' := (unknowns_with t v).

Lemma v_new u : v' (unk_with s u) = v u.
Proof. unfold unknowns_with. f_equal. destruct u; cbn [unk_with]; rewrite ts; reflexivity. Qed.

Lemma lin_flat_new (f g : nat * sbody RNum -> list (unk * R)) : (forall e, lin v' (g (moved_to e)) = lin v (f e)) ->
  lin v' (flat_map g (bodies_i S')) = lin v (flat_map f (bodies_i S)).
Proof.
  intros H. unfold lin. rewrite !total_flat_map, (total_perm _ _ _ bodies_perm), total_map. apply total_ext. intros e _. exact (H e).
Qed.
Lemma lin_new (l : list (unk * R)) : lin v' (map (fun e => (unk_with s (fst e), snd e)) l) = lin v l.
Proof. unfold lin. rewrite total_map. apply total_ext. intros [u a] _. cbn [fst snd]. rewrite v_new. reflexivity. Qed.
Lemma map_new {A} (f g : A -> unk * R) l : (forall a, g a = (unk_with s (fst (f a)), snd (f a))) -> map g l = map (fun e => (unk_with s (fst e), snd e)) (map f l).
Proof. intros H. rewrite map_map. apply map_ext. exact H. Qed.

Variables (at2 : R -> R -> R) (tp ip : R) (sk : pt -> pt) (ff : att RNum -> R).
Notation slip_ S := (slip_eq (K:=RNum) ln at2 tp ip (/4) (/1000) S sk ff).

Lemma a3_new a same n b : a3 (K:=RNum) ln at2 (/4) (/1000) a same n (reroot s b) = a3 (K:=RNum) ln at2 (/4) (/1000) a same n b.
Proof. unfold a3. cbn [reroot fb root Flow.Model.kspring own]. destruct (root (fb b)); reflexivity. Qed.

Lemma slip_row i n a : lin v' (coefs (slip_ S' (s i) n a)) = lin v (coefs (slip_ S i n a)) /\ rhs (slip_ S' (s i) n a) = rhs (slip_ S i n a).
Proof.
  split.
  - unfold slip_eq. cbn [coefs]. apply lin_flat_new. intros [j b]. unfold moved_to. cbn [fst snd]. rewrite s_eqb, a3_new.
    rewrite <- lin_new, map_app. f_equal. f_equal. change (alist (g_of (reroot s b))) with (alist (g_of b)). apply map_new. intros [k l]. reflexivity.
  - unfold slip_eq. cbn [rhs]. destruct Ren as (_ & _ & _ & _ & -> & _). reflexivity.
Qed.
Lemma ones_new j b : ones (K:=RNum) (s j) (reroot s b) = map (fun e => (unk_with s (fst e), snd e)) (ones (K:=RNum) j b).
Proof. unfold ones. rewrite map_app. f_equal. change (alist (g_of (reroot s b))) with (alist (g_of b)). apply map_new. intros k. reflexivity. Qed.
Lemma circulation_new j b : body_circulation v' (s j, reroot s b) = body_circulation v (j, b).
Proof. rewrite <- (ProofsSolve.ones_lin v' (s j) (reroot s b)), <- (ProofsSolve.ones_lin v j b), ones_new. apply lin_new. Qed.

Lemma each_new (f g : nat -> sbody RNum -> R) : (forall i b, g (s i) (reroot s b) = f i b) -> each S' g = each S f.
Proof.
  intros H. unfold each. fold (bodies_i S'). fold (bodies_i S). rewrite (total_perm _ _ _ bodies_perm), total_map. apply total_ext. intros [i b] _. apply H.
Qed.

(** Equations about a single body keep their form. *)
Definition same_row (q q' : eqn RNum) : Prop := lin v' (coefs q') = lin v (coefs q) /\ rhs q' = rhs q.
Lemma single_row q q' : coefs q' = map (fun e => (unk_with s (fst e), snd e)) (coefs q) -> rhs q' = rhs q -> same_row q q'.
Proof. intros C E. split; [rewrite C; apply lin_new|exact E]. Qed.

Lemma zero_row i n : same_row (zero_eq (K:=RNum) i n) (zero_eq (K:=RNum) (s i) n).
Proof. apply single_row; reflexivity. Qed.
Lemma hooke_row c i b : same_row (hooke_eq (K:=RNum) c false i b) (hooke_eq (K:=RNum) c false (s i) (reroot s b)).
Proof. apply single_row; reflexivity. Qed.
Lemma hydro_row c i b : same_row (hydro_eq (K:=RNum) S c i b) (hydro_eq (K:=RNum) S' c (s i) (reroot s b)).
Proof.
  destruct Ren as (_ & _ & Ed & _). unfold hydro_eq. change (g_of (reroot s b)) with (g_of b). rewrite Ed.
  apply single_row; destruct c; cbn [coefs rhs]; rewrite ?map_app; try reflexivity; f_equal; apply map_new; intros e; reflexivity.
Qed.
Lemma speed_row c i b : same_row (speed_eq (K:=RNum) S c i b) (speed_eq (K:=RNum) S' c (s i) (reroot s b)).
Proof.
  apply single_row; [|reflexivity]. unfold speed_eq. cbn [coefs map fst snd unk_with]. f_equal. cbn [reroot fb root].
  destruct (root (fb b)) as [j|]; cbn [option_map]; [|reflexivity]. rewrite nth_new.
  destruct (nth_error (sbodies S) j) as [rt|]; cbn [option_map]; destruct c; reflexivity.
Qed.
Lemma newton_row c i b : same_row (newton_eq (K:=RNum) S c i b) (newton_eq (K:=RNum) S' c (s i) (reroot s b)).
Proof.
  destruct Ren as (_ & _ & Ed & Eg & _). unfold newton_eq. change (g_of (reroot s b)) with (g_of b). rewrite Ed, Eg.
  split; destruct c; cbn [coefs rhs]; try reflexivity; rewrite !lin_app; (f_equal; [match goal with |- _ = lin v ?l => exact (lin_new l) end|]).
  - unfold lin. rewrite !total_map, (total_perm _ _ _ (children_perm i)), total_map. apply total_ext. intros [j d] _. cbn [moved_to fst snd]. f_equal. apply (v_new (UF j CX)).
  - unfold lin. rewrite !total_map, (total_perm _ _ _ (children_perm i)), total_map. apply total_ext. intros [j d] _. cbn [moved_to fst snd]. f_equal. apply (v_new (UF j CY)).
  - unfold lin. rewrite !total_flat_map, (total_perm _ _ _ (children_perm i)), total_map. apply total_ext. intros [j d] _. cbn [moved_to fst snd].
    change (g_of (reroot s d)) with (g_of d). match goal with |- _ = total _ ?l => exact (lin_new l) end.
Qed.

(** ** Solutions *)

Lemma shapes_new i : nth_error (shapes_of S') (s i) = nth_error (shapes_of S) i.
Proof.
  unfold shapes_of. rewrite !nth_error_map, nth_new. destruct Ren as (_ & -> & _). destruct (nth_error (sbodies S) i) as [b|]; reflexivity.
Qed.
Lemma self_new : no_self_root S -> no_self_root S'.
Proof.
  intros N i b' H. destruct (nth_old i b' H) as (b & Hb & ->). cbn [reroot fb root]. specialize (N _ _ Hb). destruct (root (fb b)) as [k|]; [|discriminate].
  cbn [option_map]. intros E. injection E as E. apply N. f_equal. rewrite <- E, ts. reflexivity.
Qed.
Lemma roots_new : roots_listed S -> roots_listed S'.
Proof.
  intros H b' j Hb' Hr. apply In_nth_error in Hb'. destruct Hb' as (i & Hi). destruct (nth_old i b' Hi) as (b & Hb & ->). cbn [reroot fb root] in Hr.
  destruct (root (fb b)) as [k|] eqn:E; [|discriminate]. cbn [option_map] in Hr. injection Hr as <-.
  pose proof (H b k (nth_error_In _ _ Hb) E) as L. apply nth_error_Some. rewrite nth_new. apply nth_error_Some in L. destruct (nth_error (sbodies S) k); [discriminate|contradiction].
Qed.

Lemma total_but {A} (f g : A -> R) l a : NoDup l -> In a l -> total f l = total g l -> (forall e, In e l -> e <> a -> f e = g e) -> f a = g a.
Proof.
  intros ND Ha E H. apply in_split in Ha. destruct Ha as (l1 & l2 & ->). apply NoDup_remove_2 in ND. rewrite in_app_iff in ND.
  rewrite !total_app, !total_cons in E. rewrite (total_ext f g l1), (total_ext f g l2) in E; [lra| |].
  - intros e He. apply H; [apply in_or_app; right; right; exact He|intros ->; tauto].
  - intros e He. apply H; [apply in_or_app; left; exact He|intros ->; tauto].
Qed.
Lemma firstn_not_first i j b c (l : list (sbody RNum)) : nth_error l i = Some b -> nth_error l j = Some c -> kutta_ b = false -> kutta_ c = false -> i <> j ->
  existsb (fun c => negb (kutta_ c)) (firstn i l) = false -> existsb (fun c => negb (kutta_ c)) (firstn j l) = true.
Proof.
  intros Hi Hj Kb Kc N E. assert (L : (i < j)%nat).
  { destruct (Nat.lt_total i j) as [L|[L|L]]; [exact L|contradiction|]. exfalso.
    assert (X : In c (firstn i l)). { apply nth_error_In with (n := j). rewrite <- Hj. clear - L. revert i l L. induction j as [|j IH]; intros [|i] [|a l] L; try lia; try reflexivity. cbn. apply IH. lia. }
    apply not_true_iff_false in E. apply E. apply existsb_exists. exists c. rewrite Kc. auto. }
  apply existsb_exists. exists b. rewrite Kb. split; [|reflexivity]. apply nth_error_In with (n := i). rewrite <- Hi. clear - L. revert j l L. induction i as [|i IH]; intros [|j] [|a l] L; try lia; try reflexivity. cbn. apply IH. lia.
Qed.

(** A balanced solution leaves every body what it has to keep. *)
Lemma held_all : solution S PNull v -> balanced S v -> forall i b, nth_error (sbodies S) i = Some b -> kutta_ b = false -> body_circulation v (i, b) = held b.
Proof.
  intros Sol Bal i b Hi Kb. pose proof (special_rows S PNull v Sol i b Hi) as X. rewrite Kb in X.
  destruct (existsb _ (firstn i (sbodies S))) eqn:E; [exact X|]. unfold balanced, each in Bal. rewrite <- Bal in X.
  pose proof (total_but (body_circulation v) (fun e : nat * sbody RNum => if kutta_ (snd e) then body_circulation v e else held (snd e)) (indexed (sbodies S)) (i, b) (nodup_indexed _)) as T.
  cbn [snd] in T. rewrite Kb in T. apply T.
  - apply in_indexed, Hi.
  - rewrite X. apply total_ext. intros [j c] _. reflexivity.
  - intros [j c] Hj N. apply in_indexed in Hj. cbn [snd]. destruct (kutta_ c) eqn:Kc; [reflexivity|].
    pose proof (special_rows S PNull v Sol j c Hj) as Y. rewrite Kc in Y. rewrite (firstn_not_first i j b c _ Hi Hj Kb Kc) in Y; [exact Y| |exact E].
    intros ->. apply N. congruence.
Qed.

Lemma solution_new : no_self_root S -> single_steady S \/ balanced S v ->
  solution_with at2 tp ip sk ff S PNull v -> solution_with at2 tp ip sk ff S' PNull v'.
Proof.
  intros NSR SB Sol. pose proof (with_solution _ _ _ _ _ _ _ _ Sol) as Sol0.
  destruct Sol as (addr & es & q & order & sl & M & M' & Hp & HP & HR & HL & HF & Hsol).
  assert (PS : exists es', plan (shapes_of S') PNull = Some (es', PNull)).
  { unfold plan. apply plan_some. rewrite Forall_forall. intros x Hx. apply In_nth_error in Hx. destruct Hx as (i & Hi). rewrite <- (st i), shapes_new in Hi.
    assert (PL : Forall (fun s => (special s < nseg s)%nat) (shapes_of S)).
    { apply (plan_some _ 0 0 false). exists es. pose proof (plan_null _ _ _ _ _ _ Hp) as ->. exact Hp. }
    rewrite Forall_forall in PL. apply PL. eapply nth_error_In. exact Hi. }
  destruct PS as (es' & Hp'). apply (holds_with at2 tp ip S' sk ff PNull es' PNull); [exact Hp'|apply roots_new, HL|].
  intros e' q' He' Eq'. destruct (plan_loc _ _ _ _ _ _ e' Hp' He') as (_ & sh & Hs & Lc & St). rewrite Nat.sub_0_r in Hs, St.
  unfold eqn_of in Eq'. destruct (nth_error (sbodies S') (ebody e')) as [b'|] eqn:Hb'; [|discriminate].
  destruct (nth_old _ _ Hb') as (b & Hb & ->). set (i := t (ebody e')) in *. assert (Ei : ebody e' = s i) by (unfold i; rewrite st; reflexivity).
  rewrite Ei in *. rewrite shapes_new in Hs.
  assert (Row : forall qq, match ekind e' with InfSteady | Steady => False | _ => True end ->
    eqn_of (K:=RNum) ln at2 tp ip (/4) (/1000) S sk ff (mkEntry 0 (ekind e') i (eseg e')) = Some qq -> NoDup (map fst (coefs qq)) -> lin v (coefs qq) = rhs qq).
  { intros qq NK Eq ND. destruct (plan_has _ _ _ _ _ _ Hp i sh (ekind e') (eseg e') Hs Lc NK) as (e & A & B & C & D). cbn [Nat.add] in B.
    refine (row_holds at2 tp ip S sk ff addr PNull es q order sl M M' v e qq Hp HP HR HL HF Hsol A _ ND).
    rewrite <- Eq. unfold eqn_of. cbn [ebody ekind eseg]. rewrite B, C, D. reflexivity. }
  unfold eqn_of in Row. cbn [ebody ekind eseg] in Row. rewrite Hb in Row.
  assert (NSR' : no_self_root S') by (apply self_new, NSR).
  destruct (ekind e') as [| | | |c|c|c u|c|c] eqn:Ek; cbn [loc] in Lc; try (destruct Lc; fail).
  - change (alist (g_of (reroot s b))) with (alist (g_of b)) in Eq'. destruct (nth_error (alist (g_of b)) (eseg e')) as [a|]; [|discriminate].
    cbn [option_map] in *. injection Eq' as <-. split; [apply slip_nodup|]. destruct (slip_row i (eseg e') a) as [L R].
    transitivity (lin v (coefs (slip_ S i (eseg e') a))); [exact L|]. rewrite R. apply Row; [exact I|reflexivity|apply slip_nodup].
  - injection Eq' as <-. split; [cbn; repeat constructor; simpl; tauto|]. destruct (zero_row i (eseg e')) as [L R]. transitivity (lin v (coefs (zero_eq (K:=RNum) i (eseg e')))); [exact L|].
    rewrite R. apply Row; [exact I|reflexivity|cbn; repeat constructor; simpl; tauto].
  - injection Eq' as <-. split; [apply inf_nodup|]. transitivity (total (body_circulation v') (indexed (sbodies S'))); [apply (inf_lin S' v')|].
    transitivity (total (body_circulation v) (indexed (sbodies S))).
    + refine (each_new (fun i b => body_circulation v (i, b)) (fun i b => body_circulation v' (i, b)) _). intros j d. apply circulation_new.
    + unfold inf_eq. cbn [rhs]. destruct Ren as (_ & _ & _ & _ & _ & -> & ->). apply (circulation_at_infinity S PNull v Sol0). exists b. split; [eapply nth_error_In; exact Hb|].
      unfold shapes_of in Hs. rewrite nth_error_map, Hb in Hs. cbn [option_map] in Hs. injection Hs as <-. apply Lc.
  - injection Eq' as <-. split; [apply ones_nodup|]. transitivity (body_circulation v' (s i, reroot s b)); [apply (ProofsSolve.ones_lin v' (s i) (reroot s b))|].
    rewrite circulation_new. change (body_circulation v (i, b) = held b).
    assert (Kb : kutta_ b = false). { unfold shapes_of in Hs. rewrite nth_error_map, Hb in Hs. cbn [option_map] in Hs. injection Hs as <-. apply Lc. }
    destruct SB as [SB|SB]; [|apply held_all; assumption]. exfalso.
    specialize (St eq_refl). cbn [orb] in St. apply existsb_exists in St. destruct St as (x & Hx & Kx).
    assert (Y : exists j, (j < s i)%nat /\ nth_error (shapes_of S') j = Some x).
    { clear - Hx. revert Hx. generalize (s i) (shapes_of S'). intros n l. revert n. induction l as [|a l IH]; intros [|n]; cbn [firstn In]; try tauto.
      intros [->|H]; [exists 0%nat; split; [lia|reflexivity]|]. destruct (IH n H) as (j & A & B). exists (Datatypes.S j). split; [lia|exact B]. }
    destruct Y as (j & Lj & Hj). rewrite <- (st j), shapes_new in Hj. unfold shapes_of in Hj. rewrite nth_error_map in Hj. destruct (nth_error (sbodies S) (t j)) as [d|] eqn:Hd; [|discriminate].
    cbn [option_map] in Hj. injection Hj as <-. cbn [shape_of kutta] in Kx. apply negb_true_iff in Kx. pose proof (SB _ _ _ _ Hb Hd Kb Kx) as E. apply (f_equal s) in E. rewrite st in E. lia.
  - injection Eq' as <-. split; [apply ProofsTurn.speed_nodup; assumption|]. destruct (speed_row c i b) as [L R]. transitivity (lin v (coefs (speed_eq (K:=RNum) S c i b))); [exact L|].
    rewrite R. apply Row; [exact I|reflexivity|apply ProofsTurn.speed_nodup; assumption].
  - destruct Lc as (_ & -> & _). injection Eq' as <-. split; [cbn; repeat constructor; simpl; intuition discriminate|]. destruct (hooke_row c i b) as [L R]. transitivity (lin v (coefs (hooke_eq (K:=RNum) c false i b))); [exact L|].
    rewrite R. apply Row; [exact I|reflexivity|cbn; repeat constructor; simpl; intuition discriminate].
  - injection Eq' as <-. split; [apply hydro_nodup|]. destruct (hydro_row c i b) as [L R]. transitivity (lin v (coefs (hydro_eq (K:=RNum) S c i b))); [exact L|].
    rewrite R. apply Row; [exact I|reflexivity|apply hydro_nodup].
  - injection Eq' as <-. split; [apply newton_nodup; assumption|]. destruct (newton_row c i b) as [L R]. transitivity (lin v (coefs (newton_eq (K:=RNum) S c i b))); [exact L|].
    rewrite R. apply Row; [exact I|reflexivity|apply newton_nodup; assumption].
Qed.

Lemma balanced_new : balanced S v -> balanced S' v'.
Proof.
  unfold balanced. destruct Ren as (_ & _ & _ & _ & _ & -> & ->). intros <-. apply each_new. intros i b. rewrite circulation_new. reflexivity.
Qed.
Lemma single_new : single_steady S -> single_steady S'.
Proof.
  intros H i j b c Hi Hj Kb Kc. destruct (nth_old i b Hi) as (b0 & Hb & ->). destruct (nth_old j c Hj) as (c0 & Hc & ->).
  pose proof (H _ _ _ _ Hb Hc Kb Kc) as E. apply (f_equal s) in E. rewrite !st in E. exact E.
Qed.
Lemma reroot_back b : reroot t (reroot s b) = b.
Proof.
  destruct b as [f d da bo to sp ku fh fp]. destruct f as [g sg ks mi ma ow rt co fd gd]. unfold reroot. cbn. destruct rt as [k|]; cbn; [rewrite ts|]; reflexivity.
Qed.
Lemma renumbered_back : renumbered t S' S.
Proof.
  destruct Ren as (_ & E1 & E2 & E3 & E4 & E5 & E6). split; [|repeat split; congruence].
  intros i. rewrite <- (st i) at 2. rewrite nth_new. destruct (nth_error (sbodies S) (t i)) as [b|]; cbn [option_map]; [rewrite reroot_back|]; reflexivity.
Qed.
Lemma unknowns_back : unknowns_with s v' = v.
Proof. apply functional_extensionality. intros u. unfold unknowns_with. f_equal. destruct u; cbn [unk_with]; rewrite ts; reflexivity. Qed.
End Number.

Lemma undoes_back s t : undoes s t -> undoes t s.
Proof. intros [A B]. split; assumption. Qed.

Lemma solution_numbers s t at2 tp ip sk ff S S' v : undoes s t -> renumbered s S S' -> no_self_root S -> single_steady S \/ balanced S v ->
  solution_with at2 tp ip sk ff S PNull v <-> solution_with at2 tp ip sk ff S' PNull (unknowns_with t v).
Proof.
  intros U Ren NSR SB. split.
  - apply (solution_new s t S S' U Ren v at2 tp ip sk ff NSR SB).
  - intros H. rewrite <- (unknowns_back s t U v). apply (solution_new t s S' S (undoes_back s t U) (renumbered_back s t S S' U Ren) (unknowns_with t v) at2 tp ip sk ff).
    + exact (self_new s t S S' U Ren NSR).
    + destruct SB as [SB|SB]; [left; exact (single_new s t S S' U Ren SB)|right; exact (balanced_new s t S S' U Ren v SB)].
    + exact H.
Qed.

Lemma first_existsb S i : first_steady S i -> existsb (fun c : sbody RNum => negb (kutta_ c)) (firstn i (sbodies S)) = false.
Proof.
  intros [_ H]. apply not_true_iff_false. intros E. apply existsb_exists in E. destruct E as (x & Hx & K). apply negb_true_iff in K.
  assert (Y : exists j, (j < i)%nat /\ nth_error (sbodies S) j = Some x).
  { clear - Hx. revert Hx. generalize (sbodies S). intros l. revert i. induction l as [|a l IH]; intros [|i]; cbn [firstn In]; try tauto.
    intros [->|H]; [exists 0%nat; split; [lia|reflexivity]|]. destruct (IH i H) as (j & A & B). exists (Datatypes.S j). split; [lia|exact B]. }
  destruct Y as (j & L & N). rewrite (H j x L N) in K. discriminate.
Qed.

(** If another body gets the condition at infinity, both systems have the same
    solution only in balance. *)
Lemma both_balanced s t S S' v i : undoes s t -> renumbered s S S' -> first_steady S i -> ~ first_steady S' (s i) ->
  solution S PNull v -> solution S' PNull (unknowns_with t v) -> balanced S v.
Proof.
  intros U Ren F NF Sol Sol'. pose proof (first_existsb S i F) as FE. destruct F as [(b & Hb & Kb) F].
  pose proof (special_rows S PNull v Sol i b Hb) as X. rewrite Kb, FE in X. unfold balanced, each. rewrite <- X. apply total_ext. intros [j c] Hj. apply in_indexed in Hj. cbn [fst snd].
  destruct (kutta_ c) eqn:Kc; [reflexivity|]. destruct (Nat.eq_dec j i) as [->|N].
  - rewrite Hb in Hj. injection Hj as <-.
    pose proof (special_rows S' PNull (unknowns_with t v) Sol' (s i) (reroot s b)) as Y. rewrite (nth_new s S S' Ren), Hb in Y. specialize (Y eq_refl).
    change (kutta_ (reroot s b)) with (kutta_ b) in Y. rewrite Kb in Y. destruct (existsb _ (firstn (s i) (sbodies S'))) eqn:E.
    + rewrite (circulation_new s t U) in Y. symmetry. exact Y.
    + exfalso. apply NF. split; [exists (reroot s b); rewrite (nth_new s S S' Ren), Hb; auto|]. intros k d L Hd. apply not_true_iff_false in E.
      destruct (kutta_ d) eqn:Kd; [reflexivity|]. exfalso. apply E. apply existsb_exists. exists d. rewrite Kd. split; [|reflexivity].
      apply nth_error_In with (n := k). rewrite <- Hd. clear - L. revert L. generalize (s i) (sbodies S'). intros n l. revert n l. induction k as [|k IH]; intros [|n] [|a l] L; try lia; try reflexivity. cbn. apply IH. lia.
  - pose proof (special_rows S PNull v Sol j c Hj) as Y. rewrite Kc, (firstn_not_first i j b c _ Hb Hj Kb Kc) in Y; [symmetry; exact Y|auto|exact FE].
Qed.
