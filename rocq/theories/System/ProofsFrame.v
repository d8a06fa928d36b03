(** The system of equations seen by an observer in uniform motion. *)

From Coq Require Import ZArith Bool List Reals Lra Lia Permutation.
From Verif.Base Require Import Num.
From Verif.Matrix Require Import Model.
From Verif.Body Require Import Model Spec.
From Verif.Flow Require Import Model.
From Verif.System Require Import Model Spec Proofs ProofsCollision ProofsWrite ProofsPhysics ProofsSolve ProofsXi ProofsLaws SpecFrame.
Import ListNotations.
Local Open Scope R_scope.

Lemma seen_bodies u S : bodies_i (seen u S) = map (fun e => (fst e, seen_body u (snd e))) (bodies_i S).
Proof. unfold bodies_i. cbn [sbodies seen]. apply indexed_map. Qed.

Lemma seen_shapes u S : shapes_of (seen u S) = shapes_of S.
Proof. unfold shapes_of. cbn [sbodies seen late]. rewrite map_map. reflexivity. Qed.

Lemma seen_children u S i : children (seen u S) i = map (fun e => (fst e, seen_body u (snd e))) (children S i).
Proof.
  unfold children. rewrite seen_bodies. induction (bodies_i S) as [|[j b] t IH]; [reflexivity|].
  cbn [map filter fst snd]. change (root (fb (seen_body u b))) with (root (fb b)).
  destruct (root (fb b)) as [k|]; [destruct (Nat.eqb k i)|]; cbn [map fst snd]; rewrite IH; reflexivity.
Qed.

Lemma seen_roots u S : roots_listed (seen u S) <-> roots_listed S.
Proof.
  unfold roots_listed. cbn [sbodies seen]. rewrite map_length. split; intros H b j Hb Hr.
  - apply (H (seen_body u b) j); [apply in_map, Hb|exact Hr].
  - apply in_map_iff in Hb. destruct Hb as (b0 & <- & Hb). exact (H b0 j Hb Hr).
Qed.

(** How much the unknowns grow. *)
Definition more (u : pt) (w : unk) : R := match w with UV _ CX => px u | UV _ CY => py u | _ => 0 end.

Lemma seen_lin u v l : lin (seen_unknowns u v) l = lin v l + lin (more u) l.
Proof.
  unfold lin. rewrite <- total_plus. apply total_ext. intros [w a] _. cbn [fst snd]. destruct w as [| ? []| |]; cbn [seen_unknowns more]; ring.
Qed.

Lemma total_zero {A} (f : A -> R) l : (forall a, In a l -> f a = 0) -> total f l = 0.
Proof. intros H. induction l as [|a l IH]; [reflexivity|]. change (f a + total f l = 0). rewrite H by (left; reflexivity). rewrite IH; [lra|intros; apply H; right; assumption]. Qed.

(** Springs are for components that are not rigid. *)
Lemma hooke_soft l : forall n i c b0, In (i, Hooke c b0) (fst (walk (springs_from n l) PNull)) ->
  exists s, nth_error l (i - n) = Some s /\ rigid s c = false.
Proof.
  intros n i c b0 H.
  assert (X : forall t p, In (i, Hooke c b0) (fst (walk t p)) -> In (i, c, false) t).
  { induction t as [|[[b d] rg] t IH]; intros p; simpl; [easy|]. unfold plan_spring.
    destruct rg; [|destruct (ptr_eqb p (PSpring b d))].
    - destruct (walk t p) as [ks q] eqn:W. simpl. intros [X|X]; [discriminate X|]. right. apply (IH p). rewrite W. exact X.
    - destruct (walk t (PHolder b d)) as [ks q] eqn:W. simpl. intros [X|X]; [discriminate X|]. right. apply (IH (PHolder b d)). rewrite W. exact X.
    - destruct (walk t PNull) as [ks q] eqn:W. simpl. intros [X|X]; [left; injection X as -> -> _; reflexivity|]. right. apply (IH PNull). rewrite W. exact X. }
  apply X in H. apply springs_in in H. destruct H as (_ & s & E & F). exists s. auto.
Qed.

Ltac unr :=
  change (@nadd RNum) with Rplus in *; change (@nsub RNum) with Rminus in *; change (@nmul RNum) with Rmult in *;
  change (@ndiv RNum) with Rdiv in *; change (@nopp RNum) with Ropp in *; change (@nofZ RNum) with IZR in *;
  unfold px, py, P in *; cbn [x y r3 o3] in *; unfold Rdiv in *.

Ltac eqr := match goal with |- @eq _ ?a ?b => change (@eq R a b) end; first [ring | lra].

Section Rows.
Variables (at2 : R -> R -> R) (tp ip : R) (sk : pt -> pt) (ff : att RNum -> R).
Hypothesis pi_inv : tp * ip = 1.
Variables (u : pt) (S : sspace RNum).
Hypothesis NSR : no_self_root S.

Definition same_row (q q' : eqn RNum) : Prop := coefs q' = coefs q /\ rhs q' = rhs q + lin (more u) (coefs q) /\ NoDup (map fst (coefs q)).

Lemma seen_a3 s same k b : a3 (K:=RNum) ln at2 (/4) (/1000) s same k (seen_body u b) = a3 (K:=RNum) ln at2 (/4) (/1000) s same k b.
Proof.
  unfold a3. cbn [seen_body fb seen_fb Flow.Model.kspring own root].
  destruct (root (fb b)); cbn [faster o3]; reflexivity.
Qed.

Lemma slip_row i k s : In i (map fst (bodies_i S)) ->
  same_row (slip_eq (K:=RNum) ln at2 tp ip (/4) (/1000) S sk ff i k s) (slip_eq (K:=RNum) ln at2 tp ip (/4) (/1000) (seen u S) sk ff i k s).
Proof.
  intros Hi. split; [|split; [|apply slip_nodup]].
  - unfold slip_eq. cbn [coefs]. rewrite seen_bodies, flat_map_concat_map, map_map, <- flat_map_concat_map.
    apply flat_map_ext. intros [j b]. cbn [fst snd]. rewrite seen_a3. reflexivity.
  - rewrite slip_coefs. unfold slip_eq. cbn [rhs]. cbn [inf_speed seen].
    assert (X : lin (more u) (flat_map (fun e : nat * sbody RNum => slip_terms at2 tp ip i k s (fst e) (snd e)) (bodies_i S))
      = px u * py (dl s) - py u * px (dl s)).
    { assert (N : NoDup (map fst (bodies_i S))) by (unfold bodies_i, indexed; rewrite map_fst_indexed; apply seq_NoDup).
      assert (T : forall j b, lin (more u) (slip_terms at2 tp ip i k s j b) = if Nat.eqb i j then px u * py (dl s) - py u * px (dl s) else 0).
      { intros j b. unfold slip_terms. rewrite lin_app, !lin_cons. unfold lin at 1. rewrite total_map, total_zero by (intros [? ?] _; cbn [fst snd more]; eqr).
        change (lin (more u) []) with 0. cbn [more]. unr. destruct (Nat.eqb i j); [|eqr].
        transitivity ((tp * ip) * (x u * y (dl s) - y u * x (dl s))); [eqr|rewrite pi_inv; eqr]. }
      revert Hi N. induction (bodies_i S) as [|[j b] t IH]; intros Hi N; [destruct Hi|].
      cbn [flat_map fst snd]. rewrite lin_app, T. cbn [map fst] in Hi, N. apply NoDup_cons_iff in N. destruct N as [Nj N].
      destruct (Nat.eqb_spec i j) as [->|D].
      - assert (Z : lin (more u) (flat_map (fun e : nat * sbody RNum => slip_terms at2 tp ip j k s (fst e) (snd e)) t) = 0).
        { clear IH Hi N. induction t as [|[j' b'] t IH]; [reflexivity|]. cbn [flat_map fst snd]. rewrite lin_app, T.
          cbn [map fst] in Nj. destruct (Nat.eqb_spec j j') as [->|]; [exfalso; apply Nj; left; reflexivity|].
          rewrite IH; [lra|]. intros H. apply Nj. right. exact H. }
        rewrite Z. lra.
      - destruct Hi as [->|Hi]; [congruence|]. rewrite (IH Hi N). lra. }
    rewrite X. unfold dot, rotl. unr. eqr.
Qed.

Lemma hydro_row c i b : same_row (hydro_eq (K:=RNum) S c i b) (hydro_eq (K:=RNum) (seen u S) c i (seen_body u b)).
Proof.
  split; [destruct c; reflexivity|]. split; [|apply hydro_nodup].
  assert (G : forall f : nat * att RNum -> R, lin (more u) (map (fun e => (UG i (fst e), f e)) (indexed (alist (g_of b)))) = 0).
  { intros f. unfold lin. rewrite total_map, total_zero; [reflexivity|]. intros a _. cbn [fst snd more]. ring. }
  destruct c; unfold hydro_eq; cbn [coefs rhs]; rewrite lin_app, G, !lin_cons; change (lin (more u) []) with 0; cbn [more];
    cbn [g_of seen_body fb seen_fb geo seen_geo speed_slae_prev area cofm faster friction_prev fdt_dead dt seen];
    change (get_axis (seen_geo u (geo (fb b)))) with (get_axis (geo (fb b)));
    change (moi_axis (seen_geo u (geo (fb b)))) with (moi_axis (geo (fb b)));
    unfold dot, rotl, vsub, vadd, vscale, faster, g_of; unr; eqr.
Qed.

Lemma newton_row c i b : nth_error (sbodies S) i = Some b ->
  same_row (newton_eq (K:=RNum) S c i b) (newton_eq (K:=RNum) (seen u S) c i (seen_body u b)).
Proof.
  intros Hb. split; [|split].
  - destruct c; unfold newton_eq; cbn [coefs]; rewrite seen_children; f_equal.
    + rewrite map_map. reflexivity.
    + rewrite map_map. reflexivity.
    + rewrite flat_map_concat_map, map_map, <- flat_map_concat_map. reflexivity.
  - assert (Z : forall l, (forall t, In t l -> exists j d, fst t = UF j d) -> lin (more u) l = 0).
    { intros l H. unfold lin. apply total_zero. intros t Ht. destruct (H t Ht) as (j & d & ->). cbn [more]. ring. }
    destruct c; unfold newton_eq; cbn [coefs rhs]; rewrite lin_app, !lin_cons; change (lin (more u) []) with 0; rewrite Z.
    2, 4: intros t Ht; apply in_map_iff in Ht; destruct Ht as (e & <- & _); eexists; eexists; reflexivity.
    4: intros t Ht; apply in_flat_map in Ht; destruct Ht as (e & _ & [<-|[<-|[<-|[]]]]); eexists; eexists; reflexivity.
    all: cbn [more]; cbn [g_of seen_body fb seen_fb geo seen_geo speed_slae_prev area cofm faster density dt gravity seen];
      change (get_axis (seen_geo u (geo (fb b)))) with (get_axis (geo (fb b)));
      change (moi_axis (seen_geo u (geo (fb b)))) with (moi_axis (geo (fb b)));
      unfold dot, rotl, vsub, vadd, vscale, faster, g_of; unr; eqr.
  - apply newton_nodup; assumption.
Qed.

Lemma speed_row c i b : nth_error (sbodies S) i = Some b -> same_row (speed_eq (K:=RNum) S c i b) (speed_eq (K:=RNum) (seen u S) c i (seen_body u b)).
Proof.
  intros Hb. pose proof (NSR i b Hb) as NR. split; [|split].
  - unfold speed_eq. cbn [coefs]. change (root (fb (seen_body u b))) with (root (fb b)). destruct (root (fb b)) as [j|]; [|reflexivity].
    cbn [sbodies seen]. rewrite nth_error_map. destruct (nth_error (sbodies S) j); reflexivity.
  - unfold speed_eq. cbn [coefs rhs]. cbn [seen_body fb seen_fb own]. destruct (root (fb b)) as [j|]; destruct c; rewrite !lin_cons;
      change (lin (more u) []) with 0; unfold faster; cbn [more get]; unr; (match goal with |- @eq _ ?a ?b => change (@eq R a b) end); lra.
  - unfold speed_eq. cbn [coefs]. destruct (root (fb b)) as [j|] eqn:E; [|cbn [map fst]; repeat constructor; simpl; tauto].
    assert (i <> j) by congruence. destruct c; cbn [map fst]; repeat constructor; simpl; intuition congruence.
Qed.

Lemma seen_eqn es q e : plan (shapes_of S) PNull = Some (es, q) -> undamped S -> In e es ->
  match eqn_of (K:=RNum) ln at2 tp ip (/4) (/1000) S sk ff e, eqn_of (K:=RNum) ln at2 tp ip (/4) (/1000) (seen u S) sk ff e with
  | Some a, Some a' => same_row a a'
  | None, None => True
  | _, _ => False
  end.
Proof.
  intros Hp HU He. unfold eqn_of. cbn [sbodies seen]. rewrite nth_error_map.
  destruct (nth_error (sbodies S) (ebody e)) as [b|] eqn:Hb; cbn [option_map]; [|exact I].
  assert (Hs : nth_error (shapes_of S) (ebody e) = Some (shape_of (late S) b)) by (unfold shapes_of; rewrite nth_error_map, Hb; reflexivity).
  change (alist (g_of (seen_body u b))) with (alist (g_of b)).
  destruct (plan_walk _ _ _ _ _ _ _ Hp) as [_ W].
  destruct (ekind e) as [| | | |c|c|c b0|c|c] eqn:Hk.
  - destruct (nth_error (alist (g_of b)) (eseg e)) as [s|]; cbn [option_map]; [|exact I]. apply slip_row.
    unfold bodies_i, indexed. rewrite map_fst_indexed. apply in_seq. assert (ebody e < length (sbodies S))%nat by (apply nth_error_Some; congruence). lia.
  - split; [reflexivity|]. split; [unfold zero_eq; cbn [coefs rhs]; rewrite lin_cons; change (lin (more u) []) with 0; cbn [more]; unr; eqr|].
    cbn. repeat constructor; simpl; tauto.
  - split; [|split; [|apply inf_nodup]].
    + unfold inf_eq. cbn [coefs]. rewrite seen_bodies, flat_map_concat_map, map_map, <- flat_map_concat_map. reflexivity.
    + replace (lin (more u) (coefs (inf_eq (K:=RNum) S))) with 0; [cbn [inf_eq rhs]; change (gfree (seen u S)) with (gfree S); change (inf_g (seen u S)) with (inf_g S); unr; eqr|].
      symmetry. unfold lin. apply total_zero. intros t Ht. apply in_flat_map in Ht. destruct Ht as (x0 & _ & Ht).
      unfold ones in Ht. apply in_app_iff in Ht. destruct Ht as [Ht|[<-|[]]]; [apply in_map_iff in Ht; destruct Ht as (k & <- & _)|]; cbn [fst snd more]; eqr.
  - split; [reflexivity|]. split; [|apply ones_nodup].
    replace (lin (more u) (coefs (steady_eq (K:=RNum) (ebody e) b))) with 0; [cbn [steady_eq rhs g_of seen_body fb seen_fb geo seen_geo g_dead area speed_slae_prev]; unfold faster, g_of; unr; eqr|].
    symmetry. unfold lin. apply total_zero. intros t Ht. cbn [steady_eq coefs] in Ht.
    unfold ones in Ht. apply in_app_iff in Ht. destruct Ht as [Ht|[<-|[]]]; [apply in_map_iff in Ht; destruct Ht as (k & <- & _)|]; cbn [fst snd more]; eqr.
  - apply speed_row. exact Hb.
  - exfalso. assert (X : In (ebody e, Stop c) (fst (walk (springs_from 0 (shapes_of S)) PNull))).
    { apply (W (ebody e) (Stop c) eq_refl). exists e. auto. }
    apply (proj2 (walk_null _)) in X. destruct X as (c' & [X|X]); discriminate X.
  - assert (D : c <> CO -> get c (damping b) = 0).
    { intros NC. destruct (HU b c (nth_error_In _ _ Hb) NC) as [Hr|Hd]; [exfalso|exact Hd].
      assert (X : In (ebody e, Hooke c b0) (fst (walk (springs_from 0 (shapes_of S)) PNull))).
      { apply (W (ebody e) (Hooke c b0) eq_refl). exists e. auto. }
      apply hooke_soft in X. destruct X as (sh & Es & Er). rewrite Nat.sub_0_r in Es. rewrite Hs in Es. assert (sh = shape_of (late S) b) as -> by congruence.
      cbn [shape_of rigid] in Er. rewrite Hr in Er. discriminate Er. }
    split; [reflexivity|]. split; [|unfold hooke_eq; cbn [coefs map fst]; repeat constructor; simpl; intuition discriminate].
    unfold hooke_eq. cbn [coefs rhs]. rewrite !lin_cons. change (lin (more u) []) with 0.
    change (dpos (g_of (seen_body u b))) with (dpos (g_of b)). cbn [seen_body fb seen_fb Flow.Model.kspring torque bounce force_holder].
    destruct c; cbn [more]; try rewrite D by discriminate; unr; eqr.
  - apply hydro_row.
  - apply newton_row. exact Hb.
Qed.
End Rows.

Lemma seen_solution at2 tp ip sk ff u S v : tp * ip = 1 -> no_self_root S -> undamped S ->
  solution_with at2 tp ip sk ff S PNull v <-> solution_with at2 tp ip sk ff (seen u S) PNull (seen_unknowns u v).
Proof.
  intros TI NS HU. split.
  - intros (addr & es & q & order & sl & M & M' & Hp & HP & HR & HL & HF & Hsol).
    apply (holds_with at2 tp ip (seen u S) sk ff PNull es q); [rewrite seen_shapes; exact Hp|apply seen_roots; exact HL|].
    intros e qn He Eq. pose proof (seen_eqn at2 tp ip sk ff TI u S NS es q e Hp HU He) as X. rewrite Eq in X.
    destruct (eqn_of _ _ _ _ _ _ S sk ff e) as [q0|] eqn:E0; [|destruct X]. destruct X as (Hc & Hr & Hn).
    rewrite Hc. split; [exact Hn|]. change (lin (seen_unknowns u v) (coefs q0) = rhs qn). rewrite seen_lin, Hr. f_equal.
    exact (row_holds at2 tp ip S sk ff addr PNull es q order sl M M' v e q0 Hp HP HR HL HF Hsol He E0 Hn).
  - intros (addr & es & q & order & sl & M & M' & Hp & HP & HR & HL & HF & Hsol).
    assert (Hp0 : plan (shapes_of S) PNull = Some (es, q)) by (rewrite <- Hp, seen_shapes; reflexivity).
    apply (holds_with at2 tp ip S sk ff PNull es q v Hp0); [apply (seen_roots u), HL|].
    intros e q0 He Eq. pose proof (seen_eqn at2 tp ip sk ff TI u S NS es q e Hp0 HU He) as X. rewrite Eq in X.
    destruct (eqn_of _ _ _ _ _ _ (seen u S) sk ff e) as [qn|] eqn:E0; [|destruct X]. destruct X as (Hc & Hr & Hn).
    split; [exact Hn|].
    assert (Hn' : NoDup (map fst (coefs qn))) by (rewrite Hc; exact Hn).
    pose proof (row_holds at2 tp ip (seen u S) sk ff addr PNull es q order sl M M' (seen_unknowns u v) e qn Hp HP HR HL HF Hsol He E0 Hn') as Y.
    change (lin (seen_unknowns u v) (coefs qn) = rhs qn) in Y. rewrite seen_lin, Hr, Hc in Y. change (lin v (coefs q0) = rhs q0). lra.
Qed.
