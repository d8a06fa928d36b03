(** What the equations say about a solution. *)

From Coq Require Import ZArith Bool List Reals Lra Lia Permutation.
From Verif.Base Require Import Num.
From Verif.Matrix Require Import Model.
From Verif.Body Require Import Model Spec.
From Verif.Flow Require Import Model.
From Verif.System Require Import Model Spec Proofs ProofsCollision ProofsWrite ProofsPhysics ProofsSolve ProofsXi.
Import ListNotations.
Local Open Scope R_scope.

Lemma with_solution at2 tp ip sk ff S p v : solution_with at2 tp ip sk ff S p v -> solution S p v.
Proof.
  intros (addr & es & q & order & sl & M & M' & H). exists at2, tp, ip, sk, ff, addr, es, q, order, sl, M, M'. exact H.
Qed.

(** The segments that are not special have a slip equation. *)
Lemma plan_segs_all (sp : nat) (ku : bool) (b k : nat) : forall segs row once, In k segs -> k <> sp ->
  exists e, In e (fst (plan_segs sp ku b segs row once)) /\ ebody e = b /\ eseg e = k /\ ekind e = Slip.
Proof.
  induction segs as [|i t IH]; intros row once Hk N; [destruct Hk|]. simpl.
  destruct Hk as [->|Hk].
  - rewrite (proj2 (Nat.eqb_neq _ _) N). simpl.
    destruct (plan_segs sp ku b t (Datatypes.S row) once). eexists. split; [left; reflexivity|]. repeat split.
  - destruct (negb (Nat.eqb i sp)); [|destruct ku]; simpl;
      match goal with |- context [plan_segs ?a ?b' ?c ?d ?e ?f] => destruct (IH e f Hk N) as (e0 & I & R); destruct (plan_segs a b' c d e f) as [l o] end;
      simpl in I |- *; exists e0; (split; [right; exact I|exact R]).
Qed.

Lemma plan_has_slip l : forall b row once p es q, plan_from b l row once p = Some (es, q) ->
  forall i s k, nth_error l i = Some s -> (k < nseg s)%nat -> k <> special s ->
  exists e, In e es /\ ebody e = (b + i)%nat /\ eseg e = k /\ ekind e = Slip.
Proof.
  induction l as [|s t IH]; intros b row once p es q; simpl; [intros _ i s k H; destruct i; discriminate H|].
  destruct (plan_body b s row once p) as [[[es1 o1] p1]|] eqn:E1; [|discriminate].
  destruct (plan_from (S b) t (row + nseg s + 9) o1 p1) as [[es2 p2]|] eqn:E2; [|discriminate].
  intros H i s' k Hi Hk N. assert (es = es1 ++ es2) as -> by congruence. clear H.
  destruct i as [|i].
  - simpl in Hi. assert (s' = s) as -> by congruence.
    unfold plan_body in E1. destruct (Nat.leb (nseg s) (special s)); [discriminate E1|].
    destruct (plan_segs_all (special s) (kutta s) b k (seq 0 (nseg s)) row once ltac:(apply in_seq; lia) N) as (e & I & Eb & R).
    destruct (plan_segs _ _ _ _ _ _) as [l0 o0].
    destruct (plan_spring (rigid s CX) b CX p) as [kx q1].
    destruct (plan_spring (rigid s CY) b CY q1) as [ky q2].
    destruct (plan_spring (rigid s CO) b CO q2) as [ko q3].
    pose proof (f_equal (fun z => match z with Some (a, _, _) => a | None => [] end) E1) as Ees. cbv beta iota in Ees.
    clear E1. subst es1. exists e. split; [|split; [lia|exact R]].
    apply in_app_iff. left. apply in_app_iff. left. exact I.
  - destruct (IH _ _ _ _ _ _ E2 i s' k Hi Hk N) as (e & I & Eb & R). exists e. split; [apply in_app_iff; right; exact I|].
    split; [lia|exact R].
Qed.

Lemma nodup_bodies (S : sspace RNum) (f : nat -> sbody RNum -> list (unk * R)) :
  (forall j b, NoDup (map fst (f j b))) -> (forall j b u, In u (map fst (f j b)) -> ubody u = j) ->
  NoDup (map fst (flat_map (fun e : nat * sbody RNum => f (fst e) (snd e)) (bodies_i S))).
Proof.
  intros Hn Hb.
  assert (X : NoDup (map fst (bodies_i S))).
  { unfold bodies_i, indexed. rewrite map_fst_indexed. apply seq_NoDup. }
  revert X. generalize (bodies_i S). induction l as [|[j b] t IH]; [constructor|]. cbn [map fst snd flat_map]. rewrite map_app.
  intros X. apply NoDup_cons_iff in X. destruct X as [Nj X]. specialize (IH X).
  pose proof (Hn j b) as Ho. revert Ho. generalize (Hb j b). generalize (map fst (f j b)).
  induction l as [|u w IHw]; intros Hu Ho; [exact IH|]. simpl. apply NoDup_cons_iff in Ho. destruct Ho as [Nu Ho]. constructor.
  - rewrite in_app_iff. intros [H|H]; [contradiction|]. apply in_map_iff in H. destruct H as ([u' a] & E & H). cbn [fst] in E. subst u'.
    apply in_flat_map in H. destruct H as ([j' b'] & Hj & H). cbn [fst snd] in H. apply (in_map fst) in H. cbn [fst] in H. apply Hb in H.
    rewrite (Hu u (or_introl eq_refl)) in H. subst j'. apply Nj. apply (in_map fst) in Hj. exact Hj.
  - apply IHw; [intros; apply Hu; right; assumption|exact Ho].
Qed.

(** ** No flow through the wall *)

Section Flow.
Variables (at2 : R -> R -> R) (tp ip : R) (sk : pt -> pt) (ff : att RNum -> R).
Variables (S : sspace RNum) (p : ptr) (v : unk -> R).
Hypothesis Sol : solution_with at2 tp ip sk ff S p v.

Definition slip_terms (i k : nat) (s : att RNum) (j : nat) (b : sbody RNum) : list (unk * R) :=
  map (fun el => let '(k, l) := el in (UG j k, Rmult (xi_g (K:=RNum) ln (corner l) s (nmul (n:=RNum) (vabs (dl l)) (/ 4))) ip)) (indexed (alist (g_of b)))
  ++ [(UV j CX, Rmult (if Nat.eqb i j then Rmult tp (y (dl s)) else 0) ip);
      (UV j CY, Rmult (if Nat.eqb i j then Rmult (- tp) (x (dl s)) else 0) ip);
      (UV j CO, Rmult (a3 (K:=RNum) ln at2 (/4) (/1000) s (Nat.eqb i j) k b) ip)].

Lemma slip_coefs i k s : coefs (slip_eq (K:=RNum) ln at2 tp ip (/4) (/1000) S sk ff i k s) =
  flat_map (fun e : nat * sbody RNum => slip_terms i k s (fst e) (snd e)) (bodies_i S).
Proof. unfold slip_eq. cbn [coefs]. apply flat_map_ext. intros [j b]. reflexivity. Qed.

Lemma slip_nodup i k s : NoDup (map fst (coefs (slip_eq (K:=RNum) ln at2 tp ip (/4) (/1000) S sk ff i k s))).
Proof.
  rewrite slip_coefs. apply nodup_bodies.
  - intros j b. unfold slip_terms. rewrite map_app, map_map.
    replace (map _ (indexed (alist (g_of b)))) with (map (UG j) (seq 0 (length (alist (g_of b))))).
    + set (l := seq 0 _). assert (N : NoDup l) by apply seq_NoDup. clearbody l. cbn [map fst].
      induction N as [|a l Na N IH]; simpl.
      * repeat constructor; simpl; intuition discriminate.
      * constructor; [|exact IH]. rewrite in_app_iff, in_map_iff. intros [(a' & E & Ha)|[E|[E|[E|[]]]]]; try discriminate E.
        assert (a' = a) by congruence. subst a'. contradiction.
    + unfold indexed. rewrite <- (map_fst_indexed (alist (g_of b)) 0) at 1. rewrite map_map. apply map_ext. intros [a c]. reflexivity.
  - intros j b u. unfold slip_terms. rewrite map_app, in_app_iff, map_map, in_map_iff.
    intros [([a c] & <- & _)|[<-|[<-|[<-|[]]]]]; reflexivity.
Qed.

Lemma slip_holds i b k s : nth_error (sbodies S) i = Some b -> nth_error (alist (g_of b)) k = Some s -> k <> special_ b ->
  lin v (coefs (slip_eq (K:=RNum) ln at2 tp ip (/4) (/1000) S sk ff i k s)) =
  rhs (slip_eq (K:=RNum) ln at2 tp ip (/4) (/1000) S sk ff i k s).
Proof.
  intros Hb Hs N. destruct Sol as (addr & es & q & order & sl & M & M' & Hp & HP & HR & HL & HF & Hsol).
  assert (Lk : (k < length (alist (g_of b)))%nat) by (apply nth_error_Some; congruence).
  assert (Hsh : nth_error (shapes_of S) i = Some (shape_of (late S) b)) by (unfold shapes_of; rewrite nth_error_map, Hb; reflexivity).
  destruct (plan_has_slip _ _ _ _ _ _ _ Hp i _ k Hsh Lk N) as (e & He & Ei & Ek & Es). simpl in Ei.
  unfold lin. refine (row_holds at2 tp ip S sk ff addr p es q order sl M M' v e _ Hp HP HR HL HF Hsol He _ (slip_nodup i k s)).
  unfold eqn_of. rewrite Ei, Hb, Es, Ek, Hs. reflexivity.
Qed.

Ltac unr :=
  change (@nadd RNum) with Rplus in *; change (@nsub RNum) with Rminus in *; change (@nmul RNum) with Rmult in *;
  change (@ndiv RNum) with Rdiv in *; change (@nopp RNum) with Ropp in *; change (@nofZ RNum) with IZR in *;
  unfold px, py, P in *; cbn [x y r3 o3] in *; unfold Rdiv in *.

Lemma fold_minus {A} (f : A -> R) l a : fold_left (fun a e => Rminus a (f e)) l a = a - total f l.
Proof. revert a. induction l as [|e t IH]; intros a; simpl; [lra|]. rewrite IH. lra. Qed.

Lemma len_quarter (a : att RNum) : nmul (n:=RNum) (vabs (dl a)) (/ 4) = seg_len a / 4.
Proof. reflexivity. Qed.

(** The turning of a body. *)
Lemma a3_layers i j k b s : nth_error (sbodies S) j = Some b ->
  v (UV j CO) * a3 (K:=RNum) ln at2 (/4) (/1000) s (Nat.eqb i j) k b =
  - (v (UV j CO) * along b (fun k' a => layer_flux at2 (Nat.eqb i j && Nat.eqb k k') (get_axis (g_of b)) a s)).
Proof.
  intros Hb. unfold a3.
  match goal with |- context [if ?c then _ else _] => destruct c eqn:E end.
  - apply andb_true_iff in E. destruct E as [E E3]. apply andb_true_iff in E. destruct E as [E1 E2].
    assert (Z : v (UV j CO) = 0).
    { destruct (root (fb b)) eqn:Er; [discriminate E3|].
      pose proof (speed_rows S p v (with_solution _ _ _ _ _ _ _ _ Sol) j b CO Hb) as X. rewrite Er in X.
      rewrite X; [|discriminate|left; exact E1]. cbn [get].
      change (@neqb RNum) with Reqb in E2. change (@nofZ RNum) with IZR in E2.
      unfold Reqb in E2. destruct (Req_EM_T (o3 (own (fb b))) 0); [assumption|discriminate E2]. }
    rewrite Z. lra.
  - clear E. unfold along.
    transitivity (v (UV j CO) * - total (fun e : nat * att RNum => layer_flux at2 (Nat.eqb i j && Nat.eqb k (fst e)) (get_axis (g_of b)) (snd e) s) (indexed (alist (g_of b)))); [|lra].
    f_equal.
    match goal with |- fold_left ?f ?l ?z = _ => change (fold_left f l z) with (fold_left f l 0) end.
    rewrite <- (Rminus_0_l (total _ _)). rewrite <- fold_minus.
    generalize (indexed (alist (g_of b))) as l. intros l. generalize 0 as z. induction l as [|[k' a] t IH]; intros z; [reflexivity|].
    cbn [fold_left]. rewrite IH. f_equal.
    cbn [fst snd]. unfold layer_flux, xi. change (@nsub RNum) with Rminus. f_equal.
    rewrite len_quarter.
    assert (Q : (if Nat.eqb i j && Nat.eqb k k' then vadd (r a) (vscale (rotl (dl s)) (/ 1000)) else r a) =
                (if Nat.eqb i j && Nat.eqb k k' then P (px (r a) - py (dl s) / 1000) (py (r a) + px (dl s) / 1000) else r a)).
    { destruct (Nat.eqb i j && Nat.eqb k k'); [|reflexivity]. unfold vadd, vscale, rotl. unr. apply (f_equal2 (@mkVec RNum)); lra. }
    rewrite Q. clear Q.
    pose (q := if Nat.eqb i j && Nat.eqb k k' then P (px (r a) - py (dl s) / 1000) (py (r a) + px (dl s) / 1000) else r a).
    pose (X := xi_at (K:=RNum) ln at2 q s (seg_len a / 4)).
    transitivity (dot (K:=RNum) X (mkVec (dot (rotl (vsub (r a) (get_axis (g_of b)))) (dl a)) (dot (mkVec (nopp (x (dl a))) (nopp (y (dl a)))) (vsub (r a) (get_axis (g_of b)))))).
    { reflexivity. }
    transitivity (px X * (px (turning (get_axis (g_of b)) (r a)) * px (dl a) + py (turning (get_axis (g_of b)) (r a)) * py (dl a)) + py X * flux (turning (get_axis (g_of b)) (r a)) a).
    2:{ reflexivity. }
    clearbody X. unfold flux, turning, dot, rotl, vsub. cbn [x y]. unr.
    match goal with |- @eq _ ?a ?b => change (@eq R a b) end. lra.
Qed.

Lemma rhs_flux i k s : rhs (slip_eq (K:=RNum) ln at2 tp ip (/4) (/1000) S sk ff i k s) =
  flux (inf_speed S) s + flux (sk (r s)) s - ff s.
Proof.
  unfold slip_eq. cbn [rhs]. unfold flux, dot, rotl. cbn [x y]. unr.
  match goal with |- @eq _ ?a ?b => change (@eq R a b) end. lra.
Qed.

Lemma no_flow i b k s : tp * ip = 1 -> (forall b' a, In b' (sbodies S) -> In a (alist (g_of b')) -> 0 < seg_len a) -> centred s ->
  nth_error (sbodies S) i = Some b -> nth_error (alist (g_of b)) k = Some s -> k <> special_ b ->
  flux (P (v (UV i CX)) (v (UV i CY))) s =
    flux (inf_speed S) s + flux (sk (r s)) s - ff s
    - ip * each S (fun j b' => along b' (fun k' a => v (UG j k') * vortex_flux a s))
    + ip * each S (fun j b' => v (UV j CO) * along b' (fun k' a => layer_flux at2 (Nat.eqb i j && Nat.eqb k k') (get_axis (g_of b')) a s)).
Proof.
  intros Htp Hlen Hc Hb Hs N. pose proof (slip_holds i b k s Hb Hs N) as H. rewrite rhs_flux in H. rewrite <- H. clear H.
  rewrite slip_coefs. unfold lin. rewrite total_flat_map.
  rewrite (total_ext _ (fun e : nat * sbody RNum =>
     ip * along (snd e) (fun k' a => v (UG (fst e) k') * vortex_flux a s) +
     ((if Nat.eqb i (fst e) then flux (P (v (UV i CX)) (v (UV i CY))) s else 0) +
      - ip * (v (UV (fst e) CO) * along (snd e) (fun k' a => layer_flux at2 (Nat.eqb i (fst e) && Nat.eqb k k') (get_axis (g_of (snd e))) a s))))).
  2:{ intros [j b'] Hj. apply indexed_nth in Hj. cbn [fst snd]. unfold slip_terms. rewrite total_app, total_map.
      rewrite !total_cons. change (total (fun t : unk * R => snd t * v (fst t)) []) with 0. cbn [fst snd].
      pose proof (a3_layers i j k b' s Hj) as A.
      assert (V : total (fun a : nat * att RNum => snd (let '(k0, l) := a in (UG j k0, xi_g (K:=RNum) ln (corner l) s (nmul (n:=RNum) (vabs (dl l)) (/ 4)) * ip)) *
          v (fst (let '(k0, l) := a in (UG j k0, xi_g (K:=RNum) ln (corner l) s (nmul (n:=RNum) (vabs (dl l)) (/ 4)) * ip)))) (indexed (alist (g_of b'))) =
          ip * along b' (fun k' a => v (UG j k') * vortex_flux a s)).
      { unfold along. rewrite <- total_scal. apply total_ext. intros [k' a] Ha. cbn [fst snd]. rewrite len_quarter.
        apply indexed_nth, nth_error_In in Ha.
        rewrite xi_g_stream; [unfold vortex_flux; lra|exact Hc|].
        pose proof (Hlen b' a (nth_error_In _ _ Hj) Ha). lra. }
      rewrite V. clear V. 
      replace (a3 (K:=RNum) ln at2 (/ 4) (/ 1000) s (Nat.eqb i j) k b' * ip * v (UV j CO)) with (ip * (v (UV j CO) * a3 (K:=RNum) ln at2 (/ 4) (/ 1000) s (Nat.eqb i j) k b')) by lra.
      rewrite A. clear A. destruct (Nat.eqb_spec i j) as [<-|_].
      - unfold flux. unr. assert (T : forall z, tp * z * ip = z) by (intros; rewrite <- (Rmult_1_l z) at 2; rewrite <- Htp; lra).
        rewrite T. replace (- tp * x (dl s) * ip) with (- (tp * x (dl s) * ip)) by lra. rewrite T. lra.
      - lra. }
  rewrite total_plus, total_plus. unfold each. rewrite !total_scal.
  assert (E : total (fun e : nat * sbody RNum => if Nat.eqb i (fst e) then flux (P (v (UV i CX)) (v (UV i CY))) s else 0) (indexed (sbodies S)) =
              flux (P (v (UV i CX)) (v (UV i CY))) s).
  { assert (Li : (i < length (sbodies S))%nat) by (apply nth_error_Some; congruence).
    rewrite (total_indexed (fun j => if Nat.eqb i j then flux (P (v (UV i CX)) (v (UV i CY))) s else 0)).
    apply (total_single _ i _ Li 0%nat); lia. }
  unfold bodies_i. rewrite E. lra.
Qed.
End Flow.

(** ** Forces *)

Section Force.
Variables (S : sspace RNum) (p : ptr) (v : unk -> R).
Hypothesis Sol : solution S p v.

Ltac unr :=
  change (@nadd RNum) with Rplus in *; change (@nsub RNum) with Rminus in *; change (@nmul RNum) with Rmult in *;
  change (@ndiv RNum) with Rdiv in *; change (@nopp RNum) with Ropp in *; change (@nofZ RNum) with IZR in *;
  unfold px, py, P in *; cbn [x y r3 o3] in *; unfold Rdiv in *.

Lemma hydro_nodup i b c : NoDup (map fst (coefs (hydro_eq (K:=RNum) S c i b))).
Proof.
  assert (G : forall (f : nat * att RNum -> R) (t : list unk), NoDup t -> (forall k, ~ In (UG i k) t) ->
     NoDup (map fst (map (fun e => (UG i (fst e), f e)) (indexed (alist (g_of b)))) ++ t)).
  { intros f t Nt D. rewrite map_map. cbn [fst].
    replace (map _ (indexed (alist (g_of b)))) with (map (UG i) (seq 0 (length (alist (g_of b))))).
    - set (l := seq 0 _). assert (N : NoDup l) by apply seq_NoDup. clearbody l.
      induction N as [|a l Na N IH]; simpl; [exact Nt|]. constructor; [|exact IH].
      rewrite in_app_iff, in_map_iff. intros [(a' & E & Ha)|H]; [|exact (D _ H)].
      assert (a' = a) by congruence. subst a'. contradiction.
    - unfold indexed. rewrite <- (map_fst_indexed (alist (g_of b)) 0) at 1. rewrite map_map. reflexivity. }
  destruct c; unfold hydro_eq; cbn [coefs]; rewrite map_app; apply G; cbn [map fst].
  all: try (repeat constructor; simpl; intuition discriminate).
  all: intros k; simpl; intuition discriminate.
Qed.

Lemma hydro_holds i b c : nth_error (sbodies S) i = Some b -> lin v (coefs (hydro_eq (K:=RNum) S c i b)) = rhs (hydro_eq (K:=RNum) S c i b).
Proof.
  intros Hb. destruct (sol_row S p v Sol) as (at2 & tp & ip & sk & ff & es & q & Hp & H).
  assert (Hh : has es i (Hydro c)).
  { replace i with (0 + i)%nat by lia. eapply plan_has_forces; [exact Hp|]. unfold shapes_of. rewrite map_length. eapply index_lt; eauto. }
  destruct (H i (Hydro c) b Hh Hb) as (e & qn & Hi & Hk & Eq & Hl).
  assert (qn = hydro_eq S c i b) as ->.
  { unfold eqn_of in Eq. rewrite Hi, Hb, Hk in Eq. exact (f_equal (fun z => match z with Some w => w | None => qn end) (eq_sym Eq)). }
  apply Hl. apply hydro_nodup.
Qed.

Lemma hydro_x i b : nth_error (sbodies S) i = Some b -> dt S <> 0 ->
  dt S * (v (UH i CX) - px (r3 (friction_prev b))) =
    px (wall_impulse b (fun k => v (UG i k))) - px (r3 (fdt_dead (fb b)))
    + px (carried b (speed_in v i)) - px (carried b (speed_slae_prev (g_of b)))
    - dt S * (o3 (speed_slae_prev (g_of b)) * o3 (speed_slae_prev (g_of b))) * area (g_of b) * px (arm b).
Proof.
  intros Hb D. pose proof (hydro_holds i b CX Hb) as H. unfold hydro_eq in H. cbn [coefs rhs] in H.
  rewrite lin_app in H. unfold lin at 1 in H. rewrite total_map in H. cbn [fst snd] in H.
  rewrite (total_ext _ (fun e : nat * att RNum => / dt S * (v (UG i (fst e)) * px (turn (corner (snd e)))))) in H
    by (intros; unfold turn; unr; lra).
  rewrite total_scal in H. rewrite !lin_cons in H. change (lin v []) with 0 in H.
  apply (f_equal (Rmult (dt S))) in H.
  unfold wall_impulse, carried, along, arm, speed_in, sqr, vsub, vadd, vscale, rotl, turn in *. cbn [x y] in *. unr.
  set (T := total _ _) in *. clearbody T. field_simplify in H; try exact D; lra.
Qed.

Lemma hydro_y i b : nth_error (sbodies S) i = Some b -> dt S <> 0 ->
  dt S * (v (UH i CY) - py (r3 (friction_prev b))) =
    py (wall_impulse b (fun k => v (UG i k))) - py (r3 (fdt_dead (fb b)))
    + py (carried b (speed_in v i)) - py (carried b (speed_slae_prev (g_of b)))
    - dt S * (o3 (speed_slae_prev (g_of b)) * o3 (speed_slae_prev (g_of b))) * area (g_of b) * py (arm b).
Proof.
  intros Hb D. pose proof (hydro_holds i b CY Hb) as H. unfold hydro_eq in H. cbn [coefs rhs] in H.
  rewrite lin_app in H. unfold lin at 1 in H. rewrite total_map in H. cbn [fst snd] in H.
  rewrite (total_ext _ (fun e : nat * att RNum => / dt S * (v (UG i (fst e)) * py (turn (corner (snd e)))))) in H
    by (intros; unfold turn; unr; lra).
  rewrite total_scal in H. rewrite !lin_cons in H. change (lin v []) with 0 in H.
  apply (f_equal (Rmult (dt S))) in H.
  unfold wall_impulse, carried, along, arm, speed_in, sqr, vsub, vadd, vscale, rotl, turn in *. cbn [x y] in *. unr.
  set (T := total _ _) in *. clearbody T. field_simplify in H; try exact D; lra.
Qed.

Lemma hydro_o i b : nth_error (sbodies S) i = Some b -> dt S <> 0 ->
  dt S * (v (UH i CO) - o3 (friction_prev b)) =
    wall_moment b (fun k => v (UG i k)) - o3 (fdt_dead (fb b)) / 2
    + carried_moment b (speed_in v i) - carried_moment b (speed_slae_prev (g_of b)).
Proof.
  intros Hb D. pose proof (hydro_holds i b CO Hb) as H. unfold hydro_eq in H. cbn [coefs rhs] in H.
  rewrite lin_app in H. unfold lin at 1 in H. rewrite total_map in H. cbn [fst snd] in H.
  rewrite (total_ext _ (fun e : nat * att RNum => / dt S * (v (UG i (fst e)) * dist2 (corner (snd e)) (get_axis (g_of b)) / 2))) in H
    by (intros; unfold dist2, half, abs2, dot, vsub; unr; lra).
  rewrite total_scal in H. rewrite !lin_cons in H. change (lin v []) with 0 in H.
  apply (f_equal (Rmult (dt S))) in H.
  unfold wall_moment, carried_moment, along, arm, speed_in, sqr, cross2, half, dot, vsub, vadd, vscale, rotl in *. cbn [x y] in *. unr.
  set (T := total _ _) in *. clearbody T. generalize dependent (moi_axis (g_of b)). intros m H. unr. field_simplify in H; try exact D; lra.
Qed.

(** The spring equations that are there hold. *)
Lemma spring_row i b k (qn : eqn RNum) es q : plan (shapes_of S) p = Some (es, q) -> has es i k -> nth_error (sbodies S) i = Some b ->
  (forall at2 tp ip sk ff e, ebody e = i -> ekind e = k -> eqn_of (K:=RNum) ln at2 tp ip (/4) (/1000) S sk ff e = Some qn) ->
  NoDup (map fst (coefs qn)) -> lin v (coefs qn) = rhs qn.
Proof.
  intros Hp Hh Hb He ND. destruct (sol_row S p v Sol) as (at2 & tp & ip & sk & ff & es' & q' & Hp' & H).
  rewrite Hp in Hp'. assert (es' = es) as -> by congruence.
  destruct (H i k b Hh Hb) as (e & qn' & Hi & Hk & Eq & Hl).
  rewrite (He at2 tp ip sk ff e Hi Hk) in Eq.
  assert (qn' = qn) as -> by exact (f_equal (fun z => match z with Some w => w | None => qn' end) (eq_sym Eq)). exact (Hl ND).
Qed.

Lemma hooke_law i b c u es q : plan (shapes_of S) p = Some (es, q) -> has es i (Hooke c u) -> nth_error (sbodies S) i = Some b ->
  v (UF i c) = get c (Flow.Model.kspring (fb b)) * get c (dpos (g_of b)) + get c (damping b) * v (UV i c)
    + (match c with CO => torque b | _ => 0 end) + (if u then (1 + bounce b) * get c (force_holder b) else 0).
Proof.
  intros Hp Hh Hb.
  pose proof (spring_row i b (Hooke c u) (hooke_eq (K:=RNum) c u i b) es q Hp Hh Hb) as H.
  assert (X : lin v (coefs (hooke_eq (K:=RNum) c u i b)) = rhs (hooke_eq (K:=RNum) c u i b)).
  { apply H.
    - intros at2 tp ip sk ff e Hi Hk. unfold eqn_of. rewrite Hi, Hb, Hk. reflexivity.
    - unfold hooke_eq. cbn [coefs map fst]. repeat constructor; simpl; intuition discriminate. }
  clear H. unfold hooke_eq in X. cbn [coefs rhs] in X. rewrite !lin_cons in X. change (lin v []) with 0 in X.
  destruct c, u; cbn [get] in *; unr; lra.
Qed.

Lemma stop_law i b c es q : plan (shapes_of S) p = Some (es, q) -> has es i (Stop c) -> nth_error (sbodies S) i = Some b -> v (UV i c) = 0.
Proof.
  intros Hp Hh Hb.
  pose proof (spring_row i b (Stop c) (stop_eq (K:=RNum) c i) es q Hp Hh Hb) as H.
  assert (X : lin v (coefs (stop_eq (K:=RNum) c i)) = rhs (stop_eq (K:=RNum) c i)).
  { apply H.
    - intros at2 tp ip sk ff e Hi Hk. unfold eqn_of. rewrite Hi, Hb, Hk. reflexivity.
    - unfold stop_eq. cbn [coefs map fst]. repeat constructor; simpl; intuition discriminate. }
  clear H. unfold stop_eq in X. cbn [coefs rhs] in X. rewrite !lin_cons in X. change (lin v []) with 0 in X. unr. lra.
Qed.
End Force.

(** A component free to move has one of three equations, and without a pending
    collision it is the plain spring. *)
Lemma spring_kinds l p es q i s c : plan l p = Some (es, q) -> nth_error l i = Some s -> rigid s c = false ->
  has es i (Stop c) \/ has es i (Hooke c true) \/ has es i (Hooke c false).
Proof.
  intros Hp Hi Hr. destruct (plan_walk _ _ _ _ _ _ _ Hp) as [_ H].
  destruct (springs_nth l 0 i c s Hi) as (pre & post & E).
  assert (X : exists k, (k = Stop c \/ k = Hooke c true \/ k = Hooke c false) /\ In (i, k) (fst (walk (springs_from 0 l) p))).
  { rewrite E, walk_app. destruct (walk pre p) as [k1 p1]. simpl. rewrite Hr. unfold plan_spring.
    destruct (ptr_eqb p1 (PSpring i c)).
    - exists (Stop c). split; [auto|]. destruct (walk post (PHolder i c)). simpl. apply in_app_iff. right. left. reflexivity.
    - exists (Hooke c (ptr_eqb p1 (PHolder i c))). split; [destruct (ptr_eqb p1 (PHolder i c)); auto|].
      destruct (walk post PNull). simpl. apply in_app_iff. right. left. reflexivity. }
  destruct X as (k & Hk & Hin).
  destruct Hk as [->|[->| ->]]; apply H in Hin; try reflexivity; auto.
Qed.

Lemma spring_plain l es q i s c : plan l PNull = Some (es, q) -> nth_error l i = Some s -> rigid s c = false ->
  has es i (Hooke c false).
Proof.
  intros Hp Hi Hr. destruct (plan_walk _ _ _ _ _ _ _ Hp) as [_ H].
  destruct (springs_nth l 0 i c s Hi) as (pre & post & E). apply (H i (Hooke c false) eq_refl).
  rewrite E, walk_app. pose proof (proj1 (walk_null pre)) as W. destruct (walk pre PNull) as [k1 p1]. simpl in W. subst p1.
  simpl. rewrite Hr. unfold plan_spring. simpl. destruct (walk post PNull). simpl. apply in_app_iff. right. left. reflexivity.
Qed.

(** ** Where a segment leaves a core *)

Lemma core_exit_inside q (s : att RNum) rd : centred s -> 0 < rd ->
  (dist2 q (corner s) < rd * rd < dist2 q (seg_end s) \/ dist2 q (seg_end s) < rd * rd < dist2 q (corner s)) ->
  exists k, - / 2 < k < / 2 /\ @Model.core_exit RNum q s rd = P (px (r s) + px (dl s) * k) (py (r s) + py (dl s) * k).
Proof.
  intros HC Hrd HD. unfold Model.core_exit. rewrite HC.
  unfold dist2, seg_end in *. destruct q as [p1 p2]. destruct (corner s) as [a1 a2]. destruct (dl s) as [d1 d2].
  unfold px, py, P in *. cbn [x y] in *.
  set (A0 := d1 * d1 + d2 * d2).
  set (b0 := (p1 - (a1 + d1 / 2)) * d1 + (p2 - (a2 + d2 / 2)) * d2).
  set (C0 := (p1 - (a1 + d1 / 2)) * (p1 - (a1 + d1 / 2)) + (p2 - (a2 + d2 / 2)) * (p2 - (a2 + d2 / 2)) - rd * rd).
  assert (PA : A0 > 0).
  { unfold A0. destruct (Req_dec d1 0) as [->|]; [destruct (Req_dec d2 0) as [->|]; [exfalso|nra]|nra].
    destruct HD as [HD|HD]; destruct HD; lra. }
  assert (Q1 : (p1 - a1) * (p1 - a1) + (p2 - a2) * (p2 - a2) - rd * rd = A0 / 4 + b0 + C0) by (unfold A0, b0, C0; field).
  assert (Q2 : (p1 - (a1 + d1)) * (p1 - (a1 + d1)) + (p2 - (a2 + d2)) * (p2 - (a2 + d2)) - rd * rd = A0 / 4 - b0 + C0) by (unfold A0, b0, C0; field).
  assert (HD' : (A0 / 4 + b0 + C0 < 0 < A0 / 4 - b0 + C0) \/ (A0 / 4 - b0 + C0 < 0 < A0 / 4 + b0 + C0)) by (destruct HD; [left|right]; lra).
  clear HD Q1 Q2.
  assert (D : 0 <= b0 * b0 - A0 * C0).
  { destruct (Rle_lt_dec C0 0) as [|CP]; [nra|]. pose proof (Rle_0_sqr (A0 / 4 - C0)) as SQ. unfold Rsqr in SQ.
    assert (G : (A0 / 4 + C0) * (A0 / 4 + C0) - A0 * C0 = (A0 / 4 - C0) * (A0 / 4 - C0)) by field.
    destruct HD' as [[X Y]|[X Y]]; nra. }
  set (d := sqrt (b0 * b0 - A0 * C0)).
  assert (SS : d * d = b0 * b0 - A0 * C0) by (apply sqrt_sqrt; exact D).
  assert (Hd : 0 <= d) by apply sqrt_pos.
  assert (IN : forall z, (- (A0 / 2) < z < A0 / 2) -> - / 2 < z / A0 < / 2).
  { intros z [U V]. split; [apply (Rmult_lt_reg_r A0); [lra|]|apply (Rmult_lt_reg_r A0); [lra|]]; unfold Rdiv; rewrite Rmult_assoc, Rinv_l by lra; lra. }
  assert (ROOT : - (A0 / 2) < b0 + d < A0 / 2 \/ ((b0 + d <= - (A0 / 2) \/ A0 / 2 <= b0 + d) /\ - (A0 / 2) < b0 - d < A0 / 2)).
  { (* the quadratic has opposite signs at both ends *)
    assert (F : forall z, z * z - 2 * b0 * z + A0 * C0 = (z - b0 - d) * (z - b0 + d)).
    { intros z. transitivity ((z - b0) * (z - b0) - d * d); [rewrite SS; ring|ring]. }
    pose proof (F (A0 / 2)) as F1. pose proof (F (- (A0 / 2))) as F2.
    replace (A0 / 2 * (A0 / 2) - 2 * b0 * (A0 / 2) + A0 * C0) with (A0 * (A0 / 4 - b0 + C0)) in F1 by field.
    replace (- (A0 / 2) * - (A0 / 2) - 2 * b0 * - (A0 / 2) + A0 * C0) with (A0 * (A0 / 4 + b0 + C0)) in F2 by field.
    destruct HD' as [[X Y]|[X Y]].
    - assert (0 < (A0 / 2 - b0 - d) * (A0 / 2 - b0 + d)) by (rewrite <- F1; nra).
      assert ((- (A0 / 2) - b0 - d) * (- (A0 / 2) - b0 + d) < 0) by (rewrite <- F2; nra).
      destruct (Rlt_le_dec (b0 + d) (A0 / 2)).
      + left. split; [|lra]. nra.
      + right. split; [right; lra|]. nra.
    - assert ((A0 / 2 - b0 - d) * (A0 / 2 - b0 + d) < 0) by (rewrite <- F1; nra).
      assert (0 < (- (A0 / 2) - b0 - d) * (- (A0 / 2) - b0 + d)) by (rewrite <- F2; nra).
      destruct (Rlt_le_dec (b0 + d) (A0 / 2)).
      + left. split; [|lra]. nra.
      + right. split; [right; lra|]. split; nra. }
  unfold vadd, vsub, vscale, abs2, dot. cbn [x y].
  change (@nleb RNum) with Rleb.
  change (exists k, (- / 2 < k < / 2) /\
    @mkVec RNum (a1 + d1 / 2 + d1 * (if Rleb ((b0 + d) / A0) (- @half RNum) || Rleb (@half RNum) ((b0 + d) / A0) then (b0 - d) / A0 else (b0 + d) / A0))
          (a2 + d2 / 2 + d2 * (if Rleb ((b0 + d) / A0) (- @half RNum) || Rleb (@half RNum) ((b0 + d) / A0) then (b0 - d) / A0 else (b0 + d) / A0)) =
    @mkVec RNum (a1 + d1 / 2 + d1 * k) (a2 + d2 / 2 + d2 * k)).
  assert (HH : @half RNum = / 2) by (unfold half; change (@ndiv RNum) with Rdiv; change (@nofZ RNum) with IZR; lra).
  rewrite HH.
  destruct ROOT as [IN1|[OUT IN2]].
  - pose proof (IN _ IN1). assert (E1 : Rleb ((b0 + d) / A0) (- / 2) = false) by (unfold Rleb; destruct (Rle_dec ((b0 + d) / A0) (- / 2)); [lra|reflexivity]).
    assert (E2 : Rleb (/ 2) ((b0 + d) / A0) = false) by (unfold Rleb; destruct (Rle_dec (/ 2) ((b0 + d) / A0)); [lra|reflexivity]).
    rewrite E1, E2. simpl orb. cbv iota. exists ((b0 + d) / A0). split; [assumption|reflexivity].
  - pose proof (IN _ IN2).
    assert (E : Rleb ((b0 + d) / A0) (- / 2) || Rleb (/ 2) ((b0 + d) / A0) = true).
    { apply orb_true_iff. destruct OUT as [O|O]; [left|right]; unfold Rleb.
      - destruct (Rle_dec ((b0 + d) / A0) (- / 2)) as [|NO]; [reflexivity|]. exfalso. apply NO.
        apply (Rmult_le_reg_r A0); [lra|]. unfold Rdiv. rewrite Rmult_assoc, Rinv_l by lra. lra.
      - destruct (Rle_dec (/ 2) ((b0 + d) / A0)) as [|NO]; [reflexivity|]. exfalso. apply NO.
        apply (Rmult_le_reg_r A0); [lra|]. unfold Rdiv. rewrite Rmult_assoc, Rinv_l by lra. lra. }
    rewrite E. exists ((b0 - d) / A0). split; [assumption|reflexivity].
Qed.

(** ** Another origin *)

Lemma indexed_map {A B} (f : A -> B) l : indexed (map f l) = map (fun e => (fst e, f (snd e))) (indexed l).
Proof.
  unfold indexed. rewrite map_length. generalize 0%nat. induction l as [|a t IH]; intros n; [reflexivity|].
  cbn [map length seq combine fst snd]. rewrite IH. reflexivity.
Qed.

Section Origin.
Variables (S : sspace RNum) (p p' : ptr) (v v' : unk -> R) (d : pt).
Hypothesis Sol : solution S p v.
Hypothesis Sol' : solution (moved d S) p' v'.

Ltac unr :=
  change (@nadd RNum) with Rplus in *; change (@nsub RNum) with Rminus in *; change (@nmul RNum) with Rmult in *;
  change (@ndiv RNum) with Rdiv in *; change (@nopp RNum) with Ropp in *; change (@nofZ RNum) with IZR in *;
  unfold px, py, P in *; cbn [x y r3 o3] in *; unfold Rdiv in *.

Lemma moved_arm b : arm (moved_body d b) = arm b.
Proof.
  unfold arm, moved_body, g_of, moved_fb, moved_geo, get_axis, vsub, vadd, by_. cbn [fb geo cofm holder dpos r3 x y]. unr.
  apply (f_equal2 (@mkVec RNum)); match goal with |- @eq _ ?a ?b => change (@eq R a b) end; lra.
Qed.

Lemma moved_moi b : moi_axis (g_of (moved_body d b)) = moi_axis (g_of b).
Proof.
  unfold moi_axis. cbn [moved_body g_of fb moved_fb geo moved_geo moi area].
  apply (f_equal (fun z => nadd (n:=RNum) _ (nmul (n:=RNum) z _))).
  unfold abs2, dot, vsub, get_axis, vadd, g_of. cbn [moved_geo holder dpos r3 cofm x y]. unfold by_. unr.
  match goal with |- @eq _ ?a ?b => change (@eq R a b) end. lra.
Qed.

Lemma moved_axis b : get_axis (g_of (moved_body d b)) = by_ d (get_axis (g_of b)).
Proof.
  unfold get_axis, by_, moved_body, g_of, moved_fb, moved_geo, vadd. cbn [fb geo holder dpos r3 x y]. unfold by_. unr.
  apply (f_equal2 (@mkVec RNum)); match goal with |- @eq _ ?a ?b => change (@eq R a b) end; lra.
Qed.

Lemma along_moved b f : along (moved_body d b) f = along b (fun k a => f k (moved_att d a)).
Proof. unfold along. cbn [moved_body g_of fb moved_fb geo moved_geo alist]. rewrite indexed_map, total_map. reflexivity. Qed.

Lemma moved_sum b (g : nat -> R) (h : att RNum -> R) e :
  along b (fun k a => g k * (h a + e)) = along b (fun k a => g k * h a) + e * along b (fun k _ => g k).
Proof.
  unfold along. rewrite <- total_scal, <- total_plus. apply total_ext. intros; lra.
Qed.

Variables (i : nat) (b : sbody RNum).
Hypothesis Hb : nth_error (sbodies S) i = Some b.
Hypothesis HG : forall k, v' (UG i k) = v (UG i k).
Hypothesis HV : forall c, v' (UV i c) = v (UV i c).
Hypothesis Hdt : dt S <> 0.

Lemma moved_nth : nth_error (sbodies (moved d S)) i = Some (moved_body d b).
Proof. cbn [moved sbodies]. rewrite nth_error_map, Hb. reflexivity. Qed.

Lemma circ_along : along b (fun k _ => v (UG i k)) = body_circulation v (i, b) - 2 * area (g_of b) * v (UV i CO).
Proof.
  unfold body_circulation, along. cbn [fst snd]. rewrite (total_indexed (fun k => v (UG i k))). lra.
Qed.

Definition excess : R := body_circulation v (i, b) - (g_dead (fb b) + 2 * area (g_of b) * o3 (speed_slae_prev (g_of b))).

Lemma speed_moved : speed_in v' i = speed_in v i.
Proof. unfold speed_in. rewrite !HV. reflexivity. Qed.

Lemma moved_x : dt S * (v' (UH i CX) - v (UH i CX)) = excess * px (turn d).
Proof.
  pose proof (hydro_x S p v Sol i b Hb Hdt) as H.
  pose proof (hydro_x (moved d S) p' v' Sol' i _ moved_nth Hdt) as H'.
  change (dt (moved d S)) with (dt S) in H'.
  unfold wall_impulse in H, H'. rewrite speed_moved in H'. unfold carried in H, H'. rewrite moved_arm in H'.
  cbn [moved_body friction_prev g_of fb geo moved_fb moved_geo cofm area speed_slae_prev fdt_dead] in H'.
  unfold excess. unfold P in H, H'. unfold px at 2 4 7 in H. unfold px at 2 4 8 in H'. cbn [x y r3] in H, H'.
  rewrite along_moved in H'.
  assert (E : along b (fun k a => v' (UG i k) * px (turn (corner (moved_att d a)))) =
              along b (fun k a => v (UG i k) * px (turn (corner a))) + px (turn d) * along b (fun k _ => v (UG i k))).
  { rewrite <- moved_sum. unfold along. apply total_ext. intros [k a] _. cbn [fst snd]. rewrite HG. f_equal;
    unfold turn, moved_att, by_; cbn [corner]; unr; lra. }
  rewrite E in H'. clear E. rewrite circ_along in H'. unfold by_, turn in *. unr.
  change (geo (fb b)) with (g_of b) in *. change (o3 (speed_in v i)) with (v (UV i CO)) in *.
  set (A := along b _) in *. clearbody A. set (B := body_circulation v (i, b)) in *. clearbody B.
  rewrite Rmult_minus_distr_l. lra.
Qed.

Lemma moved_y : dt S * (v' (UH i CY) - v (UH i CY)) = excess * py (turn d).
Proof.
  pose proof (hydro_y S p v Sol i b Hb Hdt) as H.
  pose proof (hydro_y (moved d S) p' v' Sol' i _ moved_nth Hdt) as H'.
  change (dt (moved d S)) with (dt S) in H'.
  rewrite speed_moved in H'.
  assert (W : forall b g, py (wall_impulse b g) = along b (fun k a => g k * py (turn (corner a)))) by reflexivity.
  rewrite !W in H, H'. clear W.
  assert (C : forall b s, py (carried b s) = area (g_of b) * (py (r3 s) + o3 s * (2 * px (cofm (g_of b)) + px (arm b)))) by reflexivity.
  rewrite !C, !moved_arm in H'. rewrite !C in H. clear C.
  cbn [moved_body friction_prev g_of fb geo moved_fb moved_geo cofm area speed_slae_prev fdt_dead r3 x y] in H'.
  unfold excess.
  rewrite along_moved in H'.
  assert (E : along b (fun k a => v' (UG i k) * py (turn (corner (moved_att d a)))) =
              along b (fun k a => v (UG i k) * py (turn (corner a))) + py (turn d) * along b (fun k _ => v (UG i k))).
  { rewrite <- moved_sum. unfold along. apply total_ext. intros [k a] _. cbn [fst snd]. rewrite HG. f_equal;
    unfold turn, moved_att, by_; cbn [corner]; unr; lra. }
  rewrite E in H'. clear E. rewrite circ_along in H'. unfold by_, turn in *. unr.
  change (geo (fb b)) with (g_of b) in *. change (o3 (speed_in v i)) with (v (UV i CO)) in *.
  set (A := along b _) in *. clearbody A. set (B := body_circulation v (i, b)) in *. clearbody B.
  rewrite Rmult_minus_distr_l. lra.
Qed.

Lemma moved_o : v' (UH i CO) = v (UH i CO).
Proof.
  pose proof (hydro_o S p v Sol i b Hb Hdt) as H.
  pose proof (hydro_o (moved d S) p' v' Sol' i _ moved_nth Hdt) as H'.
  change (dt (moved d S)) with (dt S) in H'.
  unfold wall_moment, carried_moment in H, H'. rewrite speed_moved, moved_arm, moved_moi, moved_axis, along_moved in H'.
  assert (E : along b (fun k a => v' (UG i k) * dist2 (corner (moved_att d a)) (by_ d (get_axis (g_of b))) / 2) =
              along b (fun k a => v (UG i k) * dist2 (corner a) (get_axis (g_of b)) / 2)).
  { unfold along. apply total_ext. intros [k a] _. cbn [fst snd]. rewrite HG. do 2 f_equal.
    unfold dist2, moved_att, by_. cbn [corner]. unr. lra. }
  rewrite E in H'. clear E.
  cbn [moved_body friction_prev g_of fb geo moved_fb moved_geo cofm area speed_slae_prev fdt_dead r3 o3] in H'.
  change (geo (fb b)) with (g_of b) in *.
  apply (Rmult_eq_reg_l (dt S)); [|exact Hdt]. lra.
Qed.

Lemma same_forces c : excess = 0 -> v' (UH i c) = v (UH i c).
Proof.
  intros E. destruct c; [pose proof moved_x as H|pose proof moved_y as H|exact moved_o]; rewrite E, Rmult_0_l in H;
    apply Rmult_integral in H; destruct H as [H|H]; try contradiction; lra.
Qed.
End Origin.
