(** What an exact solution of the system satisfies. *)

From Coq Require Import ZArith Bool List Lia Permutation Reals Lra.
From Verif.Base Require Import Num.
From Verif.Matrix Require Import Model Proofs.
From Verif.Body Require Import Model Spec.
From Verif.Flow Require Import Model.
From Verif.System Require Import Model Spec Proofs ProofsCollision ProofsWrite.
Import ListNotations.
Local Open Scope R_scope.

(** ** Which equations there are *)


Lemma plan_has_forces l : forall b row once p es q, plan_from b l row once p = Some (es, q) ->
  forall i, (i < length l)%nat -> forall c, has es (b + i) (Hydro c) /\ has es (b + i) (Newton c).
Proof.
  induction l as [|s t IH]; intros b row once p es q; simpl; [intros _ i Hi; lia|].
  destruct (plan_body b s row once p) as [[[es1 o1] p1]|] eqn:E1; [|discriminate].
  destruct (plan_from (S b) t (row + nseg s + 9) o1 p1) as [[es2 p2]|] eqn:E2; [|discriminate].
  intros H i Hi c. assert (es = es1 ++ es2) as -> by congruence. clear H.
  destruct i as [|i].
  - rewrite Nat.add_0_r.
    unfold plan_body in E1. destruct (Nat.leb (nseg s) (special s)); [discriminate E1|].
    destruct (plan_segs _ _ _ _ _ _) as [l0 o0].
    destruct (plan_spring (rigid s CX) b CX p) as [kx q1].
    destruct (plan_spring (rigid s CY) b CY q1) as [ky q2].
    destruct (plan_spring (rigid s CO) b CO q2) as [ko q3].
    pose proof (f_equal (fun z => match z with Some (a, _, _) => a | None => [] end) E1) as Ees. cbv beta iota in Ees.
    clear E1. subst es1.
    assert (X : forall e, In e (skipn 3 [mkEntry (row + nseg s) kx b 0; mkEntry (row + nseg s + 1) ky b 0; mkEntry (row + nseg s + 2) ko b 0;
                mkEntry (row + nseg s + 3) (Hydro CX) b 0; mkEntry (row + nseg s + 4) (Hydro CY) b 0; mkEntry (row + nseg s + 5) (Hydro CO) b 0;
                mkEntry (row + nseg s + 6) (Newton CX) b 0; mkEntry (row + nseg s + 7) (Newton CY) b 0; mkEntry (row + nseg s + 8) (Newton CO) b 0]) ->
        has ((l0 ++ [mkEntry (row + nseg s) kx b 0; mkEntry (row + nseg s + 1) ky b 0; mkEntry (row + nseg s + 2) ko b 0;
                mkEntry (row + nseg s + 3) (Hydro CX) b 0; mkEntry (row + nseg s + 4) (Hydro CY) b 0; mkEntry (row + nseg s + 5) (Hydro CO) b 0;
                mkEntry (row + nseg s + 6) (Newton CX) b 0; mkEntry (row + nseg s + 7) (Newton CY) b 0; mkEntry (row + nseg s + 8) (Newton CO) b 0]) ++ es2) (ebody e) (ekind e)).
    { intros e He. exists e. split; [|split; reflexivity]. apply in_app_iff. left. apply in_app_iff. right. right; right; right. exact He. }
    destruct c; split.
    + apply (X (mkEntry (row + nseg s + 3) (Hydro CX) b 0)). simpl. tauto.
    + apply (X (mkEntry (row + nseg s + 6) (Newton CX) b 0)). simpl. tauto.
    + apply (X (mkEntry (row + nseg s + 4) (Hydro CY) b 0)). simpl. tauto.
    + apply (X (mkEntry (row + nseg s + 7) (Newton CY) b 0)). simpl. tauto.
    + apply (X (mkEntry (row + nseg s + 5) (Hydro CO) b 0)). simpl. tauto.
    + apply (X (mkEntry (row + nseg s + 8) (Newton CO) b 0)). simpl. tauto.
  - destruct (IH _ _ _ _ _ _ E2 i ltac:(lia) c) as [(e1 & A1 & B1 & C1) (e2 & A2 & B2 & C2)].
    split; [exists e1|exists e2]; (split; [apply in_app_iff; right; assumption|split; [lia|assumption]]).
Qed.

Lemma plan_has_speed l p es q i s c : plan l p = Some (es, q) -> nth_error l i = Some s -> rigid s c = true ->
  has es i (Speed c).
Proof.
  intros Hp Hi Hr. destruct (plan_walk _ _ _ _ _ _ _ Hp) as [_ H].
  apply (H i (Speed c) eq_refl).
  destruct (springs_nth l 0 i c s Hi) as (pre & post & E). rewrite E, walk_app.
  destruct (walk pre p) as [k1 p1]. simpl. rewrite Hr. simpl. destruct (walk post p1) as [k2 p2]. simpl.
  apply in_app_iff. right. left. reflexivity.
Qed.

Lemma count_has P es : (0 < count P es)%nat -> exists e, In e es /\ P (ekind e) = true.
Proof.
  unfold count. destruct (filter (fun e => P (ekind e)) es) as [|e t] eqn:E; simpl; [lia|].
  intros _. exists e. apply (filter_In (fun e => P (ekind e))). rewrite E. left. reflexivity.
Qed.

(** ** Sums over bodies and children *)

Lemma total_filter {A} (P : A -> bool) (f : A -> R) l : total f (filter P l) = total (fun a => if P a then f a else 0) l.
Proof.
  induction l as [|a t IH]; [reflexivity|]. simpl filter. destruct (P a) eqn:E; rewrite ?total_cons, IH, ?E; lra.
Qed.

Lemma total_swap {A B} (f : A -> B -> R) l m : total (fun a => total (f a) m) l = total (fun b => total (fun a => f a b) l) m.
Proof.
  induction l as [|a t IH]; [symmetry; apply total_zero; reflexivity|].
  rewrite total_cons, IH, <- total_plus. apply total_ext. intros b _. rewrite total_cons. reflexivity.
Qed.

Lemma total_single n k a : (k < n)%nat -> forall s, (s <= k)%nat -> (k < s + n)%nat ->
  total (fun i => if Nat.eqb k i then a else 0) (seq s n) = a.
Proof.
  intros _. induction n as [|n IH]; intros s L U; [lia|]. simpl seq. rewrite total_cons.
  destruct (Nat.eqb_spec k s) as [->|N].
  - rewrite total_zero; [lra|]. intros i Hi. apply in_seq in Hi. destruct (Nat.eqb_spec s i); [lia|reflexivity].
  - rewrite IH by lia. lra.
Qed.

Lemma total_indexed {A} (f : nat -> R) (l : list A) : total (fun e => f (fst e)) (indexed l) = total f (seq 0 (length l)).
Proof.
  unfold indexed. assert (X : forall (l : list A) s, total (fun e => f (fst e)) (combine (seq s (length l)) l) = total f (seq s (length l))).
  { clear. induction l as [|a t IH]; intros s; [reflexivity|]. cbn [length seq combine]. rewrite !total_cons. cbn [fst]. rewrite IH. reflexivity. }
  apply X.
Qed.

Lemma children_sum (S : sspace RNum) (f : nat * sbody RNum -> R) : roots_listed S ->
  total (fun i => total f (children S i)) (seq 0 (length (sbodies S))) =
  total (fun e => if rootless e then 0 else f e) (indexed (sbodies S)).
Proof.
  intros HR. unfold children.
  rewrite (total_ext _ (fun i => total (fun e : nat * sbody RNum => if match root (fb (snd e)) with Some k => Nat.eqb k i | None => false end then f e else 0) (indexed (sbodies S))))
    by (intros; apply total_filter).
  rewrite total_swap. apply total_ext. intros [j b] Hj. apply indexed_nth in Hj. unfold rootless. simpl snd.
  destruct (root (fb b)) as [k|] eqn:E; [|apply total_zero; reflexivity].
  assert (k < length (sbodies S))%nat by (eapply HR; [eapply nth_error_In; eauto|exact E]).
  apply total_single; lia.
Qed.

Lemma map_fst_indexed {A} (l : list A) : forall s, map fst (combine (seq s (length l)) l) = seq s (length l).
Proof. induction l as [|a t IH]; intros s; simpl; [reflexivity|]. rewrite IH. reflexivity. Qed.

(** ** Single equations *)

Section Sol.
Variables (S : sspace RNum) (p : ptr) (v : unk -> R).
Hypothesis Sol : solution S p v.
Hypothesis NSR : no_self_root S.

Definition lin (l : list (unk * R)) : R := total (fun t => snd t * v (fst t)) l.

Lemma sol_roots : roots_listed S.
Proof. destruct Sol as (?&?&?&?&?&?&?&?&?&?&?&?&?&?&?&?&?&?). assumption. Qed.

(** Every planned equation without repeated unknowns holds. *)
Lemma sol_row : exists atan2f two_pi inv_2pi sinks free_flux es q,
  plan (shapes_of S) p = Some (es, q) /\
  forall i k b, has es i k -> nth_error (sbodies S) i = Some b -> exists e qn, ebody e = i /\ ekind e = k /\
    eqn_of (K:=RNum) ln atan2f two_pi inv_2pi (/4) (/1000) S sinks free_flux e = Some qn /\
    (NoDup (map fst (coefs qn)) -> lin (coefs qn) = rhs qn).
Proof.
  destruct Sol as (at2 & tp & ip & sk & ff & addr & es & q & order & sl & M & M' & Hp & HP & HR & HL & HF & Hs).
  exists at2, tp, ip, sk, ff, es, q. split; [exact Hp|].
  intros i k b (e & He & Hi & Hk) Hb.
  destruct (entry_eqn (K:=RNum) ln at2 tp ip (/4) (/1000) S sk ff e) as (qn & Eq).
  { apply (plan_entries _ _ _ _ _ _ _ [] Hp eq_refl _ He). }
  exists e, qn. repeat split; try assumption.
  intros ND. unfold lin. exact (row_holds at2 tp ip S sk ff addr p es q order sl M M' v e qn Hp HP HR HL HF Hs He Eq ND).
Qed.

Lemma index_lt i b : nth_error (sbodies S) i = Some b -> (i < length (sbodies S))%nat.
Proof. intros H. apply nth_error_Some. congruence. Qed.

Lemma nodup_children i b (f : nat -> unk) : nth_error (sbodies S) i = Some b ->
  (forall j, ubody (f j) = j) -> NoDup (map (fun e : nat * sbody RNum => f (fst e)) (children S i)).
Proof.
  intros Hb Hf. unfold children.
  assert (X : NoDup (map fst (bodies_i S))).
  { unfold bodies_i, indexed. rewrite map_fst_indexed. apply seq_NoDup. }
  revert X. generalize (bodies_i S). induction l as [|[j c] t IH]; simpl; [constructor|].
  intros X. apply NoDup_cons_iff in X. destruct X as [Nj X].
  destruct (match root (fb c) with Some k => Nat.eqb k i | None => false end); [|auto]. simpl. constructor; [|auto].
  rewrite in_map_iff. intros ([j' c'] & E & H'). apply filter_In in H'. destruct H' as [H' _].
  apply (f_equal ubody) in E. simpl in E. rewrite !Hf in E. subst j'. apply Nj. apply (in_map fst) in H'. exact H'.
Qed.

Ltac unr :=
  change (@nadd RNum) with Rplus in *; change (@nsub RNum) with Rminus in *; change (@nmul RNum) with Rmult in *;
  change (@ndiv RNum) with Rdiv in *; change (@nopp RNum) with Ropp in *; change (@nofZ RNum) with IZR in *;
  unfold px, py, P in *; cbn [x y r3 o3] in *; unfold Rdiv in *.

Lemma lin_cons u a l : lin ((u, a) :: l) = a * v u + lin l.
Proof. reflexivity. Qed.
Lemma lin_app l m : lin (l ++ m) = lin l + lin m.
Proof. apply total_app. Qed.

Lemma eqn_newton at2 tp ip sk ff e qn i b c : ebody e = i -> ekind e = Newton c -> nth_error (sbodies S) i = Some b ->
  eqn_of (K:=RNum) ln at2 tp ip (/4) (/1000) S sk ff e = Some qn -> qn = newton_eq S c i b.
Proof.
  intros Hi Hk Hb. unfold eqn_of. rewrite Hi, Hb, Hk. intros E.
  exact (f_equal (fun z => match z with Some w => w | None => qn end) (eq_sym E)).
Qed.

Lemma children_other i b j c : nth_error (sbodies S) i = Some b -> In (j, c) (children S i) -> j <> i.
Proof.
  intros Hb H. apply children_in in H. destruct H as [Hj Hr]. intros ->. exact (NSR i c Hj Hr).
Qed.

Lemma newton_nodup i b c : nth_error (sbodies S) i = Some b -> NoDup (map fst (coefs (newton_eq (K:=RNum) S c i b))).
Proof.
  intros Hb.
  assert (Happ : forall (A : Type) (l m : list A), NoDup l -> NoDup m -> (forall a, In a l -> ~ In a m) -> NoDup (l ++ m)).
  { intros A l m Hl Hm D. induction Hl; simpl; [assumption|]. constructor.
    - rewrite in_app_iff. intros [|X]; [auto|]. apply (D x (or_introl eq_refl) X).
    - apply IHHl. intros a Ha. apply D; right; exact Ha. }
  assert (H5 : NoDup [UV i CX; UV i CY; UV i CO; UH i c; UF i c]).
  { repeat constructor; simpl; intuition discriminate. }
  assert (Hin : forall u, In u [UV i CX; UV i CY; UV i CO; UH i c; UF i c] -> ubody u = i).
  { intros u H. simpl in H. intuition (subst; reflexivity). }
  destruct c; unfold newton_eq; cbn [coefs]; rewrite map_app; apply Happ; try exact H5.
  - rewrite map_map. apply (nodup_children i b (fun j => UF j CX) Hb). reflexivity.
  - intros u Hu. apply Hin in Hu. rewrite map_map, in_map_iff. intros ([j d] & <- & Hj). simpl in Hu. exact (children_other _ _ _ _ Hb Hj Hu).
  - rewrite map_map. apply (nodup_children i b (fun j => UF j CY) Hb). reflexivity.
  - intros u Hu. apply Hin in Hu. rewrite map_map, in_map_iff. intros ([j d] & <- & Hj). simpl in Hu. exact (children_other _ _ _ _ Hb Hj Hu).
  - pose proof (nodup_children i b (fun j => UF j CO) Hb (fun j => eq_refl)) as X. revert X.
    generalize (children S i). induction l as [|[j d] t IH]; intros X; [constructor|]. simpl in X |- *.
    apply NoDup_cons_iff in X. destruct X as [Nj X]. specialize (IH X).
    assert (Y : forall cc, ~ In (UF j cc) (map fst (flat_map (fun e : nat * sbody RNum => [(UF (fst e) CX, - y (vsub (get_axis (g_of (snd e))) (get_axis (g_of b)))); (UF (fst e) CY, x (vsub (get_axis (g_of (snd e))) (get_axis (g_of b)))); (UF (fst e) CO, nofZ 1)])%num t))).
    { intros cc. rewrite in_map_iff. intros ([u a] & Eu & Hu). simpl in Eu. subst u. rewrite in_flat_map in Hu.
      destruct Hu as ([j' d'] & Hj' & Hu). apply Nj. apply in_map_iff. exists (j', d'). split; [|exact Hj'].
      simpl in Hu. simpl. destruct Hu as [E|[E|[E|[]]]]; injection E; intros; subst; reflexivity. }
    constructor; [simpl; intros [E|[E|E]]; [discriminate E..|exact (Y _ E)]|].
    constructor; [simpl; intros [E|E]; [discriminate E|exact (Y _ E)]|].
    constructor; [exact (Y _)|exact IH].
  - intros u Hu. apply Hin in Hu. rewrite in_map_iff. intros ([w a] & Ew & Hw). simpl in Ew. subst w.
    rewrite in_flat_map in Hw. destruct Hw as ([j d] & Hj & Hw). apply (children_other _ _ _ _ Hb Hj).
    simpl in Hw. destruct Hw as [E|[E|[E|[]]]]; apply (f_equal (fun z => ubody (fst z))) in E; simpl in E; congruence.
Qed.

Lemma newton_holds i b c : nth_error (sbodies S) i = Some b -> lin (coefs (newton_eq (K:=RNum) S c i b)) = rhs (newton_eq (K:=RNum) S c i b).
Proof.
  intros Hb. destruct sol_row as (at2 & tp & ip & sk & ff & es & q & Hp & H).
  assert (Hh : has es i (Newton c)).
  { replace i with (0 + i)%nat by lia. eapply plan_has_forces; [exact Hp|]. unfold shapes_of. rewrite map_length. eapply index_lt; eauto. }
  destruct (H i (Newton c) b Hh Hb) as (e & qn & Hi & Hk & Eq & Hl).
  rewrite (eqn_newton _ _ _ _ _ _ _ _ _ _ Hi Hk Hb Eq) in Hl. apply Hl. apply newton_nodup. exact Hb.
Qed.

Lemma newton_x i b : nth_error (sbodies S) i = Some b ->
  mass b / dt S * (px (com_speed b (speed_in v i)) - px (com_speed b (speed_slae_prev (g_of b)))) =
  v (UH i CX) - v (UF i CX) + total (fun e : nat * sbody RNum => v (UF (fst e) CX)) (children S i)
  + (density b - 1) * area (g_of b) * px (gravity S) + mass b * px (arm b) * (o3 (speed_slae_prev (g_of b)) * o3 (speed_slae_prev (g_of b))).
Proof.
  intros Hb. pose proof (newton_holds i b CX Hb) as H. unfold newton_eq in H. cbn [coefs rhs] in H.
  rewrite lin_app in H. unfold lin at 2 in H. rewrite total_map in H. cbn [fst snd] in H.
  rewrite (total_ext _ (fun e : nat * sbody RNum => v (UF (fst e) CX))) in H by (intros; unr; lra).
  rewrite !lin_cons in H. change (lin []) with 0 in H.
  unfold mass, com_speed, arm, speed_in, sqr, Rdiv in *. unr. lra.
Qed.

Lemma newton_y i b : nth_error (sbodies S) i = Some b ->
  mass b / dt S * (py (com_speed b (speed_in v i)) - py (com_speed b (speed_slae_prev (g_of b)))) =
  v (UH i CY) - v (UF i CY) + total (fun e : nat * sbody RNum => v (UF (fst e) CY)) (children S i)
  + (density b - 1) * area (g_of b) * py (gravity S) + mass b * py (arm b) * (o3 (speed_slae_prev (g_of b)) * o3 (speed_slae_prev (g_of b))).
Proof.
  intros Hb. pose proof (newton_holds i b CY Hb) as H. unfold newton_eq in H. cbn [coefs rhs] in H.
  rewrite lin_app in H. unfold lin at 2 in H. rewrite total_map in H. cbn [fst snd] in H.
  rewrite (total_ext _ (fun e : nat * sbody RNum => v (UF (fst e) CY))) in H by (intros; unr; lra).
  rewrite !lin_cons in H. change (lin []) with 0 in H.
  unfold mass, com_speed, arm, speed_in, sqr, Rdiv in *. unr. lra.
Qed.

Lemma total_flat {A B} (f : B -> R) (g : A -> list B) l : total f (flat_map g l) = total (fun a => total f (g a)) l.
Proof. induction l as [|a t IH]; [reflexivity|]. simpl flat_map. rewrite total_app, total_cons, IH. reflexivity. Qed.

(** Holder force of a body about its root's axis. *)
Definition torque_about (c : pt) (e : nat * sbody RNum) : R :=
  v (UF (fst e) CO) + cross2 (vsub (get_axis (g_of (snd e))) c) (P (v (UF (fst e) CX)) (v (UF (fst e) CY))).

Lemma newton_o i b : nth_error (sbodies S) i = Some b ->
  / dt S * (spin b (speed_in v i) - spin b (speed_slae_prev (g_of b))) =
  v (UH i CO) - v (UF i CO) + total (torque_about (get_axis (g_of b))) (children S i)
  + (density b - 1) * area (g_of b) * cross2 (arm b) (gravity S).
Proof.
  intros Hb. pose proof (newton_holds i b CO Hb) as H. unfold newton_eq in H. cbn [coefs rhs] in H.
  rewrite lin_app in H. unfold lin at 2 in H. rewrite total_flat in H.
  rewrite (total_ext _ (torque_about (get_axis (g_of b)))) in H.
  2:{ intros [j c] _. rewrite !total_cons. change (total (fun t : unk * R => snd t * v (fst t)) []) with 0.
      unfold torque_about, cross2. cbn [fst snd]. unr. lra. }
  rewrite !lin_cons in H. change (lin []) with 0 in H.
  unfold spin, mass, arm, speed_in, cross2, dot, rotl in *. unr. lra.
Qed.
End Sol.

(** ** Balances of the whole system *)

Lemma total_minus {A} (f g : A -> R) l : total (fun a => f a - g a) l = total f l - total g l.
Proof. induction l as [|a t IH]; [unfold total; simpl; lra|]. rewrite !total_cons, IH. lra. Qed.

Lemma each_sum (S : sspace RNum) (f h F k g : nat -> sbody RNum -> R) :
  (forall i b, nth_error (sbodies S) i = Some b -> f i b = h i b - F i b + k i b + g i b) ->
  each S f = each S h - each S F + each S k + each S g.
Proof.
  intros H. unfold each. rewrite <- total_minus, <- !total_plus. apply total_ext. intros [i b] Hi. apply indexed_nth in Hi. apply H. exact Hi.
Qed.

Lemma each_ext (S : sspace RNum) (f g : nat -> sbody RNum -> R) :
  (forall i b, nth_error (sbodies S) i = Some b -> f i b = g i b) -> each S f = each S g.
Proof. intros H. unfold each. apply total_ext. intros [i b] Hi. apply indexed_nth in Hi. apply H. exact Hi. Qed.

Lemma each_plus S f g : each S (fun i b => f i b + g i b) = each S f + each S g.
Proof. unfold each. apply total_plus. Qed.
Lemma each_minus S f g : each S (fun i b => f i b - g i b) = each S f - each S g.
Proof. unfold each. apply total_minus. Qed.
Lemma each_scal S f a : each S (fun i b => a * f i b) = a * each S f.
Proof. unfold each. apply total_scal. Qed.

Lemma held_sum (S : sspace RNum) (f : nat -> sbody RNum -> R) : roots_listed S ->
  each S (fun i _ => total (fun e : nat * sbody RNum => f (fst e) (snd e)) (children S i)) - each S f =
  - each S (fun i b => if_free b (f i b)).
Proof.
  intros HR. unfold each at 1. rewrite (total_indexed (fun i => total (fun e : nat * sbody RNum => f (fst e) (snd e)) (children S i))), children_sum by exact HR.
  unfold each. rewrite <- total_minus.
  replace (- total (fun e : nat * sbody RNum => if_free (snd e) (f (fst e) (snd e))) (indexed (sbodies S)))
    with (-1 * total (fun e : nat * sbody RNum => if_free (snd e) (f (fst e) (snd e))) (indexed (sbodies S))) by lra.
  rewrite <- total_scal. apply total_ext. intros e _. unfold rootless, if_free. destruct (root (fb (snd e))); lra.
Qed.

Section Balance.
Variables (S : sspace RNum) (p : ptr) (v : unk -> R).
Hypothesis Sol : solution S p v.
Hypothesis NSR : no_self_root S.

Lemma momentum_x :
  each S (fun i b => mass b / dt S * (px (com_speed b (speed_in v i)) - px (com_speed b (speed_slae_prev (g_of b))))) =
  each S (fun i _ => v (UH i CX)) - each S (fun i b => if_free b (v (UF i CX)))
  + each S (fun _ b => (density b - 1) * area (g_of b) * px (gravity S)
                       + mass b * px (arm b) * (o3 (speed_slae_prev (g_of b)) * o3 (speed_slae_prev (g_of b)))).
Proof.
  pose proof (held_sum S (fun i _ => v (UF i CX)) (sol_roots S p v Sol)) as H.
  rewrite (each_sum S _ (fun i _ => v (UH i CX)) (fun i _ => v (UF i CX)) (fun i _ => total (fun e : nat * sbody RNum => v (UF (fst e) CX)) (children S i))
     (fun _ b => (density b - 1) * area (g_of b) * px (gravity S) + mass b * px (arm b) * (o3 (speed_slae_prev (g_of b)) * o3 (speed_slae_prev (g_of b))))).
  - lra.
  - intros i b Hb. rewrite (newton_x S p v Sol NSR i b Hb). lra.
Qed.

Lemma momentum_y :
  each S (fun i b => mass b / dt S * (py (com_speed b (speed_in v i)) - py (com_speed b (speed_slae_prev (g_of b))))) =
  each S (fun i _ => v (UH i CY)) - each S (fun i b => if_free b (v (UF i CY)))
  + each S (fun _ b => (density b - 1) * area (g_of b) * py (gravity S)
                       + mass b * py (arm b) * (o3 (speed_slae_prev (g_of b)) * o3 (speed_slae_prev (g_of b)))).
Proof.
  pose proof (held_sum S (fun i _ => v (UF i CY)) (sol_roots S p v Sol)) as H.
  rewrite (each_sum S _ (fun i _ => v (UH i CY)) (fun i _ => v (UF i CY)) (fun i _ => total (fun e : nat * sbody RNum => v (UF (fst e) CY)) (children S i))
     (fun _ b => (density b - 1) * area (g_of b) * py (gravity S) + mass b * py (arm b) * (o3 (speed_slae_prev (g_of b)) * o3 (speed_slae_prev (g_of b))))).
  - lra.
  - intros i b Hb. rewrite (newton_y S p v Sol NSR i b Hb). lra.
Qed.

Ltac unr :=
  change (@nadd RNum) with Rplus in *; change (@nsub RNum) with Rminus in *; change (@nmul RNum) with Rmult in *;
  change (@ndiv RNum) with Rdiv in *; change (@nopp RNum) with Ropp in *; change (@nofZ RNum) with IZR in *;
  unfold px, py, P in *; cbn [x y r3 o3] in *; unfold Rdiv in *.

Lemma cross2_sub a b f : cross2 (vsub a b) f = cross2 a f - cross2 b f.
Proof. unfold cross2, vsub. unr. lra. Qed.

Lemma children_torque i b : nth_error (sbodies S) i = Some b ->
  total (torque_about v (get_axis (g_of b))) (children S i) =
  total (fun e : nat * sbody RNum => v (UF (fst e) CO) + cross2 (get_axis (g_of (snd e))) (P (v (UF (fst e) CX)) (v (UF (fst e) CY)))) (children S i)
  - px (get_axis (g_of b)) * total (fun e : nat * sbody RNum => v (UF (fst e) CY)) (children S i)
  + py (get_axis (g_of b)) * total (fun e : nat * sbody RNum => v (UF (fst e) CX)) (children S i).
Proof.
  intros _. rewrite <- !total_scal, <- total_minus, <- total_plus. apply total_ext. intros [j c] _.
  unfold torque_about. rewrite cross2_sub. unfold cross2. cbn [fst snd px py P x y]. unr. lra.
Qed.

Lemma angular_momentum :
  each S (fun i b => / dt S * (spin b (speed_in v i) - spin b (speed_slae_prev (g_of b)))
                     + mass b / dt S * cross2 (get_axis (g_of b)) (vsub (com_speed b (speed_in v i)) (com_speed b (speed_slae_prev (g_of b))))) =
  each S (fun i b => v (UH i CO) + cross2 (get_axis (g_of b)) (P (v (UH i CX)) (v (UH i CY))))
  - each S (fun i b => if_free b (v (UF i CO) + cross2 (get_axis (g_of b)) (P (v (UF i CX)) (v (UF i CY)))))
  + each S (fun _ b => (density b - 1) * area (g_of b) * cross2 (vadd (get_axis (g_of b)) (arm b)) (gravity S)
                       + mass b * (o3 (speed_slae_prev (g_of b)) * o3 (speed_slae_prev (g_of b))) * cross2 (get_axis (g_of b)) (arm b)).
Proof.
  pose proof (held_sum S (fun i b => v (UF i CO) + cross2 (get_axis (g_of b)) (P (v (UF i CX)) (v (UF i CY)))) (sol_roots S p v Sol)) as H.
  rewrite (each_sum S _ (fun i b => v (UH i CO) + cross2 (get_axis (g_of b)) (P (v (UH i CX)) (v (UH i CY))))
     (fun i b => v (UF i CO) + cross2 (get_axis (g_of b)) (P (v (UF i CX)) (v (UF i CY))))
     (fun i _ => total (fun e : nat * sbody RNum => v (UF (fst e) CO) + cross2 (get_axis (g_of (snd e))) (P (v (UF (fst e) CX)) (v (UF (fst e) CY)))) (children S i))
     (fun _ b => (density b - 1) * area (g_of b) * cross2 (vadd (get_axis (g_of b)) (arm b)) (gravity S)
                       + mass b * (o3 (speed_slae_prev (g_of b)) * o3 (speed_slae_prev (g_of b))) * cross2 (get_axis (g_of b)) (arm b))).
  - lra.
  - intros i b Hb. rewrite (newton_o S p v Sol NSR i b Hb), (children_torque i b Hb).
    pose proof (newton_x S p v Sol NSR i b Hb) as HX. pose proof (newton_y S p v Sol NSR i b Hb) as HY.
    set (AX := total (fun e : nat * sbody RNum => v (UF (fst e) CX)) (children S i)) in *.
    set (AY := total (fun e : nat * sbody RNum => v (UF (fst e) CY)) (children S i)) in *.
    set (TT := total (fun e : nat * sbody RNum => v (UF (fst e) CO) + cross2 (get_axis (g_of (snd e))) (P (v (UF (fst e) CX)) (v (UF (fst e) CY)))) (children S i)) in *.
    replace (mass b / dt S * cross2 (get_axis (g_of b)) (vsub (com_speed b (speed_in v i)) (com_speed b (speed_slae_prev (g_of b)))))
      with (px (get_axis (g_of b)) * (mass b / dt S * (py (com_speed b (speed_in v i)) - py (com_speed b (speed_slae_prev (g_of b)))))
            - py (get_axis (g_of b)) * (mass b / dt S * (px (com_speed b (speed_in v i)) - px (com_speed b (speed_slae_prev (g_of b)))))).
    2:{ unfold cross2, vsub. unr. ring. }
    rewrite HX, HY. unfold cross2, vadd. unr. ring.
Qed.
End Balance.
