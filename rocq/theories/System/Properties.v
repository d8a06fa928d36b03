(** Properties of the linear system of circulations, speeds and forces. *)

From Coq Require Import ZArith Bool List Lia Permutation Reals Lra.
From Verif.Base Require Import Num.
From Verif.Matrix Require Import Model Proofs.
From Verif.Body Require Import Model Spec.
From Verif.Flow Require Import Model.
From Verif.System Require Import Model Spec Proofs ProofsCollision ProofsWrite ProofsPhysics ProofsSolve ProofsReuse
  ProofsOrder ProofsXi ProofsLaws ProofsWitness.
Import ListNotations.

(** * C17: numbering of the unknowns *)

(** The segments' numbers and the nine numbers from [eq_forces_no], body after
    body, are 0 .. N-1, each once and in this order. *)
Theorem C17_numbers : forall sizes,
  flat_map (fun e => fst e ++ seq (snd e) 9) (enumerate sizes) = seq 0 (system_size sizes).
Proof. intros. apply enumerate_all. Qed.

(** Registering the cells succeeds, and every cell then answers with the column
    that [EnumerateBodies] gave its segment or its body. *)
Theorem C17_columns : forall addr sizes s, injective addr -> no_clash addr sizes s ->
  exists s', register addr sizes s = Ok s' /\
  forall b n, nth_error sizes b = Some n ->
  exists seg_no forces_no, nth_error (enumerate sizes) b = Some (seg_no, forces_no) /\ length seg_no = n /\
    (forall i, (i < n)%nat -> exists k, nth_error seg_no i = Some k /\ get_col s' (addr (UG b i)) = Z.of_nat k) /\
    (forall c, get_col s' (addr (UV b c)) = Z.of_nat (forces_no + comp_no c) /\
               get_col s' (addr (UH b c)) = Z.of_nat (forces_no + 3 + comp_no c) /\
               get_col s' (addr (UF b c)) = Z.of_nat (forces_no + 6 + comp_no c)).
Proof.
  intros addr sizes s Inj NC. destruct (register_spec addr sizes s Inj NC) as (s' & E & Reg & _).
  exists s'. split; [exact E|]. intros b n Hn.
  pose proof (enumerate_nth sizes 0 b n Hn) as En. rewrite !Nat.add_0_l in En.
  assert (Hb : (b < length sizes)%nat) by (apply nth_error_Some; congruence).
  assert (Nn : nth b sizes 0%nat = n) by (apply nth_error_nth; exact Hn).
  eexists _, _. split; [exact En|]. split; [apply seq_length|]. split.
  - intros i Hi. exists (start sizes b + i)%nat. split.
    + rewrite (nth_error_nth' _ 0%nat) by (rewrite seq_length; exact Hi). rewrite seq_nth by exact Hi. reflexivity.
    + rewrite Reg by (exists n; auto). reflexivity.
  - intros c. rewrite !Reg by exact Hb. unfold col. cbn [ubody offset]. rewrite Nn. repeat split; f_equal; lia.
Qed.

(** Two bodies of three and four segments. *)
Example C17_ex : enumerate [3; 4] = [([0; 1; 2], 3); ([12; 13; 14; 15], 16)] /\ system_size [3; 4] = 25.
Proof. split; reflexivity. Qed.

(** * C20: every row is written once *)

Theorem C20_rows : forall l p,
  ((forall s, In s l -> special s < nseg s) <-> plan l p <> None) /\
  forall es q, plan l p = Some (es, q) ->
    map erow es = seq 0 (system_size (map nseg l)) /\
    count is_inf es = (if existsb (fun s => negb (kutta s)) l then 1 else 0) /\
    count is_zero_row es = length (filter kutta l) /\
    count is_inf es + count is_steady es = length (filter (fun s => negb (kutta s)) l).
Proof.
  intros l p. split.
  - split.
    + intros H. destruct (plan_defined_from l 0 0 false p H) as (es & q & E). unfold plan. rewrite E. discriminate.
    + unfold plan. generalize 0 at 1. generalize 0. generalize false. revert p.
      induction l as [|a t IH]; [intros ? ? ? ? ? ? []|]. intros p o row b. simpl. unfold plan_body.
      destruct (Nat.leb (nseg a) (special a)) eqn:L; [congruence|]. apply Nat.leb_gt in L.
      destruct (plan_segs _ _ _ _ _ _) as [l0 o0]. destruct (plan_spring _ _ _ _) as [k1 p1].
      destruct (plan_spring _ _ _ _) as [k2 p2]. destruct (plan_spring _ _ _ _) as [k3 p3].
      intros H s [<-|Hs]; [exact L|]. apply (IH p3 o0 (row + nseg a + 9) (S b)); [|exact Hs].
      intros X. rewrite X in H. congruence.
  - intros es q E. destruct (plan_from_inf l 0 0 false p es q E) as (A & B & C).
    split; [apply (plan_rows _ _ _ _ E)|]. split; [|split; [|exact C]].
    + rewrite A. reflexivity.
    + rewrite B. unfold steady_bodies. clear.
      assert (X : length (filter kutta l) + length (filter (fun s => negb (kutta s)) l) = length l)
        by (induction l as [|a t IH]; [reflexivity|]; cbn [filter]; destruct (kutta a); cbn [negb length]; lia).
      lia.
Qed.

(** Whatever the order in which the threads take the jobs, the result is the same. *)
Theorem C20_any_order : forall (K : Num) lnf at2 tp ip qu mi (S : sspace K) sk ff addr sl p es q o1 o2 ro M,
  plan (shapes_of S) p = Some (es, q) -> Permutation es o1 -> Permutation es o2 ->
  registered addr (sizes_of S) sl -> roots_listed S ->
  exists M1 M2,
    fill_in lnf at2 tp ip qu mi S sk ff addr (system_size (sizes_of S)) o1 ro sl M = Ok M1 /\
    fill_in lnf at2 tp ip qu mi S sk ff addr (system_size (sizes_of S)) o2 ro sl M = Ok M2 /\
    (forall k, k < system_size (sizes_of S) * system_size (sizes_of S) -> cell M1 k = cell M2 k) /\
    (forall row, row < system_size (sizes_of S) -> right_ M1 row = right_ M2 row).
Proof. intros. eapply any_order; eassumption. Qed.

(** Two bodies, the second with the Kutta condition and a free angle. *)
Definition two_shapes : list shape :=
  [mkShape 3 0 false (fun _ => true); mkShape 2 1 true (fun c => negb (comp_eqb c CO))].
Example C20_ex : option_map (fun e => map ekind (fst e)) (plan two_shapes PNull) = Some
  [InfSteady; Slip; Slip; Speed CX; Speed CY; Speed CO; Hydro CX; Hydro CY; Hydro CO; Newton CX; Newton CY; Newton CO;
   Slip; Zero; Speed CX; Speed CY; Hooke CO false; Hydro CX; Hydro CY; Hydro CO; Newton CX; Newton CY; Newton CO].
Proof. reflexivity. Qed.
(** A special segment that does not exist. *)
Example C20_ex_undefined : plan [mkShape 3 3 true (fun _ => true)] PNull = None.
Proof. reflexivity. Qed.
(** * C24: collision response *)

(** The bodies after a report that component [c] of body [b] hit its limit: the
    stop row is in the first system only if every degree of freedom visited
    earlier is rigid, the bounce row is in the second one only if every other
    degree of freedom of every body is rigid. *)
Theorem C24_bounce_partial : forall l b c s es1 es2 q, nth_error l b = Some s -> rigid s c = false ->
  plans l (PSpring b c) = Some ([es1; es2], q) ->
  (has es1 b (Stop c) <-> forall i a d, nth_error l i = Some a -> earlier i d b c -> rigid a d = true) /\
  (has es2 b (Hooke c true) <-> forall i a d, nth_error l i = Some a -> (i, d) <> (b, c) -> rigid a d = true).
Proof. exact bounce_passes. Qed.

(** The second system ends with no collision pending, and a report makes two systems. *)
Theorem C24_two_passes : forall l b c, (forall s, In s l -> special s < nseg s) -> (exists s, nth_error l b = Some s /\ rigid s c = false) ->
  exists es1 es2, plans l (PSpring b c) = Some ([es1; es2], PNull).
Proof.
  intros l b c H (s & Es & Rg). unfold plans. cbn [ptr_eqb].
  destruct (plan_defined_from l 0 0 false (PSpring b c) H) as (es1 & p1 & E1).
  destruct (plan_defined_from l 0 0 false p1 H) as (es2 & p2 & E2).
  unfold plan. rewrite E1, E2. exists es1, es2. cbn. do 2 f_equal.
  destruct (plan_walk _ _ _ _ _ _ _ E1) as [Q1 _]. destruct (plan_walk _ _ _ _ _ _ _ E2) as [Q2 _].
  destruct (plan_all_springs l b c s Es) as (pre & post & Eq & N1 & N2). rewrite Rg in Eq.
  pose proof (walk_bounce b c pre post N1 N2) as W. cbv zeta in W. unfold spring in *. rewrite <- Eq in W.
  destruct (walk (springs_from 0 l) (PSpring b c)) as [k1 q1]. cbn [snd] in Q1. subst p1.
  destruct (walk (springs_from 0 l) q1) as [k2 q2]. cbn [snd] in Q2. subst p2. exact (proj2 (proj2 (proj2 (proj2 W)))).
Qed.

(** One body free to move along x and y hits its limit along y: neither system
    has a row for the collision. *)
Theorem C24_refuted : exists l es1 es2 q, (forall s, In s l -> special s < nseg s) /\
  (exists s, nth_error l 0 = Some s /\ rigid s CY = false) /\
  plans l (PSpring 0 CY) = Some ([es1; es2], q) /\
  ~ has es1 0 (Stop CY) /\ ~ has es2 0 (Hooke CY true).
Proof.
  exists [mkShape 3 0 true (fun c => comp_eqb c CO)]. do 3 eexists.
  split; [intros s [<-|[]]; simpl; lia|]. split; [eexists; split; reflexivity|]. split; [reflexivity|].
  split; intros (e & I & _ & E); cbn in I; repeat (destruct I as [<-|I]; [discriminate E|]); destruct I.
Qed.

(** A body free to move along y only bounces. *)
Example C24_ex : exists es1 es2 q, plans [mkShape 3 0 true (fun c => negb (comp_eqb c CY))] (PSpring 0 CY) = Some ([es1; es2], q) /\
  has es1 0 (Stop CY) /\ has es2 0 (Hooke CY true) /\ q = PNull.
Proof.
  do 3 eexists. split; [reflexivity|]. split; [|split; [|reflexivity]].
  - exists (mkEntry 4 (Stop CY) 0 0). cbn. auto 10.
  - exists (mkEntry 4 (Hooke CY true) 0 0). cbn. auto 10.
Qed.

Local Open Scope R_scope.

(** * C60: reuse of the inverse matrix *)

(** While every speed is exactly zero and every degree of freedom rigid, a step
    leaves every cell as a full fill would write it, and the right sides are
    written as a full fill would. *)
Theorem C60_at_rest_partial : forall at2 tp ip inf (S S' : sspace RNum) v addr sl M sk ff es q order M1,
  solution S PNull v ->
  (forall b, In b (sbodies S) -> at_rest b) -> (forall b, In b (sbodies S') -> at_rest b) ->
  (forall b, In b (sbodies S) -> fresh inf b) -> next_step inf S v S' -> registered addr (sizes_of S) sl ->
  filled at2 tp ip S addr sl M ->
  plan (shapes_of S') PNull = Some (es, q) -> Permutation es order ->
  fill_in (K:=RNum) ln at2 tp ip (/ 4) (/ 1000) S' sk ff addr (system_size (sizes_of S')) order true sl M = Ok M1 ->
  filled at2 tp ip S' addr sl M1 /\
  forall M0 M2, fill_in (K:=RNum) ln at2 tp ip (/ 4) (/ 1000) S' sk ff addr (system_size (sizes_of S')) order false sl M0 = Ok M2 ->
    forall row, (row < system_size (sizes_of S'))%nat -> right_ M1 row = right_ M2 row.
Proof. intros. eapply (keep at2 tp ip inf S S' v); eassumption. Qed.

(** What a full fill leaves is [filled]. *)
Theorem C60_full_fill : forall at2 tp ip (S : sspace RNum) sk ff addr sl es q order M0,
  plan (shapes_of S) PNull = Some (es, q) -> Permutation es order -> registered addr (sizes_of S) sl -> roots_listed S ->
  exists M, fill_in (K:=RNum) ln at2 tp ip (/ 4) (/ 1000) S sk ff addr (system_size (sizes_of S)) order false sl M0 = Ok M /\
    filled at2 tp ip S addr sl M.
Proof.
  intros at2 tp ip S sk ff addr sl es q order M0 Hp HP Reg HL.
  destruct (fill_in_spec (K:=RNum) ln at2 tp ip (/4) (/1000) S sk ff addr PNull es q order false sl M0 Hp HP Reg HL) as (M & E & _).
  exists M. split; [exact E|]. eapply full_filled; eassumption.
Qed.

Lemma drift_plan_nostop e inf dt' es q : plan (shapes_of (drifted inf dt')) PNull = Some (es, q) -> In e es -> stops e = false.
Proof.
  rewrite drifted_plan, one_plan. intros E I.
  match type of E with Some (?l, _) = _ => assert (es = l) by congruence end. subst es. clear E.
  simpl in I. repeat (destruct I as [<-|I]; [reflexivity|]). destruct I.
Qed.

(** The test for a resting body is a threshold.  For every distance there is a
    body that moves by this distance in one step, is taken for resting, and whose
    old matrix is then used although it is not the one a full fill writes. *)
Theorem C60_refuted : forall D inf, 0 < D -> exists (S S' : sspace RNum) v,
  solution S PNull v /\ next_step inf S v S' /\ late S' = true /\
  can_use_inverse (K:=RNum) (/ 10000000000) (sbodies S) = true /\
  can_use_inverse (K:=RNum) (/ 10000000000) (sbodies S') = true /\
  (exists b b' a a', sbodies S = [b] /\ sbodies S' = [b'] /\ alist (g_of b) = [a] /\ alist (g_of b') = [a'] /\
     corner a' = P (px (corner a)) (py (corner a) + D)) /\
  forall at2 tp ip sk ff sk' ff' addr sl M0 es q order es' q' order',
    registered addr (sizes_of S) sl -> plan (shapes_of S) PNull = Some (es, q) -> Permutation es order ->
    plan (shapes_of S') PNull = Some (es', q') -> Permutation es' order' ->
    exists M1 M2,
      fill_in (K:=RNum) ln at2 tp ip (/ 4) (/ 1000) S sk ff addr (system_size (sizes_of S)) order false sl M0 = Ok M1 /\
      fill_in (K:=RNum) ln at2 tp ip (/ 4) (/ 1000) S' sk' ff' addr (system_size (sizes_of S')) order' true sl M1 = Ok M2 /\
      ~ filled at2 tp ip S' addr sl M2.
Proof.
  intros D inf HD. set (dt' := D * 20000000000).
  assert (Hdt : 0 < dt') by (unfold dt'; lra).
  exists (one (v3 0 slow 0) true dt' 0 0), (drifted inf dt'), (one_v (v3 0 slow 0) true 0 0).
  split; [apply one_solution|]. split; [apply drifted_next|]. split; [reflexivity|].
  split; [apply (slow_zero inf dt')|]. split; [apply (slow_zero inf dt')|].
  destruct (drifted_list inf dt') as (d & m & ee & EL).
  split.
  - eexists _, (drifted_body inf dt'), _, _. split; [reflexivity|]. split; [reflexivity|]. split; [reflexivity|].
    split; [unfold drifted_body, g_of; cbn [fb geo set_geo]; exact EL|].
    cbn [corner speck v3 r3 o3 P x y]. apply vec_eq; unfold px, py; cbn [x y P]; unfold slow, dt'; lra.
  - intros at2 tp ip sk ff sk' ff' addr sl M0 es q order es' q' order' Reg Hp HP Hp' HP'.
    assert (HL : roots_listed (one (v3 0 slow 0) true dt' 0 0)) by (intros b j [<-|[]]; discriminate).
    assert (HL' : roots_listed (drifted inf dt')) by (intros b j [<-|[]]; discriminate).
    assert (Es' : sizes_of (drifted inf dt') = [1%nat]).
    { unfold sizes_of. cbn [sbodies drifted map]. unfold drifted_body, g_of. cbn [fb geo set_geo]. rewrite EL. reflexivity. }
    destruct (C60_full_fill at2 tp ip _ sk ff addr sl es q order M0 Hp HP Reg HL) as (M1 & E1 & F1).
    destruct (fill_in_spec (K:=RNum) ln at2 tp ip (/4) (/1000) (drifted inf dt') sk' ff' addr PNull es' q' order' true sl M1
       Hp' HP' ltac:(rewrite Es'; exact Reg) HL') as (M2 & E2 & _).
    exists M1, M2. split; [exact E1|]. split; [exact E2|].
    intros F2. apply (drift_not_filled at2 tp ip inf dt' addr sl M1 Hdt Reg F1).
    assert (C : cell M2 = cell M1).
    { eapply (right_only_cells (K:=RNum)); [|exact E2]. intros e He. eapply drift_plan_nostop; [exact Hp'|].
      eapply Permutation_in; [apply Permutation_sym; exact HP'|exact He]. }
    unfold filled in *. rewrite C in F2. exact F2.
Qed.

(** A resting body satisfies the conditions of the first theorem. *)
Example C60_ex : solution (one (v3 0 0 0) true 1 0 0) PNull (one_v (v3 0 0 0) true 0 0) /\
  forall b, In b (sbodies (one (v3 0 0 0) true 1 0 0)) -> at_rest b.
Proof.
  split; [apply one_solution|]. intros b [<-|[]]. split; [reflexivity|].
  intros []; cbn [get speck fb Flow.Model.kspring v3 r3 o3 P x y]; apply rigid_neg; lra.
Qed.

(** * C61: the forces change the momenta *)

(** Momentum: hydrodynamic forces, the holders of the bodies without a root,
    weight less buoyancy, and the centripetal term of the previous step; what
    bodies exert on each other through their holders cancels. *)
Theorem C61_momentum : forall (S : sspace RNum) p v, solution S p v -> no_self_root S ->
  each S (fun i b => mass b / dt S * (px (com_speed b (speed_in v i)) - px (com_speed b (speed_slae_prev (g_of b))))) =
    each S (fun i _ => v (UH i CX)) - each S (fun i b => if_free b (v (UF i CX)))
    + each S (fun _ b => (density b - 1) * area (g_of b) * px (gravity S)
                         + mass b * px (arm b) * (o3 (speed_slae_prev (g_of b)) * o3 (speed_slae_prev (g_of b)))) /\
  each S (fun i b => mass b / dt S * (py (com_speed b (speed_in v i)) - py (com_speed b (speed_slae_prev (g_of b))))) =
    each S (fun i _ => v (UH i CY)) - each S (fun i b => if_free b (v (UF i CY)))
    + each S (fun _ b => (density b - 1) * area (g_of b) * py (gravity S)
                         + mass b * py (arm b) * (o3 (speed_slae_prev (g_of b)) * o3 (speed_slae_prev (g_of b)))).
Proof. intros S p v Sol NSR. split; [eapply momentum_x|eapply momentum_y]; eassumption. Qed.

(** Angular momentum about the origin. *)
Theorem C61_angular_momentum : forall (S : sspace RNum) p v, solution S p v -> no_self_root S ->
  each S (fun i b => / dt S * (spin b (speed_in v i) - spin b (speed_slae_prev (g_of b)))
                     + mass b / dt S * cross2 (get_axis (g_of b)) (vsub (com_speed b (speed_in v i)) (com_speed b (speed_slae_prev (g_of b))))) =
  each S (fun i b => v (UH i CO) + cross2 (get_axis (g_of b)) (P (v (UH i CX)) (v (UH i CY))))
  - each S (fun i b => if_free b (v (UF i CO) + cross2 (get_axis (g_of b)) (P (v (UF i CX)) (v (UF i CY)))))
  + each S (fun _ b => (density b - 1) * area (g_of b) * cross2 (vadd (get_axis (g_of b)) (arm b)) (gravity S)
                       + mass b * (o3 (speed_slae_prev (g_of b)) * o3 (speed_slae_prev (g_of b))) * cross2 (get_axis (g_of b)) (arm b)).
Proof. intros. eapply angular_momentum; eassumption. Qed.

(** A body of mass 2 pushed to the speed 1 in a unit of time. *)
Example C61_ex : solution heavy PNull heavy_v /\ no_self_root heavy /\
  each heavy (fun i b => mass b / dt heavy * (px (com_speed b (speed_in heavy_v i)) - px (com_speed b (speed_slae_prev (g_of b))))) = 2 /\
  each heavy (fun i _ => heavy_v (UH i CX)) = 1 /\ each heavy (fun i b => if_free b (heavy_v (UF i CX))) = -1.
Proof.
  split; [exact heavy_solution|]. split.
  { intros i b. destruct i as [|[|i]]; simpl; try discriminate. intros [= <-]. discriminate. }
  unfold each, total, mass, com_speed, arm, if_free. cbn. unr. cbn. unr. repeat split; field_simplify; lra.
Qed.

(** * C62: rigid degrees of freedom *)

(** Along x and in angle a rigid body keeps its place relative to its holder;
    along y it is off by [dt * w * dx], where [w] is the angular speed of the root
    and [dx] the offset of the body along x. *)
Theorem C62_offset_partial : forall (S : sspace RNum) p v inf dt' fuel bs',
  solution S p v -> move_bodies (K:=RNum) inf cos sin fuel dt' (solved_bodies S v) = Some bs' ->
  forall i b, nth_error (sbodies S) i = Some b -> root (fb b) <> Some i ->
  exists b', nth_error bs' i = Some b' /\
    (isrigid (get CX (Flow.Model.kspring (fb b))) = true \/ late S = false -> px (r3 (dpos (geo b'))) = px (r3 (dpos (g_of b)))) /\
    (isrigid (get CO (Flow.Model.kspring (fb b))) = true \/ late S = false -> o3 (dpos (geo b')) = o3 (dpos (g_of b))) /\
    (isrigid (get CY (Flow.Model.kspring (fb b))) = true \/ late S = false ->
       py (r3 (dpos (geo b'))) = py (r3 (dpos (g_of b))) +
         match root (fb b) with None => 0 | Some j => dt' * v (UV j CO) * px (r3 (dpos (g_of b))) end).
Proof. intros. eapply moved_dpos; eassumption. Qed.

(** The speed of a rigid body is the prescribed one plus the one of the root at
    the holder along x and at the axis of the body along y. *)
Theorem C62_speeds : forall (S : sspace RNum) p v i b c, solution S p v ->
  nth_error (sbodies S) i = Some b -> root (fb b) <> Some i ->
  isrigid (get c (Flow.Model.kspring (fb b))) = true \/ late S = false ->
  match root (fb b) with
  | None => v (UV i c) = get c (own (fb b))
  | Some j => exists rt, nth_error (sbodies S) j = Some rt /\
      match c with
      | CX => v (UV i CX) = px (r3 (own (fb b))) + v (UV j CX) - (py (r3 (holder (g_of b))) - py (get_axis (g_of rt))) * v (UV j CO)
      | CY => v (UV i CY) = py (r3 (own (fb b))) + v (UV j CY) + (px (get_axis (g_of b)) - px (get_axis (g_of rt))) * v (UV j CO)
      | CO => v (UV i CO) = o3 (own (fb b)) + v (UV j CO)
      end
  end.
Proof. intros. eapply speed_rows; eassumption. Qed.

(** A body that may slide along x only, on a turning root, drifts off its rail:
    for every distance there is a step after which it is this far off. *)
Theorem C62_refuted : forall D inf, 0 < D -> exists (S : sspace RNum) v fuel bs' b b',
  solution S PNull v /\ move_bodies (K:=RNum) inf cos sin fuel (dt S) (solved_bodies S v) = Some bs' /\
  nth_error (sbodies S) 1 = Some b /\ nth_error bs' 1 = Some b' /\ root (fb b) = Some 0%nat /\
  isrigid (get CY (Flow.Model.kspring (fb b))) = true /\
  py (r3 (dpos (g_of b))) = 0 /\ py (r3 (dpos (geo b'))) = D.
Proof.
  intros D inf HD.
  assert (MV : exists bs', move_bodies (K:=RNum) inf cos sin 2 D (solved_bodies (two D) two_v) = Some bs').
  { unfold move_bodies, solved_bodies. cbn [two sbodies indexed length seq combine map all_some fst snd].
    cbn [chain_error set_geo root speck fb geo nth_error]. unfold move_body. cbn. eexists. reflexivity. }
  destruct MV as (bs' & MV).
  destruct (moved_dpos (two D) PNull two_v (two_solution D) inf D 2 bs' MV 1 _ eq_refl ltac:(discriminate)) as (b' & E & _ & _ & HY).
  exists (two D), two_v, 2%nat, bs'. eexists _, b'.
  split; [apply two_solution|]. split; [exact MV|]. split; [reflexivity|]. split; [exact E|].
  split; [reflexivity|].
  assert (RG : isrigid (get CY (Flow.Model.kspring (fb (speck (v3 1 0 0) (v3 1 0 0) (v3 0 0 0) (v3 0 (-1) (-1)) (Some 0%nat) true)))) = true).
  { cbn [get speck fb Flow.Model.kspring v3 r3 o3 P x y]. apply rigid_neg. lra. }
  split; [exact RG|]. split; [reflexivity|].
  rewrite (HY (or_introl RG)). cbn [root speck fb two_v g_of geo dpos v3 r3 P]. unfold px, py. cbn [x y P]. lra.
Qed.

Example C62_ex : forall d, solution (two d) PNull two_v /\ two_v (UV 0 CO) = 1.
Proof. intros d. split; [apply two_solution|reflexivity]. Qed.

(** * C63: circulations *)

Theorem C63_circulation : forall (S : sspace RNum) p v i b, solution S p v -> nth_error (sbodies S) i = Some b ->
  if kutta_ b then v (UG i (special_ b)) = 0
  else if existsb (fun c => negb (kutta_ c)) (firstn i (sbodies S))
       then body_circulation v (i, b) = g_dead (fb b) + 2 * area (g_of b) * o3 (speed_slae_prev (g_of b))
       else total (body_circulation v) (indexed (sbodies S)) = - gfree S - inf_g S.
Proof. intros. eapply special_rows; eassumption. Qed.

Theorem C63_at_infinity : forall (S : sspace RNum) p v, solution S p v -> (exists b, In b (sbodies S) /\ kutta_ b = false) ->
  total (body_circulation v) (indexed (sbodies S)) + gfree S = - inf_g S.
Proof. intros S p v Sol H. rewrite (circulation_at_infinity S p v Sol H). lra. Qed.

(** One body, free vortices of total circulation 3, condition 2 at infinity. *)
Example C63_ex : solution (one (v3 0 0 0) false 1 3 2) PNull (one_v (v3 0 0 0) false 3 2) /\
  total (body_circulation (one_v (v3 0 0 0) false 3 2)) (indexed (sbodies (one (v3 0 0 0) false 1 3 2))) = -5.
Proof. split; [apply one_solution|]. unfold total, body_circulation. cbn. lra. Qed.
(** If every body has the Kutta condition, nothing fixes the total. *)
Example C63_ex_kutta : solution (one (v3 0 0 0) true 1 3 2) PNull (one_v (v3 0 0 0) true 3 2) /\
  total (body_circulation (one_v (v3 0 0 0) true 3 2)) (indexed (sbodies (one (v3 0 0 0) true 1 3 2))) = 0.
Proof. split; [apply one_solution|]. unfold total, body_circulation. cbn. lra. Qed.

(** * C64: flux of a vortex *)

Theorem C64_stream : forall p (s : att RNum) rd, centred s -> 0 < rd ->
  xi_g (K:=RNum) ln p s rd = stream rd (dist2 p (seg_end s)) - stream rd (dist2 p (corner s)).
Proof. intros. apply xi_g_stream; assumption. Qed.

Theorem C64_contour : forall p (l : list (att RNum)) rd, 0 < rd -> total (fun s => xi_g (K:=RNum) ln p s rd) (update_segments l) = 0.
Proof. intros. apply contour_flux; assumption. Qed.

(** A segment inside the core: from distance 1 to distance 2 in a core of radius 4. *)
Example C64_ex : xi_g (K:=RNum) ln (P 0 0) (@mkAtt RNum (P 1 0) false (P 1 0) (P (3/2) 0) 0) 4 = 3 / 32.
Proof.
  rewrite C64_stream; [|unfold centred, px, py; cbn [r corner dl P x y]; f_equal; lra|lra].
  unfold seg_end, dist2, px, py. cbn [corner dl P x y].
  rewrite !stream_in by (try lra; unfold px, py; cbn [x y]; lra). lra.
Qed.

(** A segment with one end in the core is split where it leaves the core. *)
Theorem C64_exit : forall q (s : att RNum) rd, centred s -> 0 < rd ->
  (dist2 q (corner s) < rd * rd < dist2 q (seg_end s) \/ dist2 q (seg_end s) < rd * rd < dist2 q (corner s)) ->
  dist2 q (@Model.core_exit RNum q s rd) = rd * rd /\
  exists k, - / 2 < k < / 2 /\ @Model.core_exit RNum q s rd = P (px (r s) + px (dl s) * k) (py (r s) + py (dl s) * k).
Proof.
  intros q s rd C H D. split; [|exact (core_exit_inside q s rd C H D)].
  apply core_exit_on; [exact C|exact H|]. destruct D as [[D1 D2]|[D1 D2]]; [left|right]; split; lra.
Qed.
(** From distance 0 to distance 2, core of radius 1: split in the middle. *)
Example C64_exit_ex : @Model.core_exit RNum (P 0 0) (@mkAtt RNum (P 0 0) false (P 2 0) (P 1 0) 0) 1 = P 1 0.
Proof.
  destruct (C64_exit (P 0 0) (@mkAtt RNum (P 0 0) false (P 2 0) (P 1 0) 0) 1) as (D & k & Hk & E).
  - unfold centred, px, py; cbn [r corner dl P x y]; f_equal; lra.
  - lra.
  - left. unfold seg_end, dist2, px, py. cbn [corner dl P x y]. unfold px, py; cbn [x y]. lra.
  - rewrite E in D |- *. unfold dist2, px, py, P in D |- *. cbn [r dl x y] in D |- *.
    assert (k = 0). { assert (F : (2 * k) * (2 * k + 2) = 0) by lra. apply Rmult_integral in F. lra. }
    subst k. apply (f_equal2 (@mkVec RNum)); lra.
Qed.

(** * C65: the two versions of the flux *)

Theorem C65_outside_partial : forall at2 p (s : att RNum) rd, centred s -> 0 < rd ->
  rd * rd <= dist2 p (corner s) /\ rd * rd <= dist2 p (seg_end s) \/ rd * rd < dist2 p (corner s) \/ rd * rd < dist2 p (seg_end s) ->
  x (xi_at (K:=RNum) ln at2 p s rd) = xi_g (K:=RNum) ln p s rd.
Proof. intros. rewrite xi_g_stream by assumption. apply xi_at_outside; assumption. Qed.

(** Inside the core the first component of [_2PI_Xi] has the opposite sign of [_2PI_Xi_g]. *)
Theorem C65_core_refuted : forall at2 p (s : att RNum) rd, centred s -> 0 < rd ->
  dist2 p (corner s) <= rd * rd -> dist2 p (seg_end s) <= rd * rd -> (dist2 p (corner s) < rd * rd \/ dist2 p (seg_end s) < rd * rd) ->
  x (xi_at (K:=RNum) ln at2 p s rd) = - xi_g (K:=RNum) ln p s rd.
Proof.
  intros at2 p s rd C H A B D. rewrite (xi_g_stream p s rd C H).
  rewrite (xi_at_core at2 p s rd C H A B D). match goal with |- @eq _ ?a ?b => change (@eq R a b) end. cbn. lra.
Qed.

(** Such a segment is one less than a quarter as long as the segment near it. *)
Example C65_ex : forall at2, let s := @mkAtt RNum (P 1 0) false (P 1 0) (P (3/2) 0) 0 in
  xi_g (K:=RNum) ln (P 0 0) s 4 = 3 / 32 /\ x (xi_at (K:=RNum) ln at2 (P 0 0) s 4) = - (3 / 32).
Proof.
  intros at2 s. split; [apply C64_ex|]. unfold s. rewrite (C65_core_refuted at2).
  - rewrite C64_ex. reflexivity.
  - unfold centred, px, py; cbn [r corner dl P x y]; f_equal; lra.
  - lra.
  - unfold dist2, px, py. cbn [corner dl P x y]. lra.
  - unfold seg_end, dist2, px, py. cbn [corner dl P x y]. unfold px, py; cbn [x y]. lra.
  - left. unfold dist2, px, py. cbn [corner dl P x y]. lra.
Qed.

(** * C75: no flow through the wall *)

(** What flows through a segment with a slip equation: the oncoming flow, sources,
    free vortices, the vortices of all walls and the walls that turn.  It is what
    the translation of its own body sweeps. *)
Theorem C75_no_flow : forall at2 tp ip sk ff (S : sspace RNum) p v, solution_with at2 tp ip sk ff S p v -> tp * ip = 1 ->
  (forall b a, In b (sbodies S) -> In a (alist (g_of b)) -> 0 < seg_len a) ->
  forall i b k s, nth_error (sbodies S) i = Some b -> nth_error (alist (g_of b)) k = Some s -> k <> special_ b -> centred s ->
  flux (inf_speed S) s + flux (sk (r s)) s - ff s
    - ip * each S (fun j b' => along b' (fun k' a => v (UG j k') * vortex_flux a s))
    + ip * each S (fun j b' => v (UV j CO) * along b' (fun k' a => layer_flux at2 (Nat.eqb i j && Nat.eqb k k') (get_axis (g_of b')) a s))
  = flux (P (v (UV i CX)) (v (UV i CY))) s.
Proof. intros. symmetry. eapply no_flow; eassumption. Qed.

(** A plate across the flow: the circulation of its right end stops the flow. *)
Example C75_ex : solution_with (fun _ _ => 0) 1 1 (fun _ => P 0 0) (fun _ => 0) (moved (P 0 0) sail) PNull (sail_v (P 0 0)) /\
  sail_v (P 0 0) (UG 0 1) = 1 /\ inf_speed sail = P 0 (/ 2 * ln 16 + / 2) /\
  vortex_flux (@mkAtt RNum (P 1 0) false (P (-1) 0) (P (1/2) 0) 0) (@mkAtt RNum (P 1 0) false (P (-1) 0) (P (1/2) 0) 0) = / 2 * ln 16 + / 2 /\
  0 < / 2 * ln 16.
Proof.
  split; [apply sail_solution|]. split; [reflexivity|]. split; [reflexivity|]. split.
  - pose proof (sail_flux (P 0 0)) as F. rewrite xi_g_stream in F.
    + unfold cross_flow in F. rewrite <- F. unfold vortex_flux.
      assert (L : seg_len (@mkAtt RNum (P 1 0) false (P (-1) 0) (P (1/2) 0) 0) / 4 = / 4).
      { unfold seg_len, px, py, P. cbn [dl x y]. replace (-1 * -1 + 0 * 0) with (1 * 1) by lra. rewrite sqrt_square by lra. lra. }
      rewrite L. unfold moved_att, by_, seg_end, px, py, P. cbn [corner dl x y]. unfold px, py. cbn [x y]. rewrite !Rplus_0_r. reflexivity.
    + unfold centred, moved_att, by_, px, py, P; cbn [r corner dl x y]; apply (f_equal2 (@mkVec RNum)); lra.
    + lra.
  - apply Rmult_lt_0_compat; [lra|]. rewrite <- ln_1. apply ln_increasing; lra.
Qed.

(** * C76: forces and the change of the impulse *)

Theorem C76_force : forall (S : sspace RNum) p v i b, solution S p v -> nth_error (sbodies S) i = Some b -> dt S <> 0 ->
  let w := o3 (speed_slae_prev (g_of b)) in
  dt S * (v (UH i CX) - px (r3 (friction_prev b))) =
    px (wall_impulse b (fun k => v (UG i k))) - px (r3 (fdt_dead (fb b)))
    + px (carried b (speed_in v i)) - px (carried b (speed_slae_prev (g_of b)))
    - dt S * (w * w) * area (g_of b) * px (arm b) /\
  dt S * (v (UH i CY) - py (r3 (friction_prev b))) =
    py (wall_impulse b (fun k => v (UG i k))) - py (r3 (fdt_dead (fb b)))
    + py (carried b (speed_in v i)) - py (carried b (speed_slae_prev (g_of b)))
    - dt S * (w * w) * area (g_of b) * py (arm b).
Proof. intros S p v i b Sol Hb D w. split; [eapply hydro_x|eapply hydro_y]; eassumption. Qed.

Theorem C76_moment : forall (S : sspace RNum) p v i b, solution S p v -> nth_error (sbodies S) i = Some b -> dt S <> 0 ->
  dt S * (v (UH i CO) - o3 (friction_prev b)) =
    wall_moment b (fun k => v (UG i k)) - o3 (fdt_dead (fb b)) / 2
    + carried_moment b (speed_in v i) - carried_moment b (speed_slae_prev (g_of b)).
Proof. intros. eapply hydro_o; eassumption. Qed.

(** The heavy body: half of its push accelerates the fluid it displaces; the plate: lift 1. *)
Example C76_ex : solution heavy PNull heavy_v /\ heavy_v (UH 0 CX) = 1 /\
  solution (moved (P 0 0) sail) PNull (sail_v (P 0 0)) /\ sail_v (P 0 0) (UH 0 CY) = 1.
Proof.
  split; [exact heavy_solution|]. split; [reflexivity|]. split; [eapply with_solution, sail_solution|].
  cbn [sail_v]. unfold px, P. cbn [x]. lra.
Qed.

(** * C77: springs *)

(** A component that is free to move is stopped or obeys the law of the spring;
    without a pending collision it is the law of the spring alone. *)
Theorem C77_spring : forall (S : sspace RNum) p v i b c, solution S p v -> nth_error (sbodies S) i = Some b ->
  isrigid (get c (Flow.Model.kspring (fb b))) = false -> late S = true ->
  let law := get c (Flow.Model.kspring (fb b)) * get c (dpos (g_of b)) + get c (damping b) * v (UV i c)
             + (match c with CO => torque b | _ => 0 end) in
  (p = PNull -> v (UF i c) = law) /\
  (v (UV i c) = 0 \/ v (UF i c) = law \/ v (UF i c) = law + (1 + bounce b) * get c (force_holder b)).
Proof.
  intros S p v i b c Sol Hb Hr HL law.
  assert (Hs : nth_error (shapes_of S) i = Some (shape_of (late S) b)) by (unfold shapes_of; rewrite nth_error_map, Hb; reflexivity).
  assert (Rg : rigid (shape_of (late S) b) c = false) by (cbn [shape_of rigid]; rewrite Hr, HL; reflexivity).
  destruct Sol as (at2 & tp & ip & sk & ff & addr & es & q & order & sl & M & M' & Hp & H).
  assert (Sol : solution S p v) by (exists at2, tp, ip, sk, ff, addr, es, q, order, sl, M, M'; split; assumption).
  split.
  - intros ->. rewrite (hooke_law S PNull v Sol i b c false es q Hp (spring_plain _ _ _ _ _ _ Hp Hs Rg) Hb). unfold law. lra.
  - destruct (spring_kinds _ _ _ _ _ _ _ Hp Hs Rg) as [Hh|[Hh|Hh]].
    + left. exact (stop_law S p v Sol i b c es q Hp Hh Hb).
    + right. right. rewrite (hooke_law S p v Sol i b c true es q Hp Hh Hb). unfold law. lra.
    + right. left. rewrite (hooke_law S p v Sol i b c false es q Hp Hh Hb). unfold law. lra.
Qed.

(** Which one it is: the equations of C24. *)
Theorem C77_bounce : forall (S : sspace RNum) p v i b c es q, solution S p v -> nth_error (sbodies S) i = Some b ->
  plan (shapes_of S) p = Some (es, q) ->
  (has es i (Stop c) -> v (UV i c) = 0) /\
  (has es i (Hooke c true) ->
     v (UF i c) = get c (Flow.Model.kspring (fb b)) * get c (dpos (g_of b)) + get c (damping b) * v (UV i c)
       + (match c with CO => torque b | _ => 0 end) + (1 + bounce b) * get c (force_holder b)).
Proof.
  intros S p v i b c es q Sol Hb Hp. split; intros Hh.
  - exact (stop_law S p v Sol i b c es q Hp Hh Hb).
  - exact (hooke_law S p v Sol i b c true es q Hp Hh Hb).
Qed.

(** A massless body pulled by a spring against its damper. *)
Example C77_ex : solution sprung PNull sprung_v /\ sprung_v (UV 0 CX) = -6 /\ sprung_v (UF 0 CX) = 3 * 2 + 1 * -6.
Proof. split; [exact sprung_solution|]. split; [reflexivity|]. cbn [sprung_v]. lra. Qed.

(** * C78: forces do not depend on the origin *)

Theorem C78_origin_partial : forall (S : sspace RNum) d p p' v v' i b, solution S p v -> solution (moved d S) p' v' ->
  nth_error (sbodies S) i = Some b -> dt S <> 0 ->
  (forall k, v' (UG i k) = v (UG i k)) -> (forall c, v' (UV i c) = v (UV i c)) ->
  body_circulation v (i, b) = g_dead (fb b) + 2 * area (g_of b) * o3 (speed_slae_prev (g_of b)) ->
  forall c, v' (UH i c) = v (UH i c).
Proof.
  intros S d p p' v v' i b Sol Sol' Hb D HG HV E c.
  apply (same_forces S p p' v v' d Sol Sol' i b Hb HG HV D c). unfold excess. lra.
Qed.

(** The condition is one of the equations for every body but the first without
    the Kutta condition and those with it. *)
Theorem C78_condition : forall (S : sspace RNum) p v i b, solution S p v -> nth_error (sbodies S) i = Some b ->
  kutta_ b = false -> existsb (fun c => negb (kutta_ c)) (firstn i (sbodies S)) = true ->
  body_circulation v (i, b) = g_dead (fb b) + 2 * area (g_of b) * o3 (speed_slae_prev (g_of b)).
Proof.
  intros S p v i b Sol Hb Hk He. pose proof (special_rows S p v Sol i b Hb) as H. rewrite Hk, He in H. exact H.
Qed.

(** The force on the plate with the Kutta condition changes by any amount. *)
Theorem C78_refuted : forall D, exists (S : sspace RNum) d v v', solution S PNull v /\ solution (moved d S) PNull v' /\
  (forall i k, v' (UG i k) = v (UG i k)) /\ (forall i c, v' (UV i c) = v (UV i c)) /\ length (sbodies S) = 1%nat /\
  v' (UH 0 CX) = v (UH 0 CX) + D.
Proof.
  intros D. exists (moved (P 0 0) sail), (P 0 (- D)), (sail_v (P 0 0)), (sail_v (P 0 (- D))).
  split; [eapply with_solution, sail_solution|]. split.
  - assert (E : moved (P 0 (- D)) (moved (P 0 0) sail) = moved (P 0 (- D)) sail).
    { unfold moved, sail, moved_body, moved_fb, moved_geo, moved_att, by_, v3, turn, px, py, P. cbn.
      unfold px, py. cbn [x y]. repeat rewrite Rplus_0_r. rewrite ?Rmult_0_l, ?Rplus_0_r. reflexivity. }
    rewrite E. eapply with_solution, sail_solution.
  - split; [intros i [|[|k]]; reflexivity|]. split; [intros i [| |]; reflexivity|]. split; [reflexivity|].
    cbn [sail_v]. unfold py, P. cbn [y]. lra.
Qed.

Print Assumptions C17_numbers.
Print Assumptions C17_columns.
Print Assumptions C20_rows.
Print Assumptions C20_any_order.
Print Assumptions C24_bounce_partial.
Print Assumptions C24_two_passes.
Print Assumptions C24_refuted.
Print Assumptions C60_at_rest_partial.
Print Assumptions C60_full_fill.
Print Assumptions C60_refuted.
Print Assumptions C61_momentum.
Print Assumptions C61_angular_momentum.
Print Assumptions C62_offset_partial.
Print Assumptions C62_speeds.
Print Assumptions C62_refuted.
Print Assumptions C63_circulation.
Print Assumptions C63_at_infinity.
Print Assumptions C64_stream.
Print Assumptions C64_contour.
Print Assumptions C65_outside_partial.
Print Assumptions C65_core_refuted.
Print Assumptions C64_exit.
Print Assumptions C75_no_flow.
Print Assumptions C76_force.
Print Assumptions C76_moment.
Print Assumptions C77_spring.
Print Assumptions C77_bounce.
Print Assumptions C78_origin_partial.
Print Assumptions C78_condition.
Print Assumptions C78_refuted.
