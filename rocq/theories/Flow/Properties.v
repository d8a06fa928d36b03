(** C21 to C23 and C55 to C59: the motion step. *)

From Coq Require Import ZArith Bool List Reals Lra Lia Permutation.
From Flocq Require Import IEEE754.BinarySingleNaN.
From Verif.Base Require Import Num F64.
From Verif.Tree Require Import ProofsNum.
From Verif.Body Require Import Model Spec ProofsGeom ProofsBody.
From Verif.Flow Require Import Model Spec Proofs ProofsReal ProofsBalance ProofsHeat ProofsDefined.
Import ListNotations.
Local Open Scope R_scope.

(** ** Concrete spaces *)

Definition zv (q : Z * Z) : vec F64 := @mkVec F64 (f64_ofZ (fst q)) (f64_ofZ (snd q)).
Definition z3 (q : Z * Z) : vec3 F64 := mkVec3 (zv q) (f64_ofZ 0).
Definition rhomb : list (Z * Z) := [(0,4); (4,0); (0,-4); (-4,0)]%Z.
(** A square standing on its corner with the given heat condition, root, spring
    constant, place, limit, speed along x and circulation of the first segment. *)
Definition box (c : heat_cond) (rt : option nat) (k at_ max v g : Z) : fbody F64 :=
  let b := of_corners (K:=F64) f64_inf (map zv rhomb) in
  let b := @mkBody F64 (alist b) (z3 (at_, 0)%Z) (z3 (0, 0)%Z) (z3 (v, 0)%Z) (z3 (v, 0)%Z) (slip_ b) (slen b) (area b)
    (cofm b) (moi b) (disc_r2 b) (rect_bl b) (rect_tr b) (heat_layer b) in
  let sg g := @mkSeg F64 (f64_ofZ g) (f64_ofZ 0) (f64_ofZ 0) (f64_ofZ 2) None in
  @mkFBody F64 b [sg g; sg 0; sg 0; sg 0]%Z
    (mkVec3 (zv (k, -1)%Z) (f64_ofZ (-1))) (z3 (-max, 0)%Z) (z3 (max, 0)%Z) (z3 (0, 0)%Z) rt c (z3 (0, 0)%Z) (f64_ofZ 0).
Definition part (p : Z * Z) (g : Z) (v : Z * Z) : obj F64 := @mkObj F64 (zv p) (f64_ofZ g) (zv v).
Definition eps64 : f64 := f64_dec 1 10.
(** Cosine and sine of zero, the only angle here. *)
Definition goes (dt : f64) (S : space F64) : option (space F64 * f64 * pointer * nat) :=
  move_and_clean (K:=F64) f64_inf dbl_max (fun _ => f64_ofZ 1) (fun _ => f64_ofZ 0) eps64 3 dt S.
Definition ends (dt time : f64) (S : space F64) : option (space F64 * f64) :=
  finish (K:=F64) f64_inf dbl_max (fun _ => f64_ofZ 1) (fun _ => f64_ofZ 0) eps64 3 dt (f64_ofZ 16) time S.
Definition ints (l : list (obj F64)) : list (option Z * option Z * option Z) :=
  map (fun o : obj F64 => (f64_to_i32 (x (pos o)), f64_to_i32 (y (pos o)), f64_to_i32 (og o))) l.

(** * C21 *)

(** Over any number of steps: what enters the vortex list, with what is dropped
    for being weak added back, is what the force calculations have read from
    the segments plus the change of the segment sums. *)
Theorem C21_balance inf dbl_max eps gap fuel dt scale S l S' :
  Forall wf (bodies S) -> steps inf dbl_max eps gap fuel dt scale S l S' ->
  circ (vort S') - circ (vort S) + total lost_g l = total read_g l + G S' - G S.
Proof. intros W st. apply (steps_sums _ _ _ _ _ _ _ _ _ _ st W). Qed.

(** After every step each body's dead circulation is what its segments have lost. *)
Theorem C21_dead inf dbl_max eps gap fuel dt scale S a S' :
  Forall wf (bodies S) -> step inf dbl_max eps gap fuel dt scale S a S' ->
  Forall (fun b : fbody RNum => g_dead b = - gsums b) (bodies S').
Proof. intros W st. apply (step_sums _ _ _ _ _ _ _ _ _ _ st W). Qed.

(** A first segment sheds 5, the others nothing; of two vortices one, of strength 3, is absorbed by
    the first segment, the other is too weak. *)
Definition shedding : space F64 :=
  mkSpace [box Neglect None (-1) 0 0 0 5] [part (1, 2)%Z 3 (0, 0)%Z; @mkObj F64 (zv (9, 9)%Z) (f64_dec 1 11) (zv (0, 0)%Z)] [] [].
Example C21_ex :
  let S3 := vortex_shed (K:=F64) eps64 (f64_dec 1 4) shedding in
  map (fun b : fbody F64 => map (fun s : seg F64 => f64_to_i32 (gsum s)) (segs b)) (bodies S3) = [[Some 5; Some 0; Some 0; Some 0]]%Z /\
  match goes (f64_ofZ 1) (zero_forces (K:=F64) S3) with
  | Some (S', _, _, n) => n = 1%nat /\ ints (vort S') = [(Some 0, Some 4, Some 5)]%Z /\
      map (fun b : fbody F64 => (f64_to_i32 (g_dead b), map (fun s : seg F64 => f64_to_i32 (gsum s)) (segs b))) (bodies S') =
        [(Some 3, [Some (-3); Some 0; Some 0; Some 0])]%Z
  | None => False
  end.
Proof. split; [vm_compute; reflexivity|]. vm_compute. repeat split. Qed.
(** Steps over the reals exist: here without bodies. *)
Example C21_step_ex : let o g := @mkObj RNum (P 0 0) g (P 1 0) in
  step 0 0 1 0 0 2 16 (mkSpace [] [o 3; o (1/2)] [] [])
    (mkAccount (1/2 + 0) (0 + (0 - 0)) 0 0) (mkSpace [] [@mkObj RNum (P 2 0) 3 (P 0 0)] [] []).
Proof.
  intros o. set (S := mkSpace [] [o 3; o (1/2)] [] [] : space RNum).
  assert (M : move_and_clean (K:=RNum) 0 0 cos sin 1 0 2 S = Some (mkSpace [] [@mkObj RNum (P 2 0) 3 (P 0 0)] [] [], 2, None, O)).
  { assert (E1 : small (K:=RNum) 1 3 = false) by (unfold small; change (@nltb RNum) with Rltb; unfold Rltb; cbn [nabs RNum]; rewrite Rabs_pos_eq by lra; destruct (Rlt_dec 3 1); auto; lra).
    assert (E2 : small (K:=RNum) 1 (1/2) = true) by (unfold small; change (@nltb RNum) with Rltb; unfold Rltb; cbn [nabs RNum]; rewrite Rabs_pos_eq by lra; destruct (Rlt_dec (1/2) 1); auto; lra).
    assert (F : filter (fun o : obj RNum => negb (small (K:=RNum) 1 (og o))) (map (move_obj (K:=RNum) 2) [o 3; o (1/2)]) = [move_obj (K:=RNum) 2 (o 3)]).
    { cbn [map filter og move_obj o]. rewrite E1, E2. reflexivity. }
    unfold move_and_clean, S, move_bodies. cbn [detect bodies vort heat streak all_some]. cbv zeta. rewrite F.
    cbn [filter map clean_vort first_hit clean_heat clean_streak].
    assert (Q : stop (K:=RNum) (move_obj (K:=RNum) 2 (o 3)) = @mkObj RNum (P 2 0) 3 (P 0 0)).
    { unfold stop, move_obj, o. cbn [pos og vel]. f_equal. apply pt_eq; unfold px, py, P; simpl; lra. }
    rewrite Q. reflexivity. }
  assert (X : circ (weak 1 (vort S)) = 1/2 + 0).
  { unfold circ, weak, S, o. cbn [vort filter og]. rewrite !Rabs_pos_eq by lra.
    destruct (Rlt_dec 3 1); [lra|]. destruct (Rlt_dec (1/2) 1); [|lra]. reflexivity. }
  rewrite <- X.
  apply (Step 0 0 1 0 0 2 16 S S S S (mkSpace [] [@mkObj RNum (P 2 0) 3 (P 0 0)] [] []) 2 None O); auto.
  - split; [reflexivity|]. split; [constructor|constructor].
  - split; [|split; [|reflexivity]]; reflexivity.
Qed.
Print Assumptions C21_balance.
Print Assumptions C21_dead.

(** * C22 *)

Theorem C22_limits inf dbl_max eps fuel dt (S S' : space RNum) cdt ptr n :
  0 <= dt ->
  (forall b c, In b (bodies S) -> free b c -> get c (cmin b) <= cur_pos b c <= get c (cmax b)) ->
  move_and_clean (K:=RNum) inf dbl_max cos sin eps fuel dt S = Some (S', cdt, ptr, n) ->
  0 <= cdt <= dt /\
  (forall i b b' c, nth_error (bodies S) i = Some b -> nth_error (bodies S') i = Some b' -> root b = None -> free b c ->
     cur_pos b' c = cur_pos b c + cdt * get c (speed_slae (geo b)) /\ get c (cmin b) <= cur_pos b' c <= get c (cmax b)) /\
  match ptr with
  | None => cdt = dt
  | Some (i, c) => cdt < dt /\ exists b, nth_error (bodies S) i = Some b /\ free b c /\
      (root b = None -> exists b', nth_error (bodies S') i = Some b' /\ (cur_pos b' c = get c (cmin b) \/ cur_pos b' c = get c (cmax b)))
  end.
Proof.
  intros D P E. apply move_and_clean_spec in E. destruct E as (E1 & (bs & E2 & E3) & _).
  destruct (detect_spec dt (bodies S) cdt ptr D P E1) as (A & B & C).
  apply all_some_spec in E2.
  assert (NEW : forall i b b', nth_error (bodies S) i = Some b -> nth_error (bodies S') i = Some b' -> root b = None ->
    forall c, cur_pos (K:=RNum) b' c = cur_pos (K:=RNum) b c + cdt * get c (speed_slae (geo b))).
  { intros i b b' N N' R c. destruct (map_shape_nth _ _ _ _ E3 N') as (b2 & N2 & SH).
    destruct (forall2_nth _ _ _ E2 i b N) as (b3 & N3 & M). rewrite N2 in N3. injection N3 as <-.
    pose proof (shape_pos _ _ SH c) as Y. unfold cpos in Y. rewrite Y. apply (move_pos inf fuel (bodies S) cdt b b2 M R c). }
  split; [exact A|]. split.
  - intros i b b' c N N' R F. split; [apply (NEW i); auto|]. rewrite (NEW i b b' N N' R c).
    apply (B b c); auto. eapply nth_error_In; eauto.
  - destruct ptr as [[i c]|]; auto. destruct C as (L & b & N & F & X). split; auto. exists b. split; auto. split; auto.
    intros R. destruct (forall2_nth _ _ _ E2 i b N) as (b3 & N3 & M). symmetry in E3.
    destruct (map_shape_nth _ _ _ _ E3 N3) as (b' & N' & _). exists b'. split; auto. rewrite (NEW i b b' N N' R c).
    destruct X; auto.
Qed.

(** In double precision the body can pass the limit by a rounding error: with
    speed 25 the limit 7 is reached after 0.28. *)
Definition crash : space F64 := mkSpace [box Neglect None 0 0 7 25 0] [] [] [].
Theorem C22_rounding_refuted : exists (S S' : space F64) b b' cdt n,
  bodies S = [b] /\ bodies S' = [b'] /\ root b = None /\
  goes (f64_ofZ 1) S = Some (S', cdt, Some (O, CX), n) /\
  nleb (n:=F64) (get CX (cmin b)) (cur_pos b CX) = true /\ nleb (n:=F64) (cur_pos b CX) (get CX (cmax b)) = true /\
  nltb (n:=F64) (get CX (cmax b)) (cur_pos b' CX) = true.
Proof.
  assert (X : match goes (f64_ofZ 1) crash with
    | Some (S', _, Some (O, CX), _) => match bodies S' with
       | [b'] => nltb (n:=F64) (get CX (z3 (7, 0)%Z)) (cur_pos b' CX) | _ => false end
    | _ => false end = true) by (vm_compute; reflexivity).
  destruct (goes (f64_ofZ 1) crash) as [[[[S' cdt] ptr] n]|] eqn:E; [|discriminate].
  destruct ptr as [[[|i] [| |]]|]; try discriminate. destruct (bodies S') as [|b' [|]] eqn:B; try discriminate.
  exists crash, S', (box Neglect None 0 0 7 25 0), b', cdt, n.
  split; [reflexivity|]. split; [exact B|]. split; [reflexivity|]. split; [exact E|].
  split; [vm_compute; reflexivity|]. split; [vm_compute; reflexivity|]. exact X.
Qed.
(** A body at rest outside its range stops the time at minus infinity: a vortex
    is lost. *)
Definition away : space F64 := mkSpace [box Neglect None 0 2 1 0 0] [part (10, 10)%Z 1 (1, 0)%Z] [] [].
Theorem C22_outside_refuted : exists (S : space F64), Forall (fun b : fbody F64 => root b = None) (bodies S) /\
  match goes (f64_ofZ 1) S with
  | Some (S', cdt, _, _) => cdt = f64_ninf /\ List.existsb (fun o : obj F64 => negb (nfinite (n:=F64) (x (pos o)))) (vort S') = true
  | None => False
  end.
Proof. exists away. split; [repeat constructor|]. vm_compute. auto. Qed.
(** The body is stopped at its limit in the middle of the step. *)
Example C22_ex : match goes (f64_ofZ 4) (mkSpace [box Neglect None 0 0 6 3 0] [part (10, 10)%Z 1 (1, 0)%Z] [] []) with
  | Some (S', cdt, ptr, n) => f64_to_i32 cdt = Some 2%Z /\ ptr = Some (O, CX) /\
      map (fun b : fbody F64 => f64_to_i32 (cur_pos b CX)) (bodies S') = [Some 6%Z] /\ ints (vort S') = [(Some 12, Some 10, Some 1)]%Z
  | None => False
  end.
Proof. vm_compute. auto. Qed.
Print Assumptions C22_limits.
Print Assumptions C22_rounding_refuted.
Print Assumptions C22_outside_refuted.

(** * C23 *)

Lemma filter_map {A B} (p : B -> bool) (f : A -> B) : forall l, filter p (map f l) = map f (filter (fun a => p (f a)) l).
Proof. induction l as [|a t IH]; simpl; auto. destruct (p (f a)); simpl; congruence. Qed.
Lemma filter_and {A} (p q : A -> bool) : forall l, filter p (filter q l) = filter (fun a => q a && p a) l.
Proof. induction l as [|a t IH]; simpl; auto. destruct (q a); simpl; [destruct (p a)|]; congruence. Qed.

Theorem C23_survivors {K : Num} (inf dbl_max : K) cosf sinf eps fuel dt S S' cdt ptr n :
  move_and_clean inf dbl_max cosf sinf eps fuel dt S = Some (S', cdt, ptr, n) ->
  let moved o := vadd (pos o) (vscale (vel o) cdt) in
  let strong o := negb (nltb (nabs (og o)) eps) in
  let inside o := in_body dbl_max (bodies S') (moved o) in
  vort S' = map (fun o => mkObj (moved o) (og o) vzero) (filter (fun o => strong o && negb (inside o)) (vort S)) /\
  streak S' = map (fun o => mkObj (moved o) (og o) vzero) (filter (fun o => negb (inside o)) (streak S)) /\
  n = length (filter (fun o => strong o && inside o) (vort S)).
Proof.
  intros E moved strong inside. apply move_and_clean_spec in E. destruct E as (_ & _ & -> & -> & ->).
  unfold keep. rewrite !filter_map, !filter_and, !map_map. split; [reflexivity|]. split; [reflexivity|]. rewrite map_length. reflexivity.
Qed.

(** Heat is treated the same way unless a body is isothermal. *)
Theorem C23_heat {K : Num} (inf dbl_max : K) cosf sinf eps fuel dt S S' cdt ptr n :
  move_and_clean inf dbl_max cosf sinf eps fuel dt S = Some (S', cdt, ptr, n) ->
  Forall (fun b : fbody K => cond b <> ConstT) (bodies S) ->
  let moved o := vadd (pos o) (vscale (vel o) cdt) in
  let strong o := negb (nltb (nabs (og o)) eps) in
  let inside o := in_body dbl_max (bodies S') (moved o) in
  heat S' = map (fun o => mkObj (moved o) (og o) vzero) (filter (fun o => strong o && negb (inside o)) (heat S)).
Proof.
  intros E F moved strong inside. pose proof (move_and_clean_spec _ _ _ _ _ _ _ _ _ _ _ _ E) as (E1 & (bs0 & E2 & E3) & _).
  unfold move_and_clean in E. rewrite E1, E2 in E. fold (keep (K:=K) eps) in E.
  destruct (clean_vort dbl_max bs0 _) as [[[bs1 vl] m]|] eqn:C1; [|discriminate].
  destruct (clean_heat dbl_max 0 bs1 _) as [[bs2 hl]|] eqn:C2; [|discriminate].
  destruct (clean_streak dbl_max bs2 _) as [sl|] eqn:C3; [|discriminate].
  assert (HS : heat S' = map stop hl) by (injection E as <- _; reflexivity). rewrite HS.
  assert (F0 : Forall (fun b : fbody K => cond b <> ConstT) bs0).
  { pose proof (move_data _ _ _ _ _ _ _ E2) as M. rewrite Forall_forall in *. intros b I. apply (in_map data) in I. rewrite M in I.
    apply in_map_iff in I. destruct I as (b' & X & I). unfold data in X. injection X as X _. rewrite <- X. auto. }
  assert (F1 : Forall (fun b : fbody K => cond b <> ConstT) bs1).
  { clear - F0 C1. revert bs0 bs1 vl m F0 C1. generalize (keep (K:=K) eps (map (move_obj cdt) (vort S))).
    induction l as [|o t IH]; intros bs0 bs1 vl m F0 E; cbn [clean_vort] in E; [injection E as <- <- <-; auto|].
    destruct (first_hit dbl_max 0 bs0 (pos o)) as [[[i k]|]|]; try discriminate.
    - destruct (clean_vort dbl_max (change i (absorb o k) bs0) t) as [[[b2 l2] n2]|] eqn:C; [|discriminate]. injection E as <- <- <-.
      eapply IH; [|exact C]. apply change_Forall; auto.
    - destruct (clean_vort dbl_max bs0 t) as [[[b2 l2] n2]|] eqn:C; [|discriminate]. injection E as <- <- <-. eapply IH; eauto. }
  rewrite (clean_heat_plain _ _ _ _ _ _ C2 F1). destruct (clean_vort_spec _ _ _ _ _ _ C1) as (_ & _ & S1).
  unfold keep. rewrite !filter_map, !filter_and, !map_map.
  assert (Y : forall q, in_body dbl_max bs1 q = in_body dbl_max (bodies S') q) by (intros; apply in_body_shape; congruence).
  f_equal. apply filter_ext. intros o. unfold strong, inside, small. rewrite Y. reflexivity.
Qed.

(** The first is absorbed, the second kept, the third weak, the fourth moves into the body. *)
Example C23_ex :
  match goes (f64_ofZ 1) (mkSpace [box Neglect None (-1) 0 0 0 0]
      [part (1, 1)%Z 3 (0, 0)%Z; part (9, 9)%Z 4 (1, 2)%Z; @mkObj F64 (zv (9, 9)%Z) (f64_dec 1 11) (zv (0, 0)%Z); part (9, 0)%Z 1 (-8, 0)%Z]
      [part (1, 1)%Z 3 (0, 0)%Z; part (9, 9)%Z 4 (1, 2)%Z] [part (0, 9)%Z 0 (0, 1)%Z]) with
  | Some (S', _, _, n) => n = 2%nat /\ ints (vort S') = [(Some 10, Some 11, Some 4)]%Z /\ ints (heat S') = [(Some 10, Some 11, Some 4)]%Z /\
      ints (streak S') = [(Some 0, Some 10, Some 0)]%Z /\
      map (fun o : obj F64 => f64_to_i32 (x (vel o))) (vort S') = [Some 0%Z]
  | None => False
  end.
Proof. vm_compute. repeat split. Qed.
Print Assumptions C23_survivors.
Print Assumptions C23_heat.

(** * C55 *)

Theorem C55_heat_balance inf dbl_max eps gap fuel dt scale S l S' :
  Forall wf (bodies S) -> steps inf dbl_max eps gap fuel dt scale S l S' ->
  circ (heat S') - circ (heat S) + total lost_h l = total read_h l + H S' - H S.
Proof. intros W st. apply (steps_sums _ _ _ _ _ _ _ _ _ _ st W). Qed.

(** An isothermal body: the particle in its first layer is set to |dl|^2 * 2 = 64, the others are new. *)
Definition warm_body : space F64 := mkSpace [box ConstT None (-1) 0 0 0 0] [] [part (3, 2)%Z 1 (0, 0)%Z; part (1, 1)%Z 7 (0, 0)%Z] [].
Example C55_ex :
  match goes (f64_ofZ 1) warm_body with
  | Some (S', _, _, _) => ints (heat S') = [(Some 3, Some 2, Some 1)]%Z /\
      map (fun b : fbody F64 => map (fun s : seg F64 => f64_to_i32 (hsum s)) (segs b)) (bodies S') = [[Some (-7); Some 0; Some 0; Some 0]]%Z /\
      match heat_shed (K:=F64) S' with
      | Some S'' => map (fun o : obj F64 => f64_to_i32 (og o)) (heat S'') = [Some 64; Some 64; Some 64; Some 64]%Z /\
          map (fun b : fbody F64 => map (fun s : seg F64 => f64_to_i32 (hsum s)) (segs b)) (bodies S'') = [[Some 56; Some 64; Some 64; Some 64]]%Z
      | None => False
      end
  | None => False
  end.
Proof. vm_compute. repeat split. Qed.
Print Assumptions C55_heat_balance.

(** * C56 *)

(** Shedding heat directly after the motion sets the particle that lies in the
    layer of an isothermal segment. *)
Theorem C56_layer_partial {K : Num} (inf dbl_max : K) cosf sinf eps fuel dt S S' cdt ptr n :
  move_and_clean inf dbl_max cosf sinf eps fuel dt S = Some (S', cdt, ptr, n) ->
  (forall i k b s, at_seg (bodies S) i k b s -> obj_no s = None) ->
  exists S'', heat_shed S' = Some S'' /\
  forall i k b s a m, at_seg (bodies S') i k b s -> nth_error (alist (geo b)) k = Some a -> obj_no s = Some m ->
    cond b = ConstT /\ exists o o', nth_error (heat S') m = Some o /\ owner dbl_max 0 (bodies S') (pos o) = Some (i, k) /\
      nth_error (heat S'') m = Some o' /\ pos o' = pos o /\ og o' = (abs2 (dl a) * heat_const s)%num.
Proof.
  intros E F. pose proof (move_good _ _ _ _ _ _ _ _ _ _ _ _ E F) as Gd. destruct (shed_good dbl_max S' Gd) as (S'' & HS & V).
  exists S''. split; auto. intros i k b s a m A Na O. destruct (Gd i k b s m A O) as (C & o & Y & Z).
  split; auto. destruct (V i k b a s m A Na O) as (o1 & Y1 & Z1). rewrite Y in Y1. injection Y1 as <-.
  exists o, (warm a s o). repeat split; auto.
Qed.

(** The simulation crops the heat behind x = 16 in between, so the number is
    that of another particle, or of none: an access past the end. *)
Definition hot (l : list (obj F64)) : space F64 := mkSpace [box ConstT None (-1) 0 0 0 0] [] l [].
Theorem C56_crop_refuted : exists (S S' : space F64) cdt ptr n,
  (forall i k b s, at_seg (bodies S) i k b s -> obj_no s = None) /\
  goes (f64_ofZ 1) S = Some (S', cdt, ptr, n) /\ heat_shed (heat_crop (K:=F64) (f64_ofZ 16) S') = None.
Proof.
  set (S := hot [part (17, 10)%Z 1 (0, 0)%Z; part (3, 2)%Z 1 (0, 0)%Z]).
  assert (X : match goes (f64_ofZ 1) S with
    | Some (S', _, _, _) => match heat_shed (heat_crop (K:=F64) (f64_ofZ 16) S') with None => true | _ => false end
    | None => false end = true) by (vm_compute; reflexivity).
  destruct (goes (f64_ofZ 1) S) as [[[[S' cdt] ptr] n]|] eqn:E; [|discriminate].
  exists S, S', cdt, ptr, n. split; [|split; [exact E|]].
  - intros i k b s [A B]. apply nth_error_In in A, B. destruct A as [<-|[]].
    destruct B as [<-|[<-|[<-|[<-|[]]]]]; reflexivity.
  - destruct (heat_shed _); [discriminate|reflexivity].
Qed.
(** The particle at (3, 2) lies in the layer; the one at (3, 9) is set. *)
Theorem C56_other_particle_refuted : exists l S' cdt ptr n S'',
  goes (f64_ofZ 1) (hot l) = Some (S', cdt, ptr, n) /\ heat_shed (heat_crop (K:=F64) (f64_ofZ 16) S') = Some S'' /\
  ints (heat S') = [(Some 17, Some 10, Some 1); (Some 3, Some 2, Some 1); (Some 3, Some 9, Some 1)]%Z /\
  firstn 2 (ints (heat S'')) = [(Some 3, Some 2, Some 1); (Some 3, Some 9, Some 64)]%Z /\
  owner (K:=F64) dbl_max 0 (bodies S') (zv (3, 2)%Z) = Some (0, 0)%nat /\
  owner (K:=F64) dbl_max 0 (bodies S') (zv (3, 9)%Z) = None.
Proof.
  set (l := [part (17, 10)%Z 1 (0, 0)%Z; part (3, 2)%Z 1 (0, 0)%Z; part (3, 9)%Z 1 (0, 0)%Z]).
  assert (X : match goes (f64_ofZ 1) (hot l) with
    | Some (S', _, _, _) => match heat_shed (heat_crop (K:=F64) (f64_ofZ 16) S') with
        | Some S'' => ints (heat S') = [(Some 17, Some 10, Some 1); (Some 3, Some 2, Some 1); (Some 3, Some 9, Some 1)]%Z /\
            firstn 2 (ints (heat S'')) = [(Some 3, Some 2, Some 1); (Some 3, Some 9, Some 64)]%Z /\
            owner (K:=F64) dbl_max 0 (bodies S') (zv (3, 2)%Z) = Some (0, 0)%nat /\
            owner (K:=F64) dbl_max 0 (bodies S') (zv (3, 9)%Z) = None
        | None => False end
    | None => False end) by (vm_compute; repeat split).
  destruct (goes (f64_ofZ 1) (hot l)) as [[[[S' cdt] ptr] n]|] eqn:E; [|destruct X].
  destruct (heat_shed (heat_crop (K:=F64) (f64_ofZ 16) S')) as [S''|] eqn:E'; [|destruct X].
  exists l, S', cdt, ptr, n, S''. split; [exact E|]. split; [exact E'|exact X].
Qed.
Example C56_ex : match goes (f64_ofZ 1) warm_body with
  | Some (S', _, _, _) => map (fun b : fbody F64 => map (fun s : seg F64 => obj_no s) (segs b)) (bodies S') = [[Some O; None; None; None]]
  | None => False
  end.
Proof. vm_compute. reflexivity. Qed.
Print Assumptions C56_layer_partial.
Print Assumptions C56_crop_refuted.
Print Assumptions C56_other_particle_refuted.

(** * C57 *)

Lemma detect_none {K : Num} (dt : K) : forall l i st, detect dt i l st = st \/ snd (detect dt i l st) <> None.
Proof.
  assert (C : forall i b st c, check (K:=K) dt i b st c = st \/ snd (check dt i b st c) <> None).
  { intros. unfold check. destruct (hit_time dt b c); auto. destruct (nltb _ _); auto. right. discriminate. }
  assert (L : forall cs i b st, fold_left (check (K:=K) dt i b) cs st = st \/ snd (fold_left (check dt i b) cs st) <> None).
  { induction cs as [|c cs IH]; intros i b st; cbn [fold_left]; auto.
    destruct (IH i b (check dt i b st c)) as [E|E]; auto. rewrite E. apply C. }
  induction l as [|b t IH]; intros i st; cbn [detect]; auto.
  destruct (IH (S i) (fold_left (check dt i b) [CX; CY; CO] st)) as [E|E]; auto. rewrite E. apply L.
Qed.

(** Without a collision the objects move by velocity times the time the clock advances. *)
Theorem C57_no_collision_partial {K : Num} (inf dbl_max : K) cosf sinf eps fuel dt scale time S S' time' :
  snd (detect dt 0 (bodies S) (dt, None)) = None ->
  finish inf dbl_max cosf sinf eps fuel dt scale time S = Some (S', time') ->
  time' = nadd time dt /\
  forall o', In o' (vort S') -> exists o, In o (vort S) /\ pos o' = vadd (pos o) (vscale (vel o) dt).
Proof.
  intros N. unfold finish. destruct (move_and_clean _ _ _ _ _ _ _ _) as [[[[S1 c] p] n]|] eqn:E; [|discriminate].
  intros X. injection X as <- <-. split; auto. intros o' I. cbn [vort heat_crop] in I.
  pose proof (move_and_clean_spec _ _ _ _ _ _ _ _ _ _ _ _ E) as (D & _).
  destruct (detect_none dt (bodies S) 0 (dt, None)) as [U|U]; [|congruence]. rewrite U in D. injection D as <- <-.
  destruct (C23_survivors _ _ _ _ _ _ _ _ _ _ _ _ E) as (V & _). rewrite V in I. apply in_map_iff in I.
  destruct I as (o & <- & I). apply filter_In in I. exists o. split; [tauto|reflexivity].
Qed.

(** After a collision they are not: the clock advances by 1, a vortex of speed 6
    moves by 3. *)
Theorem C57_collision_refuted : exists (S : space F64),
  ints (vort S) = [(Some 10, Some 10, Some 1)]%Z /\ map (fun o : obj F64 => f64_to_i32 (x (vel o))) (vort S) = [Some 6%Z] /\
  match ends (f64_ofZ 1) (f64_ofZ 5) S with
  | Some (S', time) => f64_to_i32 time = Some 6%Z /\ ints (vort S') = [(Some 13, Some 10, Some 1)]%Z
  | None => False
  end.
Proof.
  exists (mkSpace [box Neglect None 0 0 1 2 0] [part (10, 10)%Z 1 (6, 0)%Z] [] []). vm_compute. auto.
Qed.
Example C57_ex :
  match ends (f64_ofZ 1) (f64_ofZ 5) (mkSpace [box Neglect None (-1) 0 1 2 0] [part (10, 10)%Z 1 (6, 0)%Z] [] []) with
  | Some (S', time) => f64_to_i32 time = Some 6%Z /\ ints (vort S') = [(Some 16, Some 10, Some 1)]%Z
  | None => False
  end.
Proof. vm_compute. auto. Qed.
Print Assumptions C57_no_collision_partial.
Print Assumptions C57_collision_refuted.

(** * C58 *)

(** The holder of an attached body turns with its root about the axis of the
    root, and moves by its own speed relative to that. *)
Theorem C58_attached inf dbl_max eps fuel dt (S S' : space RNum) cdt ptr n i j b rt b' rt' :
  move_and_clean (K:=RNum) inf dbl_max cos sin eps fuel dt S = Some (S', cdt, ptr, n) ->
  nth_error (bodies S) i = Some b -> root b = Some j -> nth_error (bodies S) j = Some rt ->
  nth_error (bodies S') i = Some b' -> nth_error (bodies S') j = Some rt' ->
  let dx := px (r3 (holder (geo b))) - px (get_axis (geo rt)) in
  let dy := py (r3 (holder (geo b))) - py (get_axis (geo rt)) in
  let da := cdt * o3 (speed_slae (geo rt)) in
  px (r3 (holder (geo b'))) - px (get_axis (geo rt')) = cos da * dx - sin da * dy + cdt * px (r3 (own b)) /\
  py (r3 (holder (geo b'))) - py (get_axis (geo rt')) = sin da * dx + cos da * dy + cdt * py (r3 (own b)).
Proof.
  intros E Nb R Nr Nb' Nr'. apply move_and_clean_spec in E. destruct E as (_ & (bs & E2 & E3) & _).
  apply all_some_spec in E2.
  assert (MV : forall i b b', nth_error (bodies S) i = Some b -> nth_error (bodies S') i = Some b' ->
    exists dh db, deltas (K:=RNum) cos sin fuel (bodies S) cdt b = Some (dh, db) /\
      shape b' = strip (move (K:=RNum) inf cos sin dh db (geo b))).
  { intros i0 b0 b0' N N'. destruct (map_shape_nth _ _ _ _ E3 N') as (b2 & N2 & SH).
    destruct (forall2_nth _ _ _ E2 i0 b0 N) as (b3 & N3 & M). rewrite N2 in N3. injection N3 as <-. unfold move_body in M.
    destruct (deltas (K:=RNum) cos sin fuel (bodies S) cdt b0) as [[dh db]|]; [|discriminate]. exists dh, db. split; auto.
    cbn [option_map fst snd] in M. injection M as <-. exact SH. }
  destruct (MV i b b' Nb Nb') as (dh & db & Db & Sb). destruct (MV j rt rt' Nr Nr') as (dh' & db' & Dr & Sr).
  assert (Dr' : deltas (K:=RNum) cos sin (pred fuel) (bodies S) cdt rt = Some (dh', db')).
  { destruct fuel as [|fuel]; [exact Dr|]. cbn [pred].
    assert (C : chain_error (K:=RNum) cos sin fuel (bodies S) cdt rt <> None).
    { unfold deltas in Db. cbn [chain_error] in Db. rewrite R, Nr in Db. intros C. rewrite C in Db. discriminate. }
    destruct (chain_error (K:=RNum) cos sin fuel (bodies S) cdt rt) as [e|] eqn:Ce; [|congruence].
    pose proof (ProofsDefined.chain_fuel (K:=RNum) cos sin (bodies S) cdt fuel rt e 1 Ce) as C1. rewrite Nat.add_1_r in C1.
    unfold deltas in *. rewrite C1 in Dr. rewrite Ce. exact Dr. }
  destruct (attached fuel (bodies S) cdt b j rt dh db dh' db' R Nr Db Dr') as [X Y].
  assert (Hb : holder (geo b') = holder (move (K:=RNum) inf cos sin dh db (geo b))).
  { change (holder (geo b')) with (holder (shape b')). rewrite Sb. reflexivity. }
  assert (Hr : get_axis (geo rt') = get_axis (move (K:=RNum) inf cos sin dh' db' (geo rt))).
  { change (get_axis (geo rt')) with (get_axis (shape rt')). rewrite Sr. reflexivity. }
  rewrite Hb, Hr, move_holder. destruct (move_axis inf dh' db' (geo rt)) as [Ax Ay]. rewrite Ax, Ay.
  cbv zeta in X, Y |- *. unfold px, py, P in *. cbn [x y r3 vadd nadd RNum] in *. split; lra.
Qed.

(** So a body without own speed keeps its distance from the axis of its root. *)
Theorem C58_distance inf dbl_max eps fuel dt (S S' : space RNum) cdt ptr n i j b rt b' rt' :
  move_and_clean (K:=RNum) inf dbl_max cos sin eps fuel dt S = Some (S', cdt, ptr, n) ->
  nth_error (bodies S) i = Some b -> root b = Some j -> nth_error (bodies S) j = Some rt ->
  nth_error (bodies S') i = Some b' -> nth_error (bodies S') j = Some rt' ->
  r3 (own b) = P 0 0 ->
  dist (r3 (holder (geo b'))) (get_axis (geo rt')) = dist (r3 (holder (geo b))) (get_axis (geo rt)).
Proof.
  intros E Nb R Nr Nb' Nr' O. destruct (C58_attached _ _ _ _ _ _ _ _ _ _ _ _ _ _ _ _ E Nb R Nr Nb' Nr') as [X Y].
  rewrite O in X, Y. unfold dist. f_equal.
  set (a := px (r3 (holder (geo b')))) in *. set (c := px (get_axis (geo rt'))) in *.
  set (a2 := py (r3 (holder (geo b')))) in *. set (c2 := py (get_axis (geo rt'))) in *.
  replace (c - a) with (- (a - c)) by ring. replace (c2 - a2) with (- (a2 - c2)) by ring. rewrite X, Y.
  set (da := cdt * _). pose proof (sin2_cos2 da) as T. unfold Rsqr in T.
  set (cs := cos da) in *. set (sn := sin da) in *. unfold px, py, P. cbn [x y].
  set (u := x (r3 (holder (geo b)))). set (v := x (get_axis (geo rt))). set (u2 := y (r3 (holder (geo b)))). set (v2 := y (get_axis (geo rt))).
  transitivity ((sn * sn + cs * cs) * ((v - u) * (v - u) + (v2 - u2) * (v2 - u2))); [ring|]. rewrite T. ring.
Qed.

(** The root at the origin turns by a right angle and shifts by 3; the child at (10, 0) gets to (3, 10). *)
Example C58_ex :
  let b := box Neglect (Some 1%nat) (-1) 10 0 0 0 in
  let rt := box Neglect None (-1) 0 0 3 0 in
  let g := geo rt in
  let g := @mkBody F64 (alist g) (holder g) (dpos g) (mkVec3 (zv (3, 0)%Z) (f64_ofZ 1)) (speed_slae g) (slip_ g) (slen g) (area g)
    (cofm g) (moi g) (disc_r2 g) (rect_bl g) (rect_tr g) (heat_layer g) in
  match move_and_clean (K:=F64) f64_inf dbl_max (fun _ => f64_ofZ 0) (fun _ => f64_ofZ 1) eps64 3 (f64_ofZ 1) (mkSpace [b; set_geo g rt] [] [] []) with
  | Some (S', _, _, _) => map (fun b : fbody F64 => (f64_to_i32 (x (r3 (holder (geo b)))), f64_to_i32 (y (r3 (holder (geo b)))))) (bodies S') =
      [(Some 3, Some 10); (Some 0, Some 0)]%Z
  | None => False
  end.
Proof. vm_compute. reflexivity. Qed.
Print Assumptions C58_attached.
Print Assumptions C58_distance.

(** * C59 *)

(** If the roots form no ring and all bodies have corners, the step is defined. *)
Theorem C59_defined {K : Num} (inf dbl_max : K) cosf sinf eps dt (S : space K) (rank : nat -> nat) :
  Forall (fun b : fbody K => alist (geo b) <> [] /\ length (segs b) = length (alist (geo b))) (bodies S) ->
  (forall i b j, nth_error (bodies S) i = Some b -> root b = Some j -> (rank j < rank i)%nat /\ nth_error (bodies S) j <> None) ->
  exists fuel, move_and_clean inf dbl_max cosf sinf eps fuel dt S <> None.
Proof.
  intros F A.
  assert (M : forall n, exists m, forall i, (i < n)%nat -> (rank i <= m)%nat).
  { induction n as [|n [m Hm]]; [exists O; lia|]. exists (Nat.max m (rank n)). intros i L.
    destruct (Nat.eq_dec i n) as [->|D]; [lia|]. pose proof (Hm i ltac:(lia)). lia. }
  destruct (M (length (bodies S))) as [m Hm]. exists m. eapply move_and_clean_def; eauto.
Qed.

(** On a ring of roots it is not: the loop does not end, whatever the number of iterations. *)
Theorem C59_ring_never_ends {K : Num} (inf dbl_max : K) cosf sinf eps dt (S : space K) i b :
  nth_error (bodies S) i = Some b -> root b = Some i ->
  forall fuel, move_and_clean inf dbl_max cosf sinf eps fuel dt S = None.
Proof.
  intros N R fuel. apply (move_and_clean_ring inf dbl_max cosf sinf eps fuel dt S (eq i) i b eq_refl N).
  intros j b' <- N'. rewrite N in N'. injection N' as <-. exists i. auto.
Qed.

(** Such a space: one square whose root is itself, as Lua may set it. *)
Theorem C59_ring_refuted : exists (S : space F64),
  Forall (fun b : fbody F64 => alist (geo b) <> [] /\ length (segs b) = length (alist (geo b))) (bodies S) /\
  forall cosf sinf dt fuel, move_and_clean (K:=F64) f64_inf dbl_max cosf sinf eps64 fuel dt S = None.
Proof.
  exists (mkSpace [box Neglect (Some O) (-1) 0 0 0 0] [] [] []). split.
  - constructor; [|constructor].
    assert (X : length (alist (geo (box Neglect (Some O) (-1) 0 0 0 0))) = 4%nat) by (vm_compute; reflexivity).
    split; [|rewrite X; reflexivity]. intros E. rewrite E in X. discriminate X.
  - intros. apply (C59_ring_never_ends (K:=F64) _ _ _ _ _ _ _ O (box Neglect (Some O) (-1) 0 0 0 0)); reflexivity.
Qed.
Example C59_ex : goes (f64_ofZ 1) (mkSpace [box Neglect (Some 1%nat) (-1) 0 0 0 0; box Neglect None (-1) 0 0 3 0] [] [] []) <> None.
Proof.
  intros E. assert (X : match goes (f64_ofZ 1) (mkSpace [box Neglect (Some 1%nat) (-1) 0 0 0 0; box Neglect None (-1) 0 0 3 0] [] [] []) with
    Some _ => true | None => false end = true) by (vm_compute; reflexivity). rewrite E in X. discriminate.
Qed.
Print Assumptions C59_defined.
Print Assumptions C59_ring_never_ends.
Print Assumptions C59_ring_refuted.
