(** Property C86: assigning a documented member changes that member alone. *)

From Coq Require Import List ZArith Bool Ascii String Lia Reals Lra.
From Flocq Require Import Core.Raux IEEE754.BinarySingleNaN.
From Verif Require Import Base.Int Base.Num Base.F64 Lua.ModelMembers Lua.SpecMembers Lua.ProofsMembers.
From Verif Require Time.Model Time.ModelRun.
Import ListNotations.
Local Open Scope string_scope.

(** The classes: what the code lists and what the manual says. *)
Definition classes : list (list row * list string * list (string * kind)) :=
  [ (tbody_members, tbody_methods, doc_body); (space_members, space_methods, doc_space);
    (tvec_members, tvec_methods, doc_tvec); (tvec3d_members, tvec3d_methods, doc_tvec3d);
    (tobj_members, tobj_methods, doc_tobj) ].

Lemma classes_agree t methods doc : In (t, methods, doc) classes -> agrees t doc.
Proof.
  intros H. cbn [In classes] in H.
  repeat (destruct H as [H|H]; [assert (t = fst (fst (t, methods, doc))) as E1 by reflexivity;
    assert (doc = snd (t, methods, doc)) as E2 by reflexivity;
    rewrite <- H in E1, E2; cbn [fst snd] in E1, E2; subst t doc|]);
  [exact body_agrees|exact space_agrees|exact tvec_agrees|exact tvec3d_agrees|exact tobj_agrees|destruct H].
Qed.

(** [o.n1...nk = v], with k >= 1: if it succeeds, the path is documented and
    reads as its type promises; every path that parts from it reads as before.
    If it is an error, the path is not documented or the value has no reading,
    and every path reads as before.  Only times (see C05) and integers out of
    range can be undefined. *)
Theorem C86_assign : forall str2num accepts scan t methods doc o p v,
  In (t, methods, doc) classes -> typed_object t o -> p <> [] ->
  let o' := fst (assign str2num accepts scan t o p v) in
  match snd (assign str2num accepts scan t o p v) with
  | Value _ =>
      typed_object t o' /\
      (forall q, apart p q -> look t methods o' q = look t methods o q) /\
      exists k, at_path doc p k /\
      (look t methods o p <> Ub ->
       exists u, look t methods o' p = Value u /\ reads str2num accepts scan k v u)
  | LuaError _ =>
      (forall q, look t methods o' q = look t methods o q) /\
      forall k u, at_path doc p k -> ~ reads str2num accepts scan k v u
  | Ub =>
      exists k, at_path doc p k /\ undefined str2num scan k v
  | Elsewhere =>
      (forall q, look t methods o' q = look t methods o q) /\
      exists n q, p = n :: q /\ q <> [] /\ (In (n, KRoot) doc \/ In (n, KList) doc)
  end.
Proof.
  intros str2num accepts scan t methods doc o p v C T NE.
  pose proof (outcome_ok str2num accepts scan v p NE t doc methods o (classes_agree _ _ _ C) T) as H.
  cbv zeta. unfold outcome in H. destruct (snd (assign str2num accepts scan t o p v)).
  - destruct H as (k & P & T' & S & R). split; [exact T'|]. split; [exact S|]. exists k. auto.
  - destruct H as [E H]. split; [intros q; apply look_ext; exact E|exact H].
  - exact (proj2 H).
  - destruct H as [E H]. split; [intros q; apply look_ext; exact E|exact H].
Qed.

(** Every documented member that is not a list accepts the values of its type;
    a member that cannot be read before is the slip of a body without segments. *)
Theorem C86_accepts : forall str2num accepts scan t methods doc o n k v u,
  In (t, methods, doc) classes -> typed_object t o -> In (n, k) doc ->
  reads str2num accepts scan k v u ->
  snd (assign str2num accepts scan t o [n] v) = Value LNil /\
  (look t methods o [n] = Ub -> k = KSlip).
Proof.
  intros str2num accepts scan t methods doc o n k v u C T D R.
  pose proof (classes_agree _ _ _ C) as A. pose proof D as D'. apply (a_doc _ _ A) in D'.
  destruct D' as (r & I & <- & <-).
  pose proof (C86_assign str2num accepts scan t methods doc o [rname r] v C T ltac:(discriminate)) as H.
  cbv zeta in H. rewrite assign_one in *. split.
  - unfold newindex in *. rewrite (find_in _ _ (a_names _ _ A) I) in *.
    rewrite (a_set _ _ A r I) in *.
    destruct (rkind r) eqn:K; try (destruct R; fail);
    destruct (set str2num accepts scan _ (o (rfield r)) v) as [m|e|] eqn:S; cbn [snd] in *;
      try reflexivity; exfalso;
      try (destruct H as [_ H]; exact (H _ u D R));
      destruct (set_undefined _ _ _ _ _ _ (eq_ind _ (fun k => typed k (o (rfield r))) (T r I) _ K) S ltac:(discriminate)) as [_ U];
      exact (reads_defined _ _ _ _ _ _ R U).
  - rewrite look_one. unfold getindex. rewrite (find_in _ _ (a_names _ _ A) I).
    specialize (T r I). destruct (rkind r) eqn:K, (o (rfield r)) as [| | | | | | |l|[b|]|]; try contradiction;
      try (intros G; discriminate G); reflexivity.
Qed.

Lemma whole_int z y : (- 2 ^ 53 <= z <= 2 ^ 53)%Z -> whole_part (f64_ofZ z) y <-> y = z.
Proof.
  intros B. unfold whole_part. destruct (f64_ofZ_R z ltac:(lia)) as [V F]. rewrite V, F, Ztrunc_IZR. lia.
Qed.

(** What is read back is the value itself for the ordinary ones. *)
Theorem C86_exact_partial : forall str2num accepts scan,
  let reads := reads str2num accepts scan in
  (forall x u, reads KDbl (LNum x) u <-> u = LNum x) /\
  (forall z u, (- 2 ^ 31 <= z < 2 ^ 31)%Z -> reads KInt (LNum (f64_ofZ z)) u <-> u = LNum (f64_ofZ z)) /\
  (forall s u, c_str s = s -> reads KStr (LStr s) u <-> u = LStr s) /\
  (forall x y u, reads KVec (LTab [LNum x; LNum y]) u <-> u = LVec x y) /\
  (forall x y o u, reads KVec3 (LTab [LNum x; LNum y; LNum o]) u <-> u = LVec3 x y o) /\
  (forall s u, c_str s = s -> accepts s = true -> reads KExpr (LStr s) u <-> u = LEval s) /\
  (forall b u, reads KSlip (LBool b) u <-> u = LBool b) /\
  (forall b u, reads KRoot (LBody b) u <-> u = LBody b).
Proof.
  intros str2num accepts scan. cbv zeta. cbn [SpecMembers.reads].
  assert (N : forall x y, number str2num (LNum x) y <-> y = x).
  { intros x y. rewrite number_iff. cbn [tonumber]. split; congruence. }
  repeat split.
  - intros (y & H & ->). apply N in H. congruence.
  - intros ->. exists x. rewrite N. auto.
  - intros (x & y & Hx & Hy & ->). apply N in Hx. subst x.
    rewrite (whole_int z y) in Hy by lia. subst y. rewrite i32_id by (unfold is_i32; lia). reflexivity.
  - intros ->. exists (f64_ofZ z), z. rewrite N, (whole_int z z) by lia. split; [reflexivity|]. split; [reflexivity|].
    rewrite i32_id by (unfold is_i32; lia). reflexivity.
  - intros (s' & E & ->). congruence.
  - intros ->. exists s. rewrite H. auto.
  - intros (a & b & -> & [H|(c & d & H & Hc & Hd)]); [discriminate|].
    assert (c = LNum x) as -> by congruence. assert (d = LNum y) as -> by congruence.
    apply N in Hc. apply N in Hd. congruence.
  - intros ->. exists x, y. split; [reflexivity|]. right. exists (LNum x), (LNum y).
    rewrite !N. auto.
  - intros (a & b & e & -> & [H|(c & d & f & H & Hc & Hd & Hf)]); [discriminate|].
    assert (c = LNum x) as -> by congruence. assert (d = LNum y) as -> by congruence.
    assert (f = LNum o) as -> by congruence.
    apply N in Hc. apply N in Hd. apply N in Hf. congruence.
  - intros ->. exists x, y, o. split; [reflexivity|]. right.
    exists (LNum x), (LNum y), (LNum o). rewrite !N. auto.
  - intros (s' & -> & _ & [E|(s2 & E & ->)]); congruence.
  - intros ->. exists s. split; [reflexivity|]. split; [assumption|]. right. exists s. auto.
  - intros (b' & E & ->). congruence.
  - intros ->. exists b. auto.
  - intros [_ E]. exact E.
  - right. eauto.
  - assumption.
Qed.

(** The degrees are exact over the reals. *)
Theorem C86_degrees : forall pi x : R, pi <> 0%R ->
  to_degrees (K:=RNum) pi (to_radians (K:=RNum) pi x) = x.
Proof. intros pi x H. cbn. field. exact H. Qed.

(** And not in doubles: [d = 11] reads something else. *)
Theorem C86_degrees_refuted :
  ~ forall str2num accepts scan x u, is_finite x = true ->
      reads str2num accepts scan KDegree (LNum x) u -> u = LNum x.
Proof.
  intros H.
  assert (E : @to_degrees F64 c_pi (@to_radians F64 c_pi (f64_ofZ 11)) = f64_ofZ 11).
  { assert (LNum (@to_degrees F64 c_pi (@to_radians F64 c_pi (f64_ofZ 11))) = LNum (f64_ofZ 11)) as K.
    { apply (H (fun _ => None) (fun _ => true) (fun _ => Time.ModelRun.mkScan 0 0 0 false)).
      - vm_compute. reflexivity.
      - eexists. split; [|reflexivity]. left. reflexivity. }
    congruence. }
  assert (F : Beqb (@to_degrees F64 c_pi (@to_radians F64 c_pi (f64_ofZ 11))) (f64_ofZ 11) = false)
    by (vm_compute; reflexivity).
  rewrite E in F. revert F. vm_compute. discriminate.
Qed.

(** An integer loses its fraction and is cut to 32 bits, the numbers of a time
    lose their fractions, a text is cut at its first zero. *)
Theorem C86_cut_refuted :
  ~ (forall str2num accepts scan x u, Bleb (f64_ofZ 0) x = true -> Bltb x (f64_ofZ 2) = true ->
       reads str2num accepts scan KInt (LNum x) u -> u = LNum x) /\
  ~ (forall str2num accepts scan z u, (0 <= z < 2 ^ 53)%Z ->
       reads str2num accepts scan KInt (LNum (f64_ofZ z)) u -> u = LNum (f64_ofZ z)) /\
  ~ (forall str2num accepts scan a b u, reads str2num accepts scan KTime (LTab [LNum a; LNum b]) u ->
       u = LNum (@ndiv F64 a b)) /\
  ~ (forall str2num accepts scan s u, reads str2num accepts scan KStr (LStr s) u -> u = LStr s).
Proof.
  pose (n := fun _ : string => @None f64). pose (y := fun _ : string => true).
  pose (e := fun _ : string => Time.ModelRun.mkScan 0 0 0 false).
  assert (I : forall x z, cast64 x = Whole z -> reads n y e KInt (LNum x) (LNum (f64_ofZ (i32 z)))).
  { intros x z C. exists x, z. rewrite cast_iff. split; [left; reflexivity|]. auto. }
  repeat split; intros H.
  - pose (h := @ndiv F64 (f64_ofZ 3) (f64_ofZ 2)).
    pose proof (H n y e h _ ltac:(vm_compute; reflexivity) ltac:(vm_compute; reflexivity) (I h 1%Z ltac:(vm_compute; reflexivity))) as K.
    assert (B : Beqb (f64_ofZ 1) h = true) by (assert (f64_ofZ (i32 1) = h) as <- by congruence; vm_compute; reflexivity).
    revert B. vm_compute. discriminate.
  - assert (K : LNum (f64_ofZ (i32 (2 ^ 32 + 1))) = LNum (f64_ofZ (2 ^ 32 + 1))).
    { apply (H n y e); [lia|]. apply I. vm_compute. reflexivity. }
    assert (B : Beqb (f64_ofZ (i32 (2 ^ 32 + 1))) (f64_ofZ (2 ^ 32 + 1)) = true)
      by (assert (f64_ofZ (i32 (2 ^ 32 + 1)) = f64_ofZ (2 ^ 32 + 1)) as -> by congruence; vm_compute; reflexivity).
    revert B. vm_compute. discriminate.
  - pose (h := @ndiv F64 (f64_ofZ 3) (f64_ofZ 2)). pose (t := Time.Model.mkTime 1 10).
    assert (K : LNum (Time.ModelRun.to_double t) = LNum (@ndiv F64 h (f64_ofZ 10))).
    { apply (H n y e). exists t. split; [reflexivity|]. right; left.
      exists (LNum h), (LNum (f64_ofZ 10)), h, (f64_ofZ 10), 1%Z, 10%Z. rewrite !cast_iff.
      split; [reflexivity|]. split; [left; reflexivity|]. split; [left; reflexivity|].
      repeat split; vm_compute; reflexivity. }
    assert (B : Beqb (Time.ModelRun.to_double t) (@ndiv F64 h (f64_ofZ 10)) = true)
      by (assert (Time.ModelRun.to_double t = @ndiv F64 h (f64_ofZ 10)) as -> by congruence; vm_compute; reflexivity).
    revert B. vm_compute. discriminate.
  - assert (K : LStr "a" = LStr ("a" ++ String Ascii.zero "b")); [|discriminate K].
    apply (H n y e). eexists. split; reflexivity.
Qed.

(** ** Concrete cases *)

Definition ex_body (x y a : f64) : object := fun f =>
  if String.eqb f "label" then MStr "wing" else
  if String.eqb f "density" then MDbl a else if String.eqb f "bounce" then MDbl a else
  if String.eqb f "special_segment_no" then MInt 0 else
  if String.eqb f "alist" then MSlips [0; 1; 0]%Z else
  if String.eqb f "root_body" then MRoot None else
  if existsb (String.eqb f) ["speed_x"; "speed_y"; "speed_o"; "force_o"] then MExpr "" else
  MVec3 x y a.

Example C86_ex : forall x y a b : f64,
  let str2num := fun _ : string => @None f64 in
  let accepts := fun _ : string => true in
  let scan := fun _ : string => Time.ModelRun.mkScan 0 0 0 false in
  let assign := assign str2num accepts scan tbody_members in
  let look := look tbody_members tbody_methods in
  let o := ex_body x y a in
  typed_object tbody_members o /\
  (* holder_pos.r.x *)
  let o1 := fst (assign o ["holder_pos"; "r"; "x"] (LNum b)) in
  look o1 ["holder_pos"] = Value (LVec3 b y a) /\ look o1 ["delta_pos"] = Value (LVec3 x y a) /\
  look o1 ["holder_pos"; "r"; "y"] = Value (LNum y) /\ look o1 ["holder_pos"; "o"] = Value (LNum a) /\
  apart ["holder_pos"; "r"; "x"] ["holder_pos"; "o"] /\
  (* slip *)
  look o ["slip"] = Value LNil /\
  look (fst (assign o ["slip"] (LBool true))) ["slip"] = Value (LBool true) /\
  look (fst (assign o ["slip"] (LBool true))) ["density"] = Value (LNum a) /\
  (* refused *)
  snd (assign o ["density"] LNil) = LuaError "bad value for density (number expected)" /\
  snd (assign o ["colour"] (LNum b)) = LuaError "can not assign 'colour'" /\
  (* the table needs three elements *)
  snd (assign o ["speed"] (LTab [LNum b; LNum b])) =
    LuaError "bad value for speed (TVec3D needs table with three numbers)".
Proof.
  intros. split.
  { intros r H. cbn in H. repeat (destruct H as [<-|H]; [exact I|]). destruct H. }
  repeat (split; [first [reflexivity | apply apart_later, apart_here; [discriminate|intros []; discriminate|intros []; discriminate]]|]).
  reflexivity.
Qed.

(** [special_segment = 3.5] makes it 3, [= 1e300] is undefined. *)
Example C86_int_ex : forall x y a : f64,
  let assign := assign (fun _ => @None f64) (fun _ => true) (fun _ => Time.ModelRun.mkScan 0 0 0 false) tbody_members in
  let p := ["special_segment"] in
  look tbody_members tbody_methods (fst (assign (ex_body x y a) p (LNum (@ndiv F64 (f64_ofZ 7) (f64_ofZ 2))))) p =
    Value (LNum (f64_ofZ 3)) /\
  snd (assign (ex_body x y a) p (LNum (f64_ofZ (10 ^ 300)))) = Ub.
Proof.
  intros x y a assign p.
  assert (C : cast64 (@ndiv F64 (f64_ofZ 7) (f64_ofZ 2)) = Whole 3) by (vm_compute; reflexivity).
  assert (D : cast64 (f64_ofZ (10 ^ 300)) = Outside) by (vm_compute; reflexivity).
  revert C D. generalize (@ndiv F64 (f64_ofZ 7) (f64_ofZ 2)) (f64_ofZ (10 ^ 300)). intros v w C D.
  assert (E : assign (ex_body x y a) p (LNum v) =
    (put (ex_body x y a) "special_segment_no" (MInt 3), Value LNil)).
  { unfold assign, p. cbn -[cast64 f64_ofZ put].
    rewrite C. reflexivity. }
  split.
  - rewrite E. cbn -[f64_ofZ]. reflexivity.
  - unfold assign, p. cbn -[cast64 f64_ofZ put].
    rewrite D. reflexivity.
Qed.

(** The slip of a body without segments cannot be read. *)
Example C86_slip_ex : forall o, o "alist" = MSlips [] ->
  look tbody_members tbody_methods o ["slip"] = Ub.
Proof. intros o E. cbn [look]. unfold getindex. cbn [find tbody_members]. cbn. rewrite E. reflexivity. Qed.

Print Assumptions C86_assign.
Print Assumptions C86_accepts.
Print Assumptions C86_exact_partial.
Print Assumptions C86_degrees.
Print Assumptions C86_degrees_refuted.
Print Assumptions C86_cut_refuted.
