(** C40, C92, C93: the dimensions of a plot. *)

From Coq Require Import List ZArith Bool Reals Lia Lra.
From Flocq Require Import Core.Core IEEE754.BinarySingleNaN.
From Verif Require Import Base.Num Base.NumNaN Plot.ModelDims Plot.SpecDims Plot.ProofsDims.
Local Open Scope R_scope.

(** * C40: the missing dimension *)

(** Nothing missing counts as a missing height. *)
Definition unknown (i : item) (v : rview) : Prop := only v i \/ i = H /\ forall j, ~ missing v j.

(** The pieces of the conclusion for one unknown. *)
Lemma one_unknown : forall i (v : rview) lo hi vs,
  unknown i v -> (0 <= width v)%Z -> (0 <= height v)%Z -> (0 < lo)%Z -> (0 < hi)%Z -> conclusion i v lo hi vs.
Proof.
  intros i v lo hi vs U PW PH L G.
  assert (KN : forall j, j <> i -> ~ missing v j).
  { intros j N M. destruct U as [U|[_ U]]; [apply N; apply U; exact M|exact (U j M)]. }
  destruct v as [w h x0 x1 y0 y1]. cbn [width height] in PW, PH.
  assert (NW : i <> W -> (0 < w)%Z).
  { intros N. assert (w <> 0%Z) by (intros E; apply (KN W); [congruence|exact E]). lia. }
  assert (NH : i <> H -> (0 < h)%Z).
  { intros N. assert (h <> 0%Z) by (intros E; apply (KN H); [congruence|exact E]). lia. }
  assert (X0 : i <> Xmin -> exists a, x0 = Some a).
  { intros N. destruct x0 as [a|]; [exists a; reflexivity|]. destruct (KN Xmin); [congruence|reflexivity]. }
  assert (X1 : i <> Xmax -> exists a, x1 = Some a).
  { intros N. destruct x1 as [a|]; [exists a; reflexivity|]. destruct (KN Xmax); [congruence|reflexivity]. }
  assert (Y0 : i <> Ymin -> exists a, y0 = Some a).
  { intros N. destruct y0 as [a|]; [exists a; reflexivity|]. destruct (KN Ymin); [congruence|reflexivity]. }
  assert (Y1 : i <> Ymax -> exists a, y1 = Some a).
  { intros N. destruct y1 as [a|]; [exists a; reflexivity|]. destruct (KN Ymax); [congruence|reflexivity]. }
  assert (NX : i <> X -> forall a b, x0 = Some a -> x1 = Some b -> a <> b).
  { intros N a b E1 E2 E. apply (KN X); [congruence|]. exists a. cbn. split; congruence. }
  assert (NY : i <> Y -> forall a b, y0 = Some a -> y1 = Some b -> a <> b).
  { intros N a b E1 E2 E. apply (KN Y); [congruence|]. exists a. cbn. split; congruence. }
  assert (Hit : i <> H -> missing (mkView w h x0 x1 y0 y1) i).
  { intros N. destruct U as [U|[E _]]; [apply U; reflexivity|congruence]. }
  destruct i.
  - destruct X0 as [a0 ->]; [discriminate|]. destruct X1 as [b0 ->]; [discriminate|].
    destruct Y0 as [c0 ->]; [discriminate|]. destruct Y1 as [d0 ->]; [discriminate|].
    destruct (swapped_box (@mkView RNaN w h (Some a0) (Some b0) (Some c0) (Some d0)) a0 b0 c0 d0 eq_refl eq_refl eq_refl eq_refl)
      as (a & b & c & d & B1 & B2 & S); [apply NX; [discriminate|reflexivity|reflexivity]|apply NY; [discriminate|reflexivity|reflexivity]|].
    apply (conclude W _ a b c d). apply (pixels_case w h); try assumption; try reflexivity; try apply B1; try apply B2.
    left. split; [reflexivity|]. split; [apply Hit; discriminate|]. specialize (NH ltac:(discriminate)). lia.
  - destruct X0 as [a0 ->]; [discriminate|]. destruct X1 as [b0 ->]; [discriminate|].
    destruct Y0 as [c0 ->]; [discriminate|]. destruct Y1 as [d0 ->]; [discriminate|].
    destruct (swapped_box (@mkView RNaN w h (Some a0) (Some b0) (Some c0) (Some d0)) a0 b0 c0 d0 eq_refl eq_refl eq_refl eq_refl)
      as (a & b & c & d & B1 & B2 & S); [apply NX; [discriminate|reflexivity|reflexivity]|apply NY; [discriminate|reflexivity|reflexivity]|].
    apply (conclude H _ a b c d). apply (pixels_case w h); try assumption; try reflexivity; try apply B1; try apply B2.
    right. split; [reflexivity|]. specialize (NW ltac:(discriminate)). lia.
  - destruct (Hit ltac:(discriminate)) as (c1 & E1 & E2). cbn in E1, E2. subst.
    destruct Y0 as [c0 ->]; [discriminate|]. destruct Y1 as [d0 ->]; [discriminate|].
    apply case_X; try assumption; try (apply NW; discriminate); try (apply NH; discriminate).
    apply NY; [discriminate|reflexivity|reflexivity].
  - destruct (Hit ltac:(discriminate)) as (c1 & E1 & E2). cbn in E1, E2. subst.
    destruct X0 as [a0 ->]; [discriminate|]. destruct X1 as [b0 ->]; [discriminate|].
    apply case_Y; try assumption; try (apply NW; discriminate); try (apply NH; discriminate).
    apply NX; [discriminate|reflexivity|reflexivity].
  - pose proof (Hit ltac:(discriminate)) as E. cbn in E. subst.
    destruct X1 as [b0 ->]; [discriminate|]. destruct Y0 as [c0 ->]; [discriminate|]. destruct Y1 as [d0 ->]; [discriminate|].
    apply case_Xmin; try assumption; try (apply NW; discriminate); try (apply NH; discriminate).
    apply NY; [discriminate|reflexivity|reflexivity].
  - pose proof (Hit ltac:(discriminate)) as E. cbn in E. subst.
    destruct X0 as [a0 ->]; [discriminate|]. destruct Y0 as [c0 ->]; [discriminate|]. destruct Y1 as [d0 ->]; [discriminate|].
    apply case_Xmax; try assumption; try (apply NW; discriminate); try (apply NH; discriminate).
    apply NY; [discriminate|reflexivity|reflexivity].
  - pose proof (Hit ltac:(discriminate)) as E. cbn in E. subst.
    destruct Y1 as [d0 ->]; [discriminate|]. destruct X0 as [a0 ->]; [discriminate|]. destruct X1 as [b0 ->]; [discriminate|].
    apply case_Ymin; try assumption; try (apply NW; discriminate); try (apply NH; discriminate).
    apply NX; [discriminate|reflexivity|reflexivity].
  - pose proof (Hit ltac:(discriminate)) as E. cbn in E. subst.
    destruct Y0 as [c0 ->]; [discriminate|]. destruct X0 as [a0 ->]; [discriminate|]. destruct X1 as [b0 ->]; [discriminate|].
    apply case_Ymax; try assumption; try (apply NW; discriminate); try (apply NH; discriminate).
    apply NX; [discriminate|reflexivity|reflexivity].
Qed.

(** One dimension is missing, or none: it is computed, all others are kept, the
    scale is the same in both directions, up to the even number of pixels below. *)
Theorem C40_complete : forall i (v : rview) lo hi vs,
  unknown i v -> (0 <= width v)%Z -> (0 <= height v)%Z -> (0 < lo)%Z -> (0 < hi)%Z ->
  ~ too_long i v lo hi ->
  exists a b c d v' ml mh vc, r_complete v lo hi vs = Done v' ml mh vc /\ completes i v v' a b c d.
Proof.
  intros i v lo hi vs U PW PH L G N.
  destruct (one_unknown i v lo hi vs U PW PH L G) as [[_ T]|(_ & a & b & c & d & v' & ml & mh & vc & E & C & _)]; [contradiction|].
  exists a, b, c, d, v', ml, mh, vc. split; assumption.
Qed.

(** Two dimensions missing: error. *)
Theorem C40_error : forall (v : rview) i j lo hi vs,
  missing v i -> missing v j -> i <> j -> r_complete v lo hi vs = ExitError.
Proof. exact error_case. Qed.

(** Undefined behaviour just for pictures too long for [int]. *)
Theorem C40_undefined : forall i (v : rview) lo hi vs,
  unknown i v -> (0 <= width v)%Z -> (0 <= height v)%Z -> (0 < lo)%Z -> (0 < hi)%Z ->
  (r_complete v lo hi vs = Undefined <-> too_long i v lo hi).
Proof.
  intros i v lo hi vs U PW PH L G.
  destruct (one_unknown i v lo hi vs U PW PH L G) as [[E T]|(N & a & b & c & d & v' & ml & mh & vc & E & _)].
  - tauto.
  - split; [rewrite E; discriminate|contradiction].
Qed.

(** The size can be 0: a picture of 1000 by 1 of width 1280 has the height 0. *)
Theorem C40_empty_refuted : exists v', exists ml mh vc,
  r_complete (@mkView RNaN 1280 720 (Some 0) (Some 1000) (Some 0) (Some 1)) 256 640 4 = Done v' ml mh vc /\
  width v' = 1280%Z /\ height v' = 0%Z.
Proof.
  set (v := @mkView RNaN 1280 720 (Some 0) (Some 1000) (Some 0) (Some 1)).
  assert (BX : bounds (xmin v) (xmax v) 0 1000) by (split; [lra|left; split; reflexivity]).
  assert (BY : bounds (ymin v) (ymax v) 0 1) by (split; [lra|left; split; reflexivity]).
  assert (U : unknown H v).
  { right. split; [reflexivity|]. intros [] M; cbn in M; try discriminate M;
      destruct M as (c & E1 & E2); injection E1 as E1; injection E2 as E2; lra. }
  assert (N : ~ too_long H v 256 640).
  { intros (r & (a & b & c & d & B1 & B2 & ->) & T).
    destruct (bounds_unique _ _ _ _ _ _ BX B1) as [<- <-], (bounds_unique _ _ _ _ _ _ BY B2) as [<- <-].
    change (width v) with 1280%Z in T. change (height v) with 720%Z in T.
    change (2 ^ 31)%Z with 2147483648%Z in T. change (2147483648 - 1)%Z with 2147483647%Z in T.
    destruct T as [[_ T]|[[T _]|[T|T]]]; [lra|discriminate T|lra|lra]. }
  destruct (C40_complete H v 256 640 4 U ltac:(cbn; lia) ltac:(cbn; lia) ltac:(lia) ltac:(lia) N)
    as (a & b & c & d & v' & ml & mh & vc & E & _ & EW & B1 & B2 & EV & B).
  exists v', ml, mh, vc. split; [exact E|]. split; [exact EW|].
  destruct (bounds_unique _ _ _ _ _ _ BX B1) as [<- <-], (bounds_unique _ _ _ _ _ _ BY B2) as [<- <-].
  change (IZR (width v)) with 1280 in B.
  assert (L1 : (height v' < 2)%Z) by (apply lt_IZR; lra).
  assert (L2 : (-1 < height v')%Z) by (apply lt_IZR; lra).
  assert (height v' = 0%Z \/ height v' = 1%Z) as [-> |E1] by lia; [reflexivity|]. rewrite E1 in EV. discriminate.
Qed.

(** Over doubles: around 1e17 the width of the picture is lost and the number of
    mesh rows is undefined. *)
Definition f64_ceil (x : f64) : f64 :=
  if is_finite x then let t := Btrunc x in f64_ofZ (if Bltb (f64_ofZ t) x then t + 1 else t) else x.
Definition f64_complete := @complete F64 f64_to_i32 f64_ceil.
Definition undefined {K} (r : @result K) : bool := match r with Undefined => true | _ => false end.
Theorem C40_double_refuted :
  undefined (f64_complete (@mkView F64 1280 720 (f64_ofZ (10 ^ 17)) (f64_ofZ (10 ^ 17)) (f64_ofZ 0) (f64_ofZ 1)) 256 640 4) = true.
Proof. vm_compute. reflexivity. Qed.

(** * C92: the meshes *)

(** Squares from the left to the right border and just enough rows to reach the
    upper one; circles of the wanted size. *)
Theorem C92_mesh : forall i (v : rview) lo hi vs,
  unknown i v -> (0 <= width v)%Z -> (0 <= height v)%Z -> (0 < lo)%Z -> (0 < hi)%Z ->
  ~ too_long i v lo hi ->
  exists a b c d v' ml mh vc, r_complete v lo hi vs = Done v' ml mh vc /\
    shows v' (width v') (height v') a b c d /\ covers ml lo a b c d /\ covers mh hi a b c d /\
    (width v' <> 0%Z -> exists r, vc = Some r /\ 2 * r * IZR (width v') = IZR vs * (b - a)).
Proof.
  intros i v lo hi vs U PW PH L G N.
  destruct (one_unknown i v lo hi vs U PW PH L G) as [[_ T]|(_ & a & b & c & d & v' & ml & mh & vc & E & C & M1 & M2 & Q)]; [contradiction|].
  exists a, b, c, d, v', ml, mh, vc. split; [exact E|]. split; [apply C|]. split; [exact M1|]. split; [exact M2|exact Q].
Qed.

(** * C93: frames of reference *)

(** The picture is moved, its size, so the mesh, is not changed. *)
Theorem C93_moved : forall r (marker : option R * option R) (axis : option (option R * option R)) (v v' : rview) (mx my : R) w h a b c d,
  shows v w h a b c d ->
  (r = RefF -> marker = (Some mx, Some my)) -> (r <> RefF -> axis = Some (Some mx, Some my)) ->
  @moved RNaN r marker axis v = Some v' ->
  let tx := match r with RefF | RefB | RefX => mx | _ => 0 end in
  let ty := match r with RefF | RefB | RefY => my | _ => 0 end in
  shows v' w h (a + tx) (b + tx) (c + ty) (d + ty).
Proof.
  intros r marker axis v v' mx my w h a b c d (E1 & E2 & E3 & E4 & E5 & E6 & AB & CD) M A E tx ty.
  assert (fin : forall x0 x1 y0 y1, v' = @mkView RNaN w h x0 x1 y0 y1 ->
    x0 = Some (a + tx) -> x1 = Some (b + tx) -> y0 = Some (c + ty) -> y1 = Some (d + ty) ->
    shows v' w h (a + tx) (b + tx) (c + ty) (d + ty)).
  { intros x0 x1 y0 y1 -> -> -> -> ->. repeat split; lra. }
  destruct v as [w0 h0 x0 x1 y0 y1]. cbn in E1, E2, E3, E4, E5, E6. subst.
  destruct r; unfold moved in E.
  - injection E as <-. eapply fin; [reflexivity| | | |]; unfold tx, ty; apply (f_equal (@Some R)); cbn; lra.
  - rewrite (M eq_refl) in E. injection E as <-. eapply fin; reflexivity.
  - rewrite (A ltac:(discriminate)) in E. injection E as <-. eapply fin; reflexivity.
  - rewrite (A ltac:(discriminate)) in E. injection E as <-. eapply fin; [reflexivity|reflexivity|reflexivity| |]; unfold ty; cbn [set_x ymin ymax]; apply (f_equal (@Some R)); lra.
  - rewrite (A ltac:(discriminate)) in E. injection E as <-. eapply fin; [reflexivity| | |reflexivity|reflexivity]; unfold tx; cbn [set_y xmin xmax]; apply (f_equal (@Some R)); lra.
Qed.

(** A frame bound to a body without a body: undefined behaviour. *)
Theorem C93_no_body_refuted : forall r (marker : option R * option R) (v : rview), r = RefB \/ r = RefX \/ r = RefY -> @moved RNaN r marker None v = None.
Proof. intros r marker v [->|[->| ->]]; reflexivity. Qed.

(** * Examples *)

(** 4 by 2 with a width of 100: 50 pixels high; the right border is computed from
    a size of 200 by 100. *)
Example C40_ex :
  unknown H (@mkView RNaN 100 0 (Some 4) (Some 0) (Some 0) (Some 2)) /\
  even_pixels 50 (100 * ((2 - 0) / (4 - 0))) /\
  unknown Xmax (@mkView RNaN 200 100 (Some 1) None (Some 0) (Some 2)) /\
  to_scale 200 100 1 5 0 2 /\
  ~ too_long Xmax (@mkView RNaN 200 100 (Some 1) None (Some 0) (Some 2)) 256 640.
Proof.
  split; [|split; [|split; [|split]]].
  - left. intros []; cbn; split; intros M; try discriminate M; try reflexivity;
      destruct M as (c & E1 & E2); injection E1 as E1; injection E2 as E2; lra.
  - split; [reflexivity|]. lra.
  - left. intros []; cbn; split; intros M; try discriminate M; try reflexivity;
      destruct M as (c & E1 & E2); try discriminate E2; injection E1 as E1; injection E2 as E2; lra.
  - unfold to_scale. lra.
  - intros (r & -> & T). cbn [width height] in T.
    change (2 ^ 31)%Z with 2147483648%Z in T. change (2147483648 - 1)%Z with 2147483647%Z in T.
    destruct T as [[T _]|[[T _]|[T|T]]]; [discriminate|discriminate|lra|lra].
Qed.

Example C92_ex : covers (@mkMesh RNaN (Some (1 / 2)) 8 4) 8 0 4 0 (9 / 5).
Proof.
  split; [reflexivity|]. exists (1 / 2). cbn [yres]. repeat split; lra.
Qed.

Example C93_ex : exists v', @moved RNaN RefX (Some 9, Some 9) (Some (Some 3, Some 5)) (@mkView RNaN 10 10 (Some 0) (Some 1) (Some 0) (Some 1)) = Some v' /\
  shows v' 10 10 (0 + 3) (1 + 3) 0 1.
Proof. eexists. split; [reflexivity|]. repeat split; lra. Qed.

Print Assumptions C40_complete.
Print Assumptions C40_error.
Print Assumptions C40_undefined.
Print Assumptions C40_empty_refuted.
Print Assumptions C40_double_refuted.
Print Assumptions C92_mesh.
Print Assumptions C93_moved.
Print Assumptions C93_no_body_refuted.
