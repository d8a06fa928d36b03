(** C80 to C82: spacing, number of corners and areas of the generated bodies. *)

From Coq Require Import ZArith Bool List String Reals Ratan Lia Lra Psatz.
From Flocq Require Import Core.Core.
From Verif.Base Require Import Num.
From Verif.Body Require Import Model Spec.
From Verif.Gen Require Import Model Spec ProofsCurve ProofsTable ProofsShapes ProofsBodies Properties.
Import ListNotations.
Local Open Scope R_scope.

(** * C80: even spacing *)

Definition round (p : piece RNum) : Prop := match p with Seg _ _ _ _ => True | Arc _ r _ _ _ _ | ArcN _ r _ _ _ _ => 0 <= r end.

(** A closed curve whose pieces are not shorter than half their spacing: the
    edges of the polygon are, in this order, those of the polygons inscribed
    in the pieces. *)
Theorem C80_polygon (l : list (piece RNum)) r : closed l -> make Rlib l = Ok r ->
  Forall (fun p => by_step p /\ 0 < step p /\ round p /\ step p / 2 <= len p) l ->
  exists ns, Forall2 (fun p n => nearest (len p / step p) (Z.of_nat n) /\ (0 < n)%nat) l ns /\
    edges (points r) = List.concat (map (fun pn => cuts (fst pn) (snd pn)) (combine l ns)) /\
    Forall2 (fun p n => forall e, In e (cuts p n) -> dist (fst e) (snd e) <= len p / INR n < 3 / 2 * step p) l ns.
Proof.
  intros C M F. destruct (make_counts l r M) as (ns & _ & P & L & H).
  assert (N : Forall (fun n => (0 < n)%nat) ns).
  { apply (long_counts l ns); [|exact H]. revert F. apply Forall_impl. intros p (B & S & _ & G). auto. }
  exists ns. split; [|split].
  - clear P L M C. induction H as [|p n l ns Cp H IH]; [constructor|]. inversion F as [|? ? (B & S & _ & G) Fl]; subst. inversion N; subst.
    constructor; [|apply IH; assumption]. split; [|assumption]. apply count_nearest; assumption.
  - rewrite P. apply polygon; assumption.
  - clear P L M C. induction H as [|p n l ns Cp H IH]; [constructor|]. inversion F as [|? ? (B & S & Q & G) Fl]; subst. inversion N; subst.
    constructor; [|apply IH; assumption]. intros e I. destruct (even p n B S Cp) as [_ E]. specialize (E ltac:(assumption)).
    split; [|lra]. apply cut_le; assumption.
Qed.

(** What N and dl mean for a curve of the length [s]. *)
Definition spaced (t : table RNum) (s d : R) : Prop :=
  (exists n z, given t "N" n /\ whole n z /\ (1 <= z)%Z /\ d = s / IZR z) \/ given t "dl" d.

Lemma spaced_real (t : rtable) n d z s : n_or_dl Rlib t n d -> to_i64 Rlib n = Some z -> 0 < s ->
  spaced t s (spacing (K:=RNum) d s z) /\ 0 < spacing (K:=RNum) d s z /\
  (forall v, given t "N" v -> whole v z /\ s = IZR z * spacing (K:=RNum) d s z).
Proof.
  intros N Z S. pose proof (n_dl_real t n d z N Z) as W. cbv zeta in W. unfold spacing. change (@neqb RNum d _) with (Reqb d 0).
  unfold Reqb. change (zn (K:=RNum) z) with (IZR z).
  destruct W as [(Gn & Ad & -> & Pz & Wn)|(An & Gd & Pd & Ez)].
  - destruct (Req_EM_T 0 0) as [_|X]; [|destruct X; reflexivity]. assert (1 <= IZR z) by (apply IZR_le; exact Pz).
    change (@ndiv RNum s (IZR z)) with (s / IZR z). split; [|split].
    + left. exists n, z. auto.
    + apply Rdiv_lt_0_compat; lra.
    + intros v G. assert (v = n) by (unfold given in *; congruence). subst v. split; [exact Wn|field; lra].
  - destruct (Req_EM_T d 0) as [X|_]; [lra|]. split; [right; exact Gd|]. split; [exact Pd|].
    intros v G. unfold given, absent in *. congruence.
Qed.

Lemma para_angle (t : rtable) a : in_range t "d" (dblmin Rlib) (nofZ 180 * (nofZ 1 - dbleps Rlib))%num a -> given t "d" a /\ 0 < a < 180.
Proof.
  intros (G & _ & L & U). split; [exact G|]. cbn [nltb RNum Rlib dblmin nofZ nmul nsub dbleps] in L, U. apply Rltb_false in L. apply Rltb_false in U.
  pose proof (bpow_gt_0 radix2 (-1022)). pose proof (bpow_gt_0 radix2 (-52)). lra.
Qed.

Lemma para_list z d L H a : 0 < L -> 0 < H -> 0 < a < 180 ->
  let al := a / 180 * PI in let c := H * cos al / sin al in let dl := spacing (K:=RNum) d (2 * (L + H / sin al)) z in
  parallelogram_pieces Rlib z d L H a =
  [Seg (P L 0) (P 0 0) dl false; Seg (P 0 0) (P c H) dl false; Seg (P c H) (P (L + c) H) dl false; Seg (P (L + c) H) (P L 0) dl false].
Proof.
  intros PL PH A al c dl. pose proof (para_sin a A) as S. unfold parallelogram_pieces. cbv zeta. rn. fold al. fold al in S.
  rewrite (tan_len H al PH ltac:(lra)). reflexivity.
Qed.

(** The parallelogram with the vertices (L, 0), (0, 0), (H cot a, H), (L + H cot a, H). *)
Theorem C80_parallelogram (t : table RNum) l : gen_parallelogram Rlib t = Ok l -> ~ absent t "d" -> exists L H a d,
  given t "L" L /\ given t "H" H /\ given t "d" a /\ 0 < L /\ 0 < H /\ 0 < a < 180 /\ 0 < d /\
  let al := a / 180 * PI in let c := H * cos al / sin al in let h := H / sin al in
  spaced t (2 * (L + h)) d /\
  let s1 := Seg (K:=RNum) (P L 0) (P 0 0) d false in let s2 := Seg (K:=RNum) (P 0 0) (P c H) d false in
  let s3 := Seg (K:=RNum) (P c H) (P (L + c) H) d false in let s4 := Seg (K:=RNum) (P (L + c) H) (P L 0) d false in
  (d / 2 <= L -> d / 2 <= h -> exists n m, nearest (L / d) (Z.of_nat n) /\ nearest (h / d) (Z.of_nat m) /\ (0 < n)%nat /\ (0 < m)%nat /\
    edges (points l) = cuts s1 n ++ cuts s2 m ++ cuts s3 n ++ cuts s4 m /\
    forall e, In e (edges (points l)) -> dist (fst e) (snd e) < 3 / 2 * d).
Proof.
  intros E Ad. apply (parallelogram_ok Rlib good_R) in E. destruct E as (n & d & z & L & H & a & N & Z & P1 & P2 & A & _ & M).
  destruct A as [A|[A _]]; [|contradiction]. apply para_angle in A as [Ga A].
  apply pos_real in P1 as [GL PL]. apply pos_real in P2 as [GH PH]. pose proof (para_sin a A) as S.
  pose proof (para_list z d L H a PL PH A) as X. cbv zeta in X.
  set (al := a / 180 * PI) in *. assert (Ph : 0 < H / sin al) by (apply Rdiv_lt_0_compat; assumption).
  destruct (spaced_real t n d z (2 * (L + H / sin al)) N Z ltac:(lra)) as (W & Pd & _).
  set (dl := spacing d (2 * (L + H / sin al)) z) in *. exists L, H, a, dl.
  do 7 (split; [assumption|]). cbv zeta. fold al. split; [exact W|]. intros B1 B2.
  pose proof (para_len z d L H a PL PH A) as Le. fold al in Le.
  destruct (C80_polygon (parallelogram_pieces Rlib z d L H a) l) as (ns & Fn & Ee & Fd).
  - apply parallelogram_closed.
  - exact M.
  - rewrite X in *. cbn [map] in Le. injection Le as L1 L2 L3 L4. repeat (apply Forall_cons; [split; [exact I|split; [exact Pd|split; [exact I|cbn [step len]; (rewrite L1 || rewrite L2 || rewrite L3 || rewrite L4); assumption]]]|]). apply Forall_nil.
  - rewrite X in *. cbn [map] in Le. injection Le as L1 L2 L3 L4.
    inversion Fn as [|? n1 ? ns1 [C1 Q1] F1]; subst. inversion F1 as [|? n2 ? ns2 [C2 Q2] F2]; subst.
    inversion F2 as [|? n3 ? ns3 [C3 Q3] F3]; subst. inversion F3 as [|? n4 ? ns4 [C4 Q4] F4]; subst. inversion F4; subst.
    cbn [step len] in C1, C2, C3, C4. rewrite L1 in C1. rewrite L2 in C2. rewrite L3 in C3. rewrite L4 in C4.
    assert (U : forall v x y, nearest v (Z.of_nat x) -> nearest v (Z.of_nat y) -> x = y).
    { intros v x y [Hx Hx'] [Hy Hy']. apply Nat2Z.inj. apply Z.le_antisymm; apply Z.lt_succ_r; apply lt_IZR; rewrite succ_IZR; lra. }
    assert (n3 = n1) by exact (U _ _ _ C3 C1). assert (n4 = n2) by exact (U _ _ _ C4 C2). subst n3 n4.
    exists n1, n2. do 4 (split; [assumption|]). cbn [combine map List.concat fst snd] in Ee. rewrite app_nil_r in Ee. split; [exact Ee|].
    intros e I. rewrite Ee in I. inversion Fd as [|? ? ? ? D1 G1]; subst. inversion G1 as [|? ? ? ? D2 G2]; subst.
    inversion G2 as [|? ? ? ? D3 G3]; subst. inversion G3 as [|? ? ? ? D4 _]; subst. cbn [step] in D1, D2, D3, D4.
    rewrite !in_app_iff in I. destruct I as [I|[I|[I|I]]]; [apply D1 in I|apply D2 in I|apply D3 in I|apply D4 in I]; lra.
Qed.

(** An example of a table; corners, in full. *)
Definition flat : rtable := [(Name "N", Some 4); (Name "L", Some 100); (Name "H", Some 1); (Name "d", Some 90)].

Lemma right_angle : 90 / 180 * PI = PI / 2.
Proof. field. Qed.

Lemma near (v : R) n : INR n - 1 / 2 <= v < INR n + 1 / 2 -> nearest v (Z.of_nat n).
Proof. unfold nearest. rewrite <- INR_IZR_INZ. auto. Qed.

(** A parallelogram with a right angle. *)
Lemma right_parallelogram (t : rtable) z (L H : R) n m : n_or_dl Rlib t (IZR z) 0 -> to_i64 Rlib (IZR z) = Some z -> (1 <= z)%Z ->
  pos Rlib t "L" L -> pos Rlib t "H" H -> given t "d" 90 -> only t ["N"; "dl"; "L"; "H"; "d"]%string ->
  let d := 2 * (L + H) / IZR z in nearest (L / d) (Z.of_nat n) -> nearest (H / d) (Z.of_nat m) ->
  (n < 100)%nat -> (m < 100)%nat ->
  exists l, gen_parallelogram Rlib t = Ok l /\
    points l = corner_row (Seg (P L 0) (P 0 0) d false) n ++ corner_row (Seg (P 0 0) (P 0 H) d false) m ++
               corner_row (Seg (P 0 H) (P L H) d false) n ++ corner_row (Seg (P L H) (P L 0) d false) m.
Proof.
  intros N Z Pz P1 P2 Gd O d C1 C2 B1 B2. pose proof (pos_real _ _ _ P1) as [_ PL]. pose proof (pos_real _ _ _ P2) as [_ PH].
  pose proof (para_list z 0 L H 90 PL PH ltac:(lra)) as X. cbv zeta in X. rewrite right_angle, sin_PI2, cos_PI2 in X.
  replace (H * 0 / 1) with 0 in X by field. replace (H / 1) with H in X by field. replace (L + 0) with L in X by ring.
  unfold spacing in X. change (@neqb RNum 0 _) with (Reqb 0 0) in X. unfold Reqb in X. destruct (Req_EM_T 0 0) as [_|Q]; [|destruct Q; reflexivity].
  change (zn (K:=RNum) z) with (IZR z) in X. change (@ndiv RNum) with Rdiv in X. fold d in X.
  assert (F : Forall2 (fun p n => count Rlib p = Some n) (parallelogram_pieces Rlib z 0 L H 90) [n; m; n; m]).
  { rewrite X. repeat apply Forall2_cons; try apply Forall2_nil; match goal with |- count Rlib ?p = Some ?k => rewrite (count_of p (Z.of_nat k)); [f_equal; lia|exact I| |lia] end; cbn [len step].
    - rewrite dist_sym, dist_level by lra. rewrite Rminus_0_r. exact C1.
    - replace (dist (P 0 0) (P 0 H)) with H; [exact C2|]. symmetry. apply dist_sqr; [lra|]. rewrite !px_P, !py_P. ring.
    - rewrite dist_level by lra. rewrite Rminus_0_r. exact C1.
    - replace (dist (P L H) (P L 0)) with H; [exact C2|]. symmetry. apply dist_sqr; [lra|]. rewrite !px_P, !py_P. ring. }
  destruct (make_of _ _ F) as [l M]. exists l. split.
  - apply (parallelogram_ok Rlib good_R). exists (IZR z), 0, z, L, H, 90. split; [exact N|]. split; [exact Z|]. split; [exact P1|]. split; [exact P2|].
    split; [|split; [exact O|exact M]]. left. split; [exact Gd|]. split; [reflexivity|]. cbn [nltb RNum Rlib dblmin nofZ nmul nsub dbleps]. split; apply Rltb_false.
    + apply Rle_trans with (bpow radix2 0); [apply bpow_le; lia|]. simpl. lra.
    + apply Rle_trans with (180 * (1 - bpow radix2 (-1))); [simpl; lra|].
      apply Rmult_le_compat_l; [lra|]. apply Rplus_le_compat_l, Ropp_le_contravar. apply bpow_le. lia.
  - destruct (make_counts _ _ M) as (ns & _ & Ep & _ & F').
    assert (Ens : ns = [n; m; n; m]).
    { clear - F F'. revert ns F'. induction F as [|p k l ks Ck F IH]; intros ns F'; inversion F'; subst; [reflexivity|].
      f_equal; [congruence|]. apply IH. assumption. }
    rewrite Ens in Ep. rewrite X in Ep. cbn [combine map List.concat fst snd] in Ep. rewrite app_nil_r in Ep. exact Ep.
Qed.

Lemma row1 p : corner_row p 1 = [along p 0].
Proof. unfold corner_row. cbn [seq map INR]. replace (0 / 1) with 0 by field. reflexivity. Qed.
Lemma row2 p : corner_row p 2 = [along p 0; along p (1 / 2)].
Proof. unfold corner_row. cbn [seq map INR]. replace (0 / (1 + 1)) with 0 by field. replace (1 / (1 + 1)) with (1 / 2) by field. reflexivity. Qed.

Ltac in_table := let k := fresh in let v := fresh in let I := fresh in intros k v I; cbn [In] in I; repeat (destruct I as [I|I]; [injection I as <- <-; eexists; split; [|reflexivity]; cbn; auto 10|]); destruct I.

Lemma flat_points : exists l, gen_parallelogram Rlib flat = Ok l /\ points l = [P 100 0; P 50 0; P 0 1; P 50 1].
Proof.
  destruct (real_n flat 4 eq_refl ltac:(lia) eq_refl) as [N Z].
  destruct (right_parallelogram flat 4 100 1 2 0 N Z ltac:(lia)) as (l & E & Ep); try lia; try reflexivity.
  - apply real_range; [reflexivity|lra].
  - apply real_range; [reflexivity|lra].
  - in_table.
  - apply near. cbn [INR]. lra.
  - apply near. cbn [INR]. lra.
  - exists l. split; [exact E|]. rewrite Ep. rewrite !row2. cbn [corner_row seq map app along]. rewrite !px_P, !py_P.
    repeat (apply f_equal2; [apply f_equal2; lra|]). reflexivity.
Qed.

(** A side shorter than half of the spacing gets no corner, and the vertex where it
    begins is lost: of the rectangle 100 x 1 with 4 corners two vertices are not there. *)
Theorem C80_lost_refuted : exists t l, gen_parallelogram Rlib t = Ok l /\ given t "L" 100 /\ given t "H" 1 /\ given t "d" 90 /\ given t "N" 4 /\
  ~ In (P 0 0) (points l) /\ ~ In (P 100 1) (points l).
Proof.
  destruct flat_points as (l & E & Ep). exists flat, l. split; [exact E|]. do 4 (split; [reflexivity|]). rewrite Ep.
  split; cbn [In]; intros [X|[X|[X|[X|[]]]]]; apply (f_equal px) in X as Y; apply (f_equal py) in X; rewrite !px_P in Y; rewrite !py_P in X; lra.
Qed.

(** Where nothing is lost: the unit square with N = 8. *)
Definition unit_square (n : R) : rtable := [(Name "N", Some n); (Name "L", Some 1); (Name "H", Some 1); (Name "d", Some 90)].
Lemma unit_points z k : (1 <= z <= 100)%Z -> (k < 100)%nat -> nearest (IZR z / 4) (Z.of_nat k) -> exists l, gen_parallelogram Rlib (unit_square (IZR z)) = Ok l /\ let d := 4 / IZR z in
  points l = corner_row (Seg (P 1 0) (P 0 0) d false) k ++ corner_row (Seg (P 0 0) (P 0 1) d false) k ++
             corner_row (Seg (P 0 1) (P 1 1) d false) k ++ corner_row (Seg (P 1 1) (P 1 0) d false) k.
Proof.
  intros B Kb Nk. assert (1 <= IZR z) by (apply IZR_le; lia). destruct (real_n (unit_square (IZR z)) z eq_refl ltac:(lia) eq_refl) as [N Z].
  assert (Ed : 2 * (1 + 1) / IZR z = 4 / IZR z) by (f_equal; ring). assert (Eq : 1 / (4 / IZR z) = IZR z / 4) by (field; lra).
  destruct (right_parallelogram (unit_square (IZR z)) z 1 1 k k N Z ltac:(lia)) as (l & E & Ep); try lia; try reflexivity.
  - apply real_range; [reflexivity|lra].
  - apply real_range; [reflexivity|lra].
  - in_table.
  - rewrite Ed, Eq. exact Nk.
  - rewrite Ed, Eq. exact Nk.
  - exists l. split; [exact E|]. cbv zeta. rewrite Ed in Ep. exact Ep.
Qed.

Example C80_ex : exists l, gen_parallelogram Rlib (unit_square 8) = Ok l /\
  points l = [P 1 0; P (1/2) 0; P 0 0; P 0 (1/2); P 0 1; P (1/2) 1; P 1 1; P 1 (1/2)].
Proof.
  destruct (unit_points 8 2) as (l & E & Ep); [lia|lia|apply near; cbn [INR]; lra|]. exists l. split; [exact E|]. cbv zeta in Ep. rewrite Ep, !row2.
  cbn [app along]. rewrite !px_P, !py_P. repeat (apply f_equal2; [apply f_equal2; lra|]). reflexivity.
Qed.

Print Assumptions C80_polygon.
Print Assumptions C80_parallelogram.
Print Assumptions C80_lost_refuted.

(** * C81: the number of corners *)

Lemma whole_eq v z z' : whole v z -> whole v z' -> z = z'.
Proof. unfold whole. intros [A B] [C D]. apply Z.le_antisymm; apply Z.lt_succ_r; apply lt_IZR; rewrite succ_IZR; lra. Qed.

Lemma total_lens (l : list (piece RNum)) ls : map len l = ls -> total len l = total (fun v => v) ls.
Proof. intros <-. rewrite total_map. reflexivity. Qed.

(** When N is given the number of corners differs from it by at most half
    a corner for every piece of the curve. *)
Theorem C81_semicyl_partial (t : table RNum) l v z : gen_semicyl Rlib t = Ok l -> given t "N" v -> whole v z ->
  Rabs (INR (List.length l) - IZR z) <= 3 / 2.
Proof.
  intros E G W. apply (semicyl_ok Rlib good_R) in E. destruct E as (n & d & z' & R & N & Z & P1 & _ & M). apply pos_real in P1 as [_ PR].
  pose proof PI_RGT_0. assert (S : 0 < PI * R + 2 * R) by nra.
  destruct (spaced_real t n d z' (PI * R + 2 * R) N Z S) as (_ & Pd & X). destruct (X v G) as [W' E'].
  pose proof (whole_eq _ _ _ W W') as Ez. subst z'.
  pose proof (semi_len z d R PR) as Le. set (dl := spacing d (PI * R + 2 * R) z) in *.
  pose proof (total_bound (semicyl_pieces Rlib z d R) dl (IZR z) l Pd) as B. replace (3 / 2) with (INR 3 / 2) by (cbn [INR]; field).
  apply B; [repeat constructor| |exact M].
  rewrite (total_lens _ _ Le), <- E'. cbn [total fold_right]. rn. ring.
Qed.

Theorem C81_parallelogram_partial (t : table RNum) l v z : gen_parallelogram Rlib t = Ok l -> ~ absent t "d" -> given t "N" v -> whole v z ->
  Rabs (INR (List.length l) - IZR z) <= 2.
Proof.
  intros E Ad G W. apply (parallelogram_ok Rlib good_R) in E. destruct E as (n & d & z' & L & H & a & N & Z & P1 & P2 & A & _ & M).
  destruct A as [A|[A _]]; [|contradiction]. apply para_angle in A as [Ga A].
  apply pos_real in P1 as [GL PL]. apply pos_real in P2 as [GH PH]. pose proof (para_sin a A) as S.
  pose proof (para_list z' d L H a PL PH A) as X. pose proof (para_len z' d L H a PL PH A) as Le. cbv zeta in X.
  set (al := a / 180 * PI) in *. assert (Ph : 0 < H / sin al) by (apply Rdiv_lt_0_compat; assumption).
  destruct (spaced_real t n d z' (2 * (L + H / sin al)) N Z ltac:(lra)) as (_ & Pd & Y). destruct (Y v G) as [W' E'].
  pose proof (whole_eq _ _ _ W W') as Ez. subst z'. set (dl := spacing d (2 * (L + H / sin al)) z) in *.
  pose proof (total_bound (parallelogram_pieces Rlib z d L H a) dl (IZR z) l Pd) as B. replace 2 with (INR 4 / 2) by (cbn [INR]; field).
  apply B; [rewrite X; repeat constructor| |exact M].
  rewrite (total_lens _ _ Le), <- E'. cbn [total fold_right]. rn. ring.
Qed.

Theorem C81_savonius_partial (t : table RNum) l v z : gen_savonius Rlib t = Ok l -> given t "N" v -> whole v z ->
  Rabs (INR (List.length l) - IZR z) <= 3.
Proof.
  intros E G W. apply (savonius_ok Rlib good_R) in E. destruct E as (n & d & z' & R & h & N & Z & P1 & P2 & C & _ & M).
  apply pos_real in P1 as [_ PR]. apply pos_real in P2 as [_ Ph]. change (@nltb RNum) with Rltb in C. apply Rltb_true in C.
  pose proof PI_RGT_0. pose proof (n_dl_real t n d z' N Z) as Y. cbv zeta in Y.
  destruct Y as [(Gn & Ad & -> & Pz & Wn)|(An & _)]; [|unfold given, absent in *; congruence].
  assert (v = n) by (unfold given in *; congruence). subst v. pose proof (whole_eq _ _ _ W Wn) as Ez. subst z'.
  assert (1 <= IZR z) by (apply IZR_le; exact Pz). pose proof (savonius_len z 0 R h (conj Ph C)) as Le.
  set (dl := PI * (4 * R + h) / IZR z). assert (Pd : 0 < dl) by (apply Rdiv_lt_0_compat; [apply Rmult_lt_0_compat; lra|lra]).
  assert (F : Forall (fun p => by_step p /\ step p = dl) (savonius_pieces Rlib z 0 R h)).
  { unfold savonius_pieces. replace (0 <? z)%Z with true by (symmetry; apply Z.ltb_lt; lia). cbv zeta. repeat constructor. }
  pose proof (total_bound (savonius_pieces Rlib z 0 R h) dl (IZR z) l Pd F) as B. replace 3 with (INR 6 / 2) by (cbn [INR]; field).
  apply B; [|exact M].
  rewrite (total_lens _ _ Le). cbn [total fold_right]. replace (IZR z * dl) with (PI * (4 * R + h)) by (unfold dl; field; lra). rn. field.
Qed.

(** A whole plate: start = 0, stop = 1. *)
Theorem C81_plate_partial (t : table RNum) l v z R1 R2 L : gen_plate Rlib t = Ok l -> absent t "start" -> absent t "stop" ->
  given t "R1" R1 -> given t "R2" R2 -> given t "L" L -> Rabs (R2 - R1) <= L -> given t "N" v -> whole v z ->
  Rabs (INR (List.length l) - IZR z) <= 3.
Proof.
  intros E As Ae G1 G2 GL D G W. apply (plate_ok Rlib good_R) in E.
  destruct E as (n & d & z' & R1' & R2' & L' & st & sp & gap & N & Z & Q1 & Q2 & C & PL & Is & Ie & Ig & _ & M).
  apply pos_real in PL as [GL' PL]. destruct Q1 as (G1' & _ & B1 & _). destruct Q2 as (G2' & _ & B2 & _).
  assert (R1' = R1) by (unfold given in *; congruence). assert (R2' = R2) by (unfold given in *; congruence). assert (L' = L) by (unfold given in *; congruence).
  subst R1' R2' L'. destruct Is as [(Gs & _)|[_ ->]]; [unfold given, absent in *; congruence|].
  destruct Ie as [(Ge & _)|[_ ->]]; [unfold given, absent in *; congruence|].
  change (@nltb RNum) with Rltb in *. change (@nofZ RNum) with IZR in *. apply Rltb_false in B1. apply Rltb_false in B2.
  pose proof (plate_len z' d R1 R2 L gap B1 B2 PL D) as Le. cbv zeta in Le.
  set (al := asin ((R2 - R1) / L)) in *. pose proof (asin_bound ((R2 - R1) / L)) as Ba. fold al in Ba. pose proof PI_RGT_0.
  assert (Ca : 0 <= cos al) by (apply cos_ge_0; lra).
  assert (Bs : -1 <= (R2 - R1) / L <= 1).
  { apply Rabs_le_inv. unfold Rdiv. rewrite Rabs_mult, (Rabs_pos_eq (/ L)) by (left; apply Rinv_0_lt_compat, PL).
    apply (Rmult_le_reg_r L); [exact PL|]. rewrite Rmult_assoc, Rinv_l by lra. lra. }
  assert (Sa : sin al = (R2 - R1) / L) by (apply sin_asin; exact Bs).
  set (len2 := 2 * ((PI - (PI / 2 + al)) * R1 + (PI / 2 + al) * R2 + L * cos al)).
  assert (S : 0 < len2).
  { unfold len2. assert (0 <= (PI - (PI / 2 + al)) * R1) by (apply Rmult_le_pos; lra).
    assert (0 <= (PI / 2 + al) * R2) by (apply Rmult_le_pos; lra). assert (0 <= L * cos al) by (apply Rmult_le_pos; lra).
    destruct (Req_dec (cos al) 0) as [K|K].
    - pose proof (sin2_cos2 al) as U. rewrite K in U. unfold Rsqr in U.
      assert (S1 : (sin al - 1) * (sin al + 1) = 0) by lra. apply Rmult_integral in S1.
      assert (ER : R2 - R1 = L * sin al) by (rewrite Sa; field; lra).
      destruct S1 as [S1|S1].
      + assert (sin al = sin (PI / 2)) by (rewrite sin_PI2; lra). assert (Ea : al = PI / 2) by (apply sin_inj; lra).
        assert (S2 : sin al = 1) by lra. rewrite S2 in ER. assert (0 < (PI / 2 + al) * R2) by (rewrite Ea; apply Rmult_lt_0_compat; lra). lra.
      + assert (sin al = sin (- (PI / 2))) by (rewrite sin_neg, sin_PI2; lra). assert (Ea : al = - (PI / 2)) by (apply sin_inj; lra).
        assert (S2 : sin al = -1) by lra. rewrite S2 in ER. assert (0 < (PI - (PI / 2 + al)) * R1) by (rewrite Ea; apply Rmult_lt_0_compat; lra). lra.
    - assert (0 < L * cos al) by (apply Rmult_lt_0_compat; lra). lra. }
  destruct (spaced_real t n d z' len2 N Z S) as (_ & Pd & Y). destruct (Y v G) as [W' E'].
  pose proof (whole_eq _ _ _ W W') as Ez. subst z'. set (dl := spacing d len2 z) in *.
  assert (F : Forall (fun p => by_step p /\ step p = dl) (plate_pieces Rlib z d R1 R2 L 0 1 gap)).
  { unfold plate_pieces. cbv zeta. change (@neqb RNum 1 (nofZ 1)) with (Reqb 1 1). unfold Reqb. destruct (Req_EM_T 1 1) as [_|X]; [|destruct X; reflexivity].
    repeat constructor. }
  assert (L6 : List.length (plate_pieces Rlib z d R1 R2 L 0 1 gap) = 6%nat) by (rewrite <- (map_length len), Le; reflexivity).
  pose proof (total_bound _ dl (IZR z) l Pd F) as B. rewrite L6 in B. replace 3 with (INR 6 / 2) by (cbn [INR]; field).
  apply B; [|exact M].
  rewrite (total_lens _ _ Le), <- E'. unfold len2. cbn [total fold_right]. rn. ring.
Qed.

(** The number asked for is not always met: the unit square with N = 5 has 4 corners. *)
Theorem C81_exact_refuted : exists (t : table RNum) l, given t "N" 5 /\ gen_parallelogram Rlib t = Ok l /\ List.length l = 4%nat.
Proof.
  destruct (unit_points 5 1) as (l & E & Ep); [lia|lia|apply near; cbn [INR]; lra|]. exists (unit_square 5), l. split; [reflexivity|]. split; [exact E|].
  cbv zeta in Ep. rewrite <- (map_length fst l). change (map fst l) with (points l). rewrite Ep, !row1. reflexivity.
Qed.

Print Assumptions C81_semicyl_partial.
Print Assumptions C81_parallelogram_partial.
Print Assumptions C81_savonius_partial.
Print Assumptions C81_plate_partial.
Print Assumptions C81_exact_refuted.

(** * C82: areas *)

Lemma spaced_eq (t : rtable) n d0 z s d : n_or_dl Rlib t n d0 -> to_i64 Rlib n = Some z -> 0 < s -> spaced t s d -> spacing (K:=RNum) d0 s z = d.
Proof.
  intros N Z S Wd. destruct (spaced_real t n d0 z s N Z S) as (_ & _ & Y).
  pose proof (n_dl_real t n d0 z N Z) as V. cbv zeta in V. destruct Wd as [(n1 & z1 & G1 & W1 & Pz & E1)|G1].
  - destruct (Y n1 G1) as [W1' E1']. rewrite (whole_eq _ _ _ W1 W1') in *. rewrite E1. set (q := spacing d0 s z) in *. rewrite E1'.
    assert (1 <= IZR z) by (apply IZR_le; exact Pz). clear Y; clearbody q. revert q E1'. change (T RNum) with R. intros q _. field. lra.
  - destruct V as [(_ & Ad & _)|(_ & Gd & Pd' & _)]; [unfold given, absent in *; congruence|].
    assert (d0 = d) by (unfold given in *; congruence). subst d0. unfold spacing. change (@neqb RNum d _) with (Reqb d 0). unfold Reqb.
    destruct (Req_EM_T d 0) as [Q|_]; [rewrite Q in Pd'; lra|reflexivity].
Qed.

(** A parallelogram none of whose sides is shorter than half the spacing has the area L H. *)
Theorem C82_parallelogram_partial (t : table RNum) l L H a d : gen_parallelogram Rlib t = Ok l ->
  given t "L" L -> given t "H" H -> given t "d" a -> spaced t (2 * (L + H / sin (a / 180 * PI))) d ->
  d / 2 <= L -> d / 2 <= H / sin (a / 180 * PI) -> area (finish Rlib l) = L * H.
Proof.
  intros E GL GH Ga Wd B1 B2. apply (parallelogram_ok Rlib good_R) in E. destruct E as (n & d0 & z & L' & H' & a' & N & Z & P1 & P2 & A & _ & M).
  destruct A as [A|[A _]]; [|unfold given, absent in *; congruence]. apply para_angle in A as [Ga' A].
  apply pos_real in P1 as [GL' PL]. apply pos_real in P2 as [GH' PH].
  assert (L' = L) by (unfold given in *; congruence). assert (H' = H) by (unfold given in *; congruence). assert (a' = a) by (unfold given in *; congruence).
  subst L' H' a'. pose proof (para_sin a A) as S.
  pose proof (para_list z d0 L H a PL PH A) as X. pose proof (para_len z d0 L H a PL PH A) as Le. cbv zeta in X.
  set (al := a / 180 * PI) in *. assert (Ph : 0 < H / sin al) by (apply Rdiv_lt_0_compat; assumption).
  destruct (spaced_real t n d0 z (2 * (L + H / sin al)) N Z ltac:(lra)) as (W & Pd & Y).
  assert (Ed : spacing (K:=RNum) d0 (2 * (L + H / sin al)) z = d) by (apply (spaced_eq t n); try assumption; lra).
  rewrite Ed in *. rewrite (proj1 (finish_area l)). destruct (make_counts _ _ M) as (ns & _ & Ep & Ln & F).
  rewrite Ep. apply para_area; try assumption.
  apply (long_counts (parallelogram_pieces Rlib z d0 L H a)); [|exact F].
  rewrite X in *. cbn [map len] in Le. injection Le as L1 L2 L3 L4.
  repeat (apply Forall_cons; [split; [exact I|split; [exact Pd|unfold long; cbn [step len]; (rewrite L1 || rewrite L2 || rewrite L3 || rewrite L4); assumption]]|]). apply Forall_nil.
Qed.

(** The area can be half of it. *)
Theorem C82_half_refuted : exists (t : table RNum) l, gen_parallelogram Rlib t = Ok l /\ given t "L" 100 /\ given t "H" 1 /\ given t "d" 90 /\ given t "N" 4 /\
  area (finish Rlib l) = 50.
Proof.
  destruct flat_points as (l & E & Ep). exists flat, l. split; [exact E|]. do 4 (split; [reflexivity|]).
  rewrite (proj1 (finish_area l)), Ep. unfold shoelace. cbn [edges chain app total fold_right fst snd]. rewrite !px_P, !py_P. lra.
Qed.

Lemma semi_spaced z d R : step (hd (Seg (K:=RNum) (P 0 0) (P 0 0) 0 false) (semicyl_pieces Rlib z d R)) = spacing (K:=RNum) d (PI * R + 2 * R) z.
Proof. reflexivity. Qed.

(** The half cylinder: a diameter and half of a regular polygon with [2 n] sides;
    the radius not less than half of the spacing. *)
Theorem C82_semicyl_partial (t : table RNum) l R d : gen_semicyl Rlib t = Ok l -> given t "R" R -> spaced t (PI * R + 2 * R) d -> d / 2 <= R ->
  exists n, (0 < n)%nat /\ nearest (PI * R / d) (Z.of_nat n) /\ area (finish Rlib l) = INR n / 2 * (R * R) * sin (PI / INR n).
Proof.
  intros E GR Wd B. apply (semicyl_ok Rlib good_R) in E. destruct E as (n & d0 & z & R' & N & Z & P1 & _ & M). apply pos_real in P1 as [GR' PR].
  assert (R' = R) by (unfold given in *; congruence). subst R'. pose proof PI_RGT_0. assert (S : 0 < PI * R + 2 * R) by nra.
  destruct (spaced_real t n d0 z (PI * R + 2 * R) N Z S) as (W & Pd & Y).
  assert (Ed : spacing (K:=RNum) d0 (PI * R + 2 * R) z = d) by (apply (spaced_eq t n); assumption).
  rewrite Ed in *. pose proof (semi_len z d0 R PR) as Le.
  destruct (make_counts _ _ M) as (ns & _ & Ep & Ln & F).
  assert (X : semicyl_pieces Rlib z d0 R = [Seg (P 0 0) (P R 0) d false; Arc (P 0 0) R (2 * PI) PI d false; Seg (P (- R) 0) (P 0 0) d false]).
  { rewrite <- Ed. reflexivity. }
  assert (Nn : Forall (fun n => (0 < n)%nat) ns).
  { apply (long_counts (semicyl_pieces Rlib z d0 R)); [|exact F]. rewrite X in *. cbn [map len] in Le. injection Le as L1 L2 L3. pose proof PI2_3_2.
    repeat (apply Forall_cons; [split; [exact I|split; [exact Pd|unfold long; cbn [step len]; (rewrite L1 || rewrite L2 || rewrite L3); nra]]|]). apply Forall_nil. }
  rewrite (proj1 (finish_area l)), Ep. rewrite X in F, Ln, Le. destruct ns as [|n1 [|n2 [|n3 [|? ?]]]]; try discriminate.
  inversion Nn as [|? ? N1 Nn']; subst. inversion Nn' as [|? ? N2 Nn'']; subst. inversion Nn'' as [|? ? N3 _]; subst.
  exists n2. split; [exact N2|]. split; [|apply semi_area; assumption].
  inversion F as [|? ? ? ? _ F']; subst. inversion F' as [|? ? ? ? C _]; subst. apply count_nearest in C; [|exact I].
  cbn [map] in Le. injection Le as _ L2 _. cbn [len step] in C. rewrite L2 in C. rewrite (Rmult_comm R PI) in C. exact C.
Qed.

Example C82_ex : exists l, gen_parallelogram Rlib (unit_square 8) = Ok l /\ area (finish Rlib l) = 1 * 1.
Proof.
  destruct C80_ex as (l & E & _). exists l. split; [exact E|]. apply (C82_parallelogram_partial (unit_square 8) l 1 1 90 (1 / 2) E); try reflexivity; try lra.
  - left. exists 8, 8%Z. split; [reflexivity|]. split; [unfold whole; lra|]. split; [lia|]. rewrite right_angle, sin_PI2. field.
  - rewrite right_angle, sin_PI2. lra.
Qed.

Print Assumptions C82_parallelogram_partial.
Print Assumptions C82_half_refuted.
Print Assumptions C82_semicyl_partial.
