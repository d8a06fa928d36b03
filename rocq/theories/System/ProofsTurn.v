(** The linear system after a quarter turn of the axes. *)

From Coq Require Import ZArith Bool List Reals Lra Lia Permutation FunctionalExtensionality.
From Verif.Base Require Import Num.
From Verif.Matrix Require Import Model.
From Verif.Body Require Import Model Spec.
From Verif.Flow Require Import Model.
From Verif.System Require Import Model Spec Proofs ProofsCollision ProofsWrite ProofsPhysics ProofsSolve ProofsXi ProofsLaws SpecTurn.
From Verif.Vortex Require Import ProofsKernel.
From Verif.Map Require Import SpecSimilar SpecTurn ProofsTurn.
Import ListNotations.
Local Open Scope R_scope.

(** ** The plan *)

Definition swap (c : comp) : comp := match c with CX => CY | CY => CX | CO => CO end.
Definition kind_qt (k : kind) : kind :=
  match k with Speed c => Speed (swap c) | Stop c => Stop (swap c) | Hooke c b => Hooke (swap c) b | Hydro c => Hydro (swap c) | Newton c => Newton (swap c) | _ => k end.
Definition twin (e e' : entry) : Prop := ekind e' = kind_qt (ekind e) /\ ebody e' = ebody e /\ eseg e' = eseg e.
Definition shape_qt (s : shape) : shape := mkShape (nseg s) (special s) (kutta s) (fun c => rigid s (swap c)).
Definition twins (l l' : list entry) : Prop := (forall e', In e' l' -> exists e, In e l /\ twin e e') /\ (forall e, In e l -> exists e', In e' l' /\ twin e e').

Lemma twins_app l l' m m' : twins l l' -> twins m m' -> twins (l ++ m) (l' ++ m').
Proof.
  intros [A B] [C D]. split; intros e He; apply in_app_iff in He; destruct He as [He|He].
  - destruct (A e He) as (e0 & H & T). exists e0. split; [apply in_or_app; left; exact H|exact T].
  - destruct (C e He) as (e0 & H & T). exists e0. split; [apply in_or_app; right; exact H|exact T].
  - destruct (B e He) as (e0 & H & T). exists e0. split; [apply in_or_app; left; exact H|exact T].
  - destruct (D e He) as (e0 & H & T). exists e0. split; [apply in_or_app; right; exact H|exact T].
Qed.
Lemma plan_segs_kind sp ku b l : forall row once e, In e (fst (plan_segs sp ku b l row once)) -> kind_qt (ekind e) = ekind e.
Proof.
  induction l as [|i l IH]; intros row once e; [intros []|]. cbn [plan_segs].
  destruct (negb _); [|destruct ku].
  - specialize (IH (Datatypes.S row) once). destruct (plan_segs _ _ _ _ _ _) as [m o]. cbn [fst] in *. intros [<-|H]; [reflexivity|apply IH, H].
  - specialize (IH (Datatypes.S row) once). destruct (plan_segs _ _ _ _ _ _) as [m o]. cbn [fst] in *. intros [<-|H]; [reflexivity|apply IH, H].
  - specialize (IH (Datatypes.S row) true). destruct (plan_segs _ _ _ _ _ _) as [m o]. cbn [fst] in *. intros [<-|H]; [destruct once; reflexivity|apply IH, H].
Qed.
Lemma plan_spring_null r b c : plan_spring r b c PNull = (if r then Speed c else Hooke c false, PNull).
Proof. unfold plan_spring. destruct r; reflexivity. Qed.

Lemma plan_body_qt b s row once : 
  match plan_body b s row once PNull, plan_body b (shape_qt s) row once PNull with
  | Some (es, o, p), Some (es', o', p') => o' = o /\ p = PNull /\ p' = PNull /\ twins es es'
  | None, None => True
  | _, _ => False
  end.
Proof.
  unfold plan_body. cbn [shape_qt nseg special kutta rigid]. destruct (Nat.leb _ _); [exact I|].
  pose proof (plan_segs_kind (special s) (kutta s) b (seq 0 (nseg s)) row once) as K.
  destruct (plan_segs _ _ _ _ _ _) as [l o]. cbn [fst] in K. rewrite !plan_spring_null. split; [reflexivity|]. split; [reflexivity|]. split; [reflexivity|].
  - apply (twins_app l l).
    + split; intros e He; exists e; (split; [exact He|]); (split; [symmetry; apply K, He|split; reflexivity]).
    + cbn [swap]. split; intros e He; cbn [In] in He.
      * destruct He as [<-|[<-|[<-|[<-|[<-|[<-|[<-|[<-|[<-|[]]]]]]]]]].
        all: match goal with
             | |- exists e, In e (?a :: ?b :: ?d :: _) /\ twin e (mkEntry _ (if rigid _ CY then _ else _) _ _) => exists b
             | |- exists e, In e (?a :: ?b :: ?d :: _) /\ twin e (mkEntry _ (if rigid _ CX then _ else _) _ _) => exists a
             | |- exists e, In e (?a :: ?b :: ?d :: _) /\ twin e (mkEntry _ (if rigid _ CO then _ else _) _ _) => exists d
             | |- exists e, In e (_ :: _ :: _ :: ?a :: ?b :: ?d :: _) /\ twin e (mkEntry _ (Hydro CX) _ _) => exists b
             | |- exists e, In e (_ :: _ :: _ :: ?a :: ?b :: ?d :: _) /\ twin e (mkEntry _ (Hydro CY) _ _) => exists a
             | |- exists e, In e (_ :: _ :: _ :: ?a :: ?b :: ?d :: _) /\ twin e (mkEntry _ (Hydro CO) _ _) => exists d
             | |- exists e, In e (_ :: _ :: _ :: _ :: _ :: _ :: ?a :: ?b :: ?d :: _) /\ twin e (mkEntry _ (Newton CX) _ _) => exists b
             | |- exists e, In e (_ :: _ :: _ :: _ :: _ :: _ :: ?a :: ?b :: ?d :: _) /\ twin e (mkEntry _ (Newton CY) _ _) => exists a
             | |- exists e, In e (_ :: _ :: _ :: _ :: _ :: _ :: ?a :: ?b :: ?d :: _) /\ twin e (mkEntry _ (Newton CO) _ _) => exists d
             end.
        all: split; [cbn [In]; tauto|repeat split; cbn [ekind]; try reflexivity; match goal with |- context [if ?r then _ else _] => destruct r; reflexivity end].
      * destruct He as [<-|[<-|[<-|[<-|[<-|[<-|[<-|[<-|[<-|[]]]]]]]]]].
        all: match goal with
             | |- exists e, In e (?a :: ?b :: ?d :: _) /\ twin (mkEntry _ (if rigid _ CY then _ else _) _ _) e => exists a
             | |- exists e, In e (?a :: ?b :: ?d :: _) /\ twin (mkEntry _ (if rigid _ CX then _ else _) _ _) e => exists b
             | |- exists e, In e (?a :: ?b :: ?d :: _) /\ twin (mkEntry _ (if rigid _ CO then _ else _) _ _) e => exists d
             | |- exists e, In e (_ :: _ :: _ :: ?a :: ?b :: ?d :: _) /\ twin (mkEntry _ (Hydro CX) _ _) e => exists b
             | |- exists e, In e (_ :: _ :: _ :: ?a :: ?b :: ?d :: _) /\ twin (mkEntry _ (Hydro CY) _ _) e => exists a
             | |- exists e, In e (_ :: _ :: _ :: ?a :: ?b :: ?d :: _) /\ twin (mkEntry _ (Hydro CO) _ _) e => exists d
             | |- exists e, In e (_ :: _ :: _ :: _ :: _ :: _ :: ?a :: ?b :: ?d :: _) /\ twin (mkEntry _ (Newton CX) _ _) e => exists b
             | |- exists e, In e (_ :: _ :: _ :: _ :: _ :: _ :: ?a :: ?b :: ?d :: _) /\ twin (mkEntry _ (Newton CY) _ _) e => exists a
             | |- exists e, In e (_ :: _ :: _ :: _ :: _ :: _ :: ?a :: ?b :: ?d :: _) /\ twin (mkEntry _ (Newton CO) _ _) e => exists d
             end.
        all: split; [cbn [In]; tauto|repeat split; cbn [ekind]; try reflexivity; match goal with |- context [if ?r then _ else _] => destruct r; reflexivity end].
Qed.

Lemma plan_qt l : forall b row once,
  match plan_from b l row once PNull, plan_from b (map shape_qt l) row once PNull with
  | Some (es, p), Some (es', p') => p = PNull /\ p' = PNull /\ twins es es'
  | None, None => True
  | _, _ => False
  end.
Proof.
  induction l as [|s l IH]; intros b row once; [cbn; repeat split; intros e []|]. cbn [plan_from map].
  pose proof (plan_body_qt b s row once) as B. destruct (plan_body b s row once PNull) as [[[es o] p]|]; destruct (plan_body b (shape_qt s) row once PNull) as [[[es' o'] p']|]; try destruct B; try exact I.
  destruct H0 as (-> & -> & T). subst o'. change (nseg (shape_qt s)) with (nseg s). specialize (IH (Datatypes.S b) (row + nseg s + 9)%nat o).
  destruct (plan_from _ l _ o PNull) as [[m q]|]; destruct (plan_from _ (map shape_qt l) _ o PNull) as [[m' q']|]; try destruct IH; try exact I.
  destruct H0 as (-> & U). subst q. split; [reflexivity|]. split; [reflexivity|]. apply twins_app; assumption.
Qed.

Lemma shapes_qt S : shapes_of (system_qt S) = map shape_qt (shapes_of S).
Proof.
  unfold shapes_of. cbn [sbodies system_qt late]. rewrite !map_map. apply map_ext. intros b. unfold shape_of, shape_qt, g_of.
  cbn [sbody_qt fb fb_qt geo geo_qt alist special_ kutta_ Flow.Model.kspring nseg special kutta rigid]. rewrite map_length. f_equal.
  apply functional_extensionality. intros [| |]; reflexivity.
Qed.

(** ** Fluxes *)

Lemma H1 : 0 * 0 + 1 * 1 = 1.
Proof. ring. Qed.
Section Flux.
Variable at2 : R -> R -> R.
Lemma xi_g_near_qt p pc d rd : xi_g_near (K:=RNum) (qt p) (qt pc) (qt d) rd = xi_g_near (K:=RNum) p pc d rd.
Proof. unfold xi_g_near, qt. rewrite vsub_rot, (dot_rot 0 1 H1). reflexivity. Qed.
Lemma xi_q_near_qt p pc d rd : xi_q_near (K:=RNum) (qt p) (qt pc) (qt d) rd = xi_q_near (K:=RNum) p pc d rd.
Proof. unfold xi_q_near, qt. rewrite rotl_rot, vsub_rot, (dot_rot 0 1 H1). reflexivity. Qed.
Lemma xi_g_dist_qt p q q' : xi_g_dist (K:=RNum) ln (qt p) (qt q) (qt q') = xi_g_dist (K:=RNum) ln p q q'.
Proof. unfold xi_g_dist, qt. rewrite !vsub_rot, !(abs2_rot 0 1 H1). reflexivity. Qed.
Lemma xi_q_dist_qt p q q' : xi_q_dist (K:=RNum) at2 (qt p) (qt q) (qt q') = xi_q_dist (K:=RNum) at2 p q q'.
Proof. unfold xi_q_dist, qt. cbv zeta. rewrite !vsub_rot, rotl_rot, !(dot_rot 0 1 H1). reflexivity. Qed.

Lemma core_exit_qt p a rd : Model.core_exit (K:=RNum) (qt p) (att_qt a) rd = qt (Model.core_exit (K:=RNum) p a rd).
Proof.
  unfold Model.core_exit, qt, att_qt. cbn [att_rot dl r]. rewrite vsub_rot, !(abs2_rot 0 1 H1), (dot_rot 0 1 H1). cbv zeta. rewrite vscale_rot, vadd_rot. reflexivity.
Qed.
Lemma xi_g_qt p a rd : Model.xi_g (K:=RNum) ln (qt p) (att_qt a) rd = Model.xi_g (K:=RNum) ln p a rd.
Proof.
  unfold Model.xi_g. cbv zeta. rewrite core_exit_qt. change (corner (att_qt a)) with (qt (corner a)). change (dl (att_qt a)) with (qt (dl a)). change (r (att_qt a)) with (qt (r a)).
  assert (VA : forall p q, vadd (K:=RNum) (qt p) (qt q) = qt (vadd p q)) by apply vadd_rot. assert (VS : forall p q, vsub (K:=RNum) (qt p) (qt q) = qt (vsub p q)) by apply vsub_rot.
  assert (VC : forall p k, vscale (K:=RNum) (qt p) k = qt (vscale p k)) by apply vscale_rot. assert (AB : forall p, abs2 (K:=RNum) (qt p) = abs2 p) by apply (abs2_rot 0 1 H1).
  rewrite !VA, !VS, !AB, !VC, !xi_g_near_qt, !xi_g_dist_qt. reflexivity.
Qed.
Lemma xi_at_qt p a rd : xi_at (K:=RNum) ln at2 (qt p) (att_qt a) rd = xi_at (K:=RNum) ln at2 p a rd.
Proof.
  unfold Model.xi_at. cbv zeta. rewrite core_exit_qt. change (corner (att_qt a)) with (qt (corner a)). change (dl (att_qt a)) with (qt (dl a)). change (r (att_qt a)) with (qt (r a)).
  assert (VA : forall p q, vadd (K:=RNum) (qt p) (qt q) = qt (vadd p q)) by apply vadd_rot. assert (VS : forall p q, vsub (K:=RNum) (qt p) (qt q) = qt (vsub p q)) by apply vsub_rot.
  assert (VC : forall p k, vscale (K:=RNum) (qt p) k = qt (vscale p k)) by apply vscale_rot. assert (AB : forall p, abs2 (K:=RNum) (qt p) = abs2 p) by apply (abs2_rot 0 1 H1).
  assert (RO : forall p, rotl (K:=RNum) (qt p) = qt (rotl p)) by apply rotl_rot. assert (DO : forall p q, dot (K:=RNum) (qt p) (qt q) = dot p q) by apply (dot_rot 0 1 H1).
  rewrite !VA, !VS, !RO, !AB, !VC, !DO, !xi_g_near_qt, !xi_g_dist_qt, !xi_q_near_qt, !xi_q_dist_qt. reflexivity.
Qed.
Lemma xi_qt same p a rd : xi (K:=RNum) ln at2 (/1000) same (qt p) (att_qt a) rd = xi (K:=RNum) ln at2 (/1000) same p a rd.
Proof.
  unfold xi. change (dl (att_qt a)) with (qt (dl a)). destruct same; [|apply xi_at_qt]. unfold qt at 1 2. rewrite rotl_rot, vscale_rot, vadd_rot. apply xi_at_qt.
Qed.
Lemma core_qt (l : att RNum) : vabs (dl (att_qt l)) = vabs (dl l).
Proof. exact (vabs_rot 0 1 H1 (dl l)). Qed.

(** ** Parts of the equations *)

Lemma axis_qt g : get_axis (geo_qt g) = qt (get_axis g).
Proof. unfold get_axis. cbn [geo_qt holder dpos vec3_qt r3]. apply vadd_rot. Qed.
Lemma arm_qt g : vsub (cofm (geo_qt g)) (get_axis (geo_qt g)) = qt (vsub (cofm g) (get_axis g)).
Proof. rewrite axis_qt. cbn [geo_qt cofm]. apply vsub_rot. Qed.
Lemma moi_qt g : moi_axis (geo_qt g) = moi_axis g.
Proof. unfold moi_axis. rewrite axis_qt. cbn [geo_qt cofm moi area]. unfold qt. rewrite vsub_rot, (abs2_rot 0 1 H1). reflexivity. Qed.

Lemma a3_qt a same n b : a3 (K:=RNum) ln at2 (/4) (/1000) (att_qt a) same n (sbody_qt b) = a3 (K:=RNum) ln at2 (/4) (/1000) a same n b.
Proof.
  unfold a3. cbn [sbody_qt fb fb_qt Flow.Model.kspring own root swapped vec3_qt o3].
  destruct (_ && _ && _); [reflexivity|].
  unfold g_of. cbn [geo fb sbody_qt fb_qt]. rewrite axis_qt. cbn [geo_qt alist]. rewrite indexed_map. generalize (@nofZ RNum 0).
  induction (indexed (alist (geo (fb b)))) as [|[j l] t IH]; intros z; [reflexivity|]. cbn [map fold_left fst snd]. rewrite IH. f_equal. f_equal.
  change (r (att_qt l)) with (qt (r l)). rewrite core_qt, xi_qt. change (dl (att_qt l)) with (qt (dl l)). unfold qt. rewrite vsub_rot, rotl_rot, (dot_rot 0 1 H1).
  set (X := xi _ _ _ _ _ _ _). set (q := vsub (r l) _). unfold dot, rot. cbn [x y]. unr. eqR. ring.
Qed.
End Flux.

(** ** The equations *)

Section Rows.
Variables (at2 : R -> R -> R) (tp ip : R) (sk sk' : pt -> pt) (ff ff' : att RNum -> R) (S : sspace RNum) (v : unk -> R).
Hypothesis (Hsk : sinks_qt sk sk') (Hff : flux_qt ff ff') (NSR : no_self_root S) (NS : Forall (not_slid S) (sbodies S)).
Notation S' := (system_qt S).
Notation v' := (unknowns_qt v).

(** The equation of the turned system is the old one or its negative. *)
Definition row_qt (q q' : eqn RNum) : Prop := exists f : R, f <> 0 /\ rhs q' = f * rhs q /\ lin v' (coefs q') = f * lin v (coefs q) /\
  NoDup (map fst (coefs q)) /\ NoDup (map fst (coefs q')).

Lemma row_iff q q' : row_qt q q' -> (lin v' (coefs q') = rhs q' <-> lin v (coefs q) = rhs q).
Proof.
  intros (f & F & R & L & _). rewrite R, L. split; [intros X; apply (Rmult_eq_reg_l f); assumption|intros ->; reflexivity].
Qed.

Lemma lin_flat {A} (k : R) (f g : A -> list (unk * R)) (h : A -> A) l : (forall a, lin v' (g (h a)) = k * lin v (f a)) ->
  lin v' (flat_map g (map h l)) = k * lin v (flat_map f l).
Proof. intros H. induction l as [|a l IH]; [unfold lin, total; cbn; ring|]. cbn [map flat_map]. rewrite !lin_app, IH, H. ring. Qed.
Lemma lin_map {A} (k : R) (f g : A -> unk * R) (h : A -> A) l : (forall a, snd (g (h a)) * v' (fst (g (h a))) = k * (snd (f a) * v (fst (f a)))) ->
  lin v' (map g (map h l)) = k * lin v (map f l).
Proof.
  intros H. induction l as [|a l IH]; [unfold lin, total; cbn; ring|]. cbn [map]. specialize (H a). destruct (g (h a)) as [u c]. destruct (f a) as [u0 c0]. cbn [fst snd] in H.
  rewrite !lin_cons, IH, H. ring.
Qed.
Lemma lin_nil w : lin w [] = 0.
Proof. reflexivity. Qed.

Lemma bodies_qt : bodies_i S' = map (fun e => (fst e, sbody_qt (snd e))) (bodies_i S).
Proof. unfold bodies_i. cbn [sbodies system_qt]. apply indexed_map. Qed.
Lemma alist_qt b : indexed (alist (g_of (sbody_qt b))) = map (fun e => (fst e, att_qt (snd e))) (indexed (alist (g_of b))).
Proof. unfold g_of. cbn [sbody_qt fb fb_qt geo geo_qt alist]. apply indexed_map. Qed.
Lemma children_qt i : children S' i = map (fun e => (fst e, sbody_qt (snd e))) (children S i).
Proof.
  unfold children. rewrite bodies_qt. induction (bodies_i S) as [|[j b] t IH]; [reflexivity|].
  cbn [map filter fst snd]. change (root (fb (sbody_qt b))) with (root (fb b)).
  destruct (root (fb b)) as [m|]; [destruct (Nat.eqb m i)|]; cbn [map fst snd]; rewrite IH; reflexivity.
Qed.
Lemma roots_qt : roots_listed S' <-> roots_listed S.
Proof.
  unfold roots_listed. cbn [sbodies system_qt]. rewrite map_length. split; intros H b j Hb Hr.
  - apply (H (sbody_qt b) j); [apply in_map, Hb|exact Hr].
  - apply in_map_iff in Hb. destruct Hb as (b0 & <- & Hb). exact (H b0 j Hb Hr).
Qed.
Lemma self_qt : no_self_root S'.
Proof.
  intros i b. cbn [sbodies system_qt]. rewrite nth_error_map. destruct (nth_error (sbodies S) i) as [b0|] eqn:E; cbn [option_map]; [|discriminate].
  intros H. injection H as <-. exact (NSR i b0 E).
Qed.

Ltac qr := unfold qt, rot; cbn [x y unknowns_qt]; unr; eqR.

Lemma slip_row i n a : row_qt (slip_eq (K:=RNum) ln at2 tp ip (/4) (/1000) S sk ff i n a) (slip_eq (K:=RNum) ln at2 tp ip (/4) (/1000) S' sk' ff' i n (att_qt a)).
Proof.
  exists 1. split; [lra|]. split; [|split; [|split; apply slip_nodup]].
  - unfold slip_eq. cbn [rhs system_qt inf_speed]. rewrite Hff. change (r (att_qt a)) with (qt (r a)). change (dl (att_qt a)) with (qt (dl a)).
    rewrite Hsk. unfold qt. rewrite !rotl_rot, !(dot_rot 0 1 H1). unr. eqR. ring.
  - unfold slip_eq. cbn [coefs]. rewrite bodies_qt. apply lin_flat. intros [j b]. cbn [fst snd]. rewrite !lin_app. rewrite alist_qt.
    rewrite (lin_map 1 (fun el => let '(k, l) := el in (UG j k, (Model.xi_g (K:=RNum) ln (corner l) a (vabs (dl l) * / 4) * ip)%num))).
    + rewrite a3_qt. change (dl (att_qt a)) with (qt (dl a)). rewrite !lin_cons, !lin_nil. destruct (Nat.eqb i j); qr;
      match goal with |- 1 * ?A + _ = 1 * (?B + _) => change B with A; generalize A end; intros A; ring.
    + intros [m l]. cbn [fst snd]. rewrite core_qt. change (corner (att_qt l)) with (qt (corner l)). rewrite xi_g_qt. cbn [unknowns_qt]. eqR. ring.
Qed.

Lemma ones_lin j b : lin v' (ones (K:=RNum) j (sbody_qt b)) = 1 * lin v (ones (K:=RNum) j b).
Proof.
  unfold ones, g_of. cbn [sbody_qt fb fb_qt geo geo_qt alist area]. rewrite map_length, !lin_app.
  assert (X : lin v' (map (fun k => (UG j k, @nofZ RNum 1)) (seq 0 (length (alist (geo (fb b)))))) = lin v (map (fun k => (UG j k, @nofZ RNum 1)) (seq 0 (length (alist (geo (fb b))))))).
  { induction (seq 0 (length (alist (geo (fb b))))) as [|n l IH]; [reflexivity|]. cbn [map]. rewrite !lin_cons, IH. reflexivity. }
  rewrite X, !lin_cons, !lin_nil. cbn [unknowns_qt]. unr. eqR. ring.
Qed.
Lemma zero_row i n : row_qt (zero_eq (K:=RNum) i n) (zero_eq (K:=RNum) i n).
Proof.
  exists 1. split; [lra|]. unfold zero_eq. cbn [rhs coefs]. rewrite !lin_cons, !lin_nil. cbn [unknowns_qt]. split; [unr; eqR; ring|]. split; [unr; eqR; ring|].
  split; cbn; repeat constructor; simpl; tauto.
Qed.
Lemma inf_row : row_qt (inf_eq (K:=RNum) S) (inf_eq (K:=RNum) S').
Proof.
  exists 1. split; [lra|]. split; [|split; [|split; apply inf_nodup]].
  - unfold inf_eq. cbn [rhs system_qt gfree inf_g]. unr. eqR. ring.
  - unfold inf_eq. cbn [coefs]. rewrite bodies_qt. apply lin_flat. intros [j b]. apply ones_lin.
Qed.
Lemma steady_row i b : row_qt (steady_eq (K:=RNum) i b) (steady_eq (K:=RNum) i (sbody_qt b)).
Proof.
  exists 1. split; [lra|]. split; [|split; [|split; apply ones_nodup]].
  - unfold steady_eq, g_of. cbn [rhs sbody_qt fb fb_qt geo geo_qt area g_dead speed_slae_prev vec3_qt o3]. unr. eqR. ring.
  - apply ones_lin.
Qed.
Lemma stop_row c i : row_qt (stop_eq (K:=RNum) c i) (stop_eq (K:=RNum) (swap c) i).
Proof.
  exists (match c with CY => -1 | _ => 1 end). split; [destruct c; lra|]. unfold stop_eq. cbn [rhs coefs]. rewrite !lin_cons, !lin_nil.
  split; [destruct c; unr; eqR; ring|]. split; [destruct c; cbn [swap unknowns_qt]; unr; eqR; ring|]. split; cbn; repeat constructor; simpl; tauto.
Qed.

Lemma speed_nodup T c i b : no_self_root T -> nth_error (sbodies T) i = Some b -> NoDup (map fst (coefs (speed_eq (K:=RNum) T c i b))).
Proof.
  intros N Hb. pose proof (N i b Hb) as NR. unfold speed_eq. cbn [coefs]. destruct (root (fb b)) as [j|] eqn:E; [|cbn [map fst]; repeat constructor; simpl; tauto].
  assert (i <> j) by congruence. destruct c; cbn [map fst]; repeat constructor; simpl; intuition congruence.
Qed.
Lemma speed_row c i b : nth_error (sbodies S) i = Some b -> stiff S b c -> row_qt (speed_eq (K:=RNum) S c i b) (speed_eq (K:=RNum) S' (swap c) i (sbody_qt b)).
Proof.
  intros Hb St. exists (match c with CY => -1 | _ => 1 end). split; [destruct c; lra|]. split; [|split; [|split]].
  - unfold speed_eq. cbn [rhs]. cbn [sbody_qt fb fb_qt own]. destruct c; cbn [swap get vec3_qt r3 o3]; qr; first [ring|lra].
  - rewrite Forall_forall in NS. pose proof (NS b (nth_error_In _ _ Hb)) as D. unfold not_slid in D.
    unfold speed_eq. cbn [coefs]. change (root (fb (sbody_qt b))) with (root (fb b)). rewrite !lin_cons.
    destruct (root (fb b)) as [j|]; [|rewrite !lin_nil; destruct c; cbn [swap unknowns_qt]; unr; eqR; ring].
    specialize (D ltac:(discriminate)). cbn [sbodies system_qt]. rewrite nth_error_map.
    assert (A : exists ax, match option_map sbody_qt (nth_error (sbodies S) j) with Some rt => get_axis (g_of rt) | None => vzero end = qt ax /\
      match nth_error (sbodies S) j with Some rt => get_axis (g_of rt) | None => vzero end = ax).
    { eexists. split; [|reflexivity]. destruct (nth_error (sbodies S) j) as [rt|]; cbn [option_map]; [apply axis_qt|symmetry; apply (rot_zero 0 1)]. }
    destruct A as (ax & A1 & A2). rewrite A1, A2. clear A1 A2.
    change (r3 (holder (g_of (sbody_qt b)))) with (qt (r3 (holder (g_of b)))).
    change (get_axis (g_of (sbody_qt b))) with (get_axis (geo_qt (g_of b))). rewrite axis_qt. unfold qt. rewrite !vsub_rot.
    unfold get_axis, px, py in *. destruct D as [DX DY].
    destruct c; cbn [swap]; rewrite !lin_cons, !lin_nil; [specialize (DX St)|specialize (DY St)|]; unfold vsub, vadd, rot; cbn [x y unknowns_qt]; unr;
      [rewrite ?DX|rewrite ?DY|]; change (Num.T RNum) with R in *; eqR; first [ring|lra].
  - apply speed_nodup; assumption.
  - apply speed_nodup; [apply self_qt|]. cbn [sbodies system_qt]. rewrite nth_error_map, Hb. reflexivity.
Qed.
Lemma hooke_row c i b : row_qt (hooke_eq (K:=RNum) c false i b) (hooke_eq (K:=RNum) (swap c) false i (sbody_qt b)).
Proof.
  exists (match c with CY => -1 | _ => 1 end). split; [destruct c; lra|]. unfold hooke_eq, g_of. cbn [rhs coefs sbody_qt fb fb_qt Flow.Model.kspring geo geo_qt dpos torque damping].
  rewrite !lin_cons, !lin_nil. split; [|split; [|split]].
  - destruct c; cbn [swap get swapped vec3_qt r3 o3]; unfold P, px, py; qr; first [ring|lra].
  - destruct c; cbn [swap get swapped vec3_qt r3 o3]; unfold P, px, py; qr; first [ring|lra].
  - cbn [map fst]. repeat constructor; simpl; intuition discriminate.
  - cbn [map fst]. repeat constructor; simpl; intuition discriminate.
Qed.

Lemma hydro_row c i b : row_qt (hydro_eq (K:=RNum) S c i b) (hydro_eq (K:=RNum) S' (swap c) i (sbody_qt b)).
Proof.
  exists (match c with CY => -1 | _ => 1 end). split; [destruct c; lra|]. split; [|split; [|split; apply hydro_nodup]].
  - destruct c; unfold hydro_eq; cbn [swap rhs]; unfold g_of; cbn [sbody_qt fb fb_qt geo system_qt dt friction_prev fdt_dead]; rewrite ?arm_qt, ?moi_qt;
      cbn [geo_qt cofm area speed_slae_prev vec3_qt r3 o3]; change (@ndiv RNum) with Rdiv;
      set (rc := vsub (K:=RNum) (cofm _) _); try set (m := moi_axis (K:=RNum) _); set (h1 := _ / dt S); try set (h2 := _ / dt S);
      unfold dot, rotl, vadd, vscale, sqr; qr; first [ring|lra].
  - destruct c; unfold hydro_eq; cbn [swap coefs]; rewrite !lin_app, alist_qt.
    + rewrite (lin_map 1 (fun e => (UG i (fst e), (nofZ 1 / dt S * - y (corner (snd e)))%num))).
      2: { intros [m l]. cbn [fst snd system_qt dt]. change (corner (att_qt l)) with (qt (corner l)). change (@ndiv RNum) with Rdiv. set (h1 := _ / dt S). qr. first [ring|lra]. }
      match goal with |- _ * ?A + _ = _ * (?B + _) => change B with A; generalize A; intros Z end.
      unfold g_of; cbn [sbody_qt fb fb_qt geo system_qt dt]; rewrite ?arm_qt, ?moi_qt; cbn [geo_qt cofm area].
      change (@ndiv RNum) with Rdiv; set (rc := vsub (K:=RNum) (cofm _) _); set (h1 := _ / dt S). rewrite !lin_cons, !lin_nil. qr. first [ring|lra].
    + rewrite (lin_map (-1) (fun e => (UG i (fst e), (nofZ 1 / dt S * x (corner (snd e)))%num))).
      2: { intros [m l]. cbn [fst snd system_qt dt]. change (corner (att_qt l)) with (qt (corner l)). change (@ndiv RNum) with Rdiv. set (h1 := _ / dt S). qr. first [ring|lra]. }
      match goal with |- _ * ?A + _ = _ * (?B + _) => change B with A; generalize A; intros Z end.
      unfold g_of; cbn [sbody_qt fb fb_qt geo system_qt dt]; rewrite ?arm_qt, ?moi_qt; cbn [geo_qt cofm area].
      change (@ndiv RNum) with Rdiv; set (rc := vsub (K:=RNum) (cofm _) _); set (h1 := _ / dt S). rewrite !lin_cons, !lin_nil. qr. first [ring|lra].
    + rewrite (lin_map 1 (fun e => (UG i (fst e), (half / dt S * abs2 (vsub (corner (snd e)) (get_axis (g_of b))))%num))).
      2: { intros [m l]. cbn [fst snd system_qt dt unknowns_qt]. change (corner (att_qt l)) with (qt (corner l)). change (get_axis (g_of (sbody_qt b))) with (get_axis (geo_qt (g_of b))).
           rewrite axis_qt. unfold qt. rewrite vsub_rot, (abs2_rot 0 1 H1). eqR. ring. }
      match goal with |- _ * ?A + _ = _ * (?B + _) => change B with A; generalize A; intros Z end.
      unfold g_of; cbn [sbody_qt fb fb_qt geo system_qt dt]; rewrite ?arm_qt, ?moi_qt; cbn [geo_qt cofm area].
      change (@ndiv RNum) with Rdiv; set (rc := vsub (K:=RNum) (cofm _) _); set (m := moi_axis (K:=RNum) _); set (h1 := _ / dt S). rewrite !lin_cons, !lin_nil. qr. first [ring|lra].
Qed.

Lemma newton_row c i b : nth_error (sbodies S) i = Some b -> row_qt (newton_eq (K:=RNum) S c i b) (newton_eq (K:=RNum) S' (swap c) i (sbody_qt b)).
Proof.
  intros Hb. assert (Hb' : nth_error (sbodies S') i = Some (sbody_qt b)) by (cbn [sbodies system_qt]; rewrite nth_error_map, Hb; reflexivity).
  exists (match c with CY => -1 | _ => 1 end). split; [destruct c; lra|]. split; [|split; [|split; apply newton_nodup; first [assumption|apply self_qt]]].
  - destruct c; unfold newton_eq; cbn [swap rhs]; unfold g_of; cbn [sbody_qt fb fb_qt geo system_qt dt density gravity]; rewrite ?arm_qt, ?moi_qt;
      cbn [geo_qt cofm area speed_slae_prev vec3_qt r3 o3]; change (@ndiv RNum) with Rdiv;
      set (rc := vsub (K:=RNum) (cofm _) _); try set (m := moi_axis (K:=RNum) _); set (h1 := _ / dt S); unfold dot, rotl, sqr; qr; first [ring|lra].
  - destruct c; unfold newton_eq; cbn [swap coefs]; rewrite !lin_app, children_qt.
    + rewrite (lin_map 1 (fun e => (UF (fst e) CX, @nofZ RNum 1))) by (intros [j d]; cbn [fst snd unknowns_qt]; eqR; ring).
      match goal with |- _ + _ * ?A = _ * (_ + ?B) => change B with A; generalize A; intros Z end.
      unfold g_of; cbn [sbody_qt fb fb_qt geo system_qt dt density]; rewrite ?arm_qt, ?moi_qt; cbn [geo_qt cofm area].
      change (@ndiv RNum) with Rdiv; set (rc := vsub (K:=RNum) (cofm _) _); set (h1 := _ / dt S). rewrite !lin_cons, !lin_nil. qr. first [ring|lra].
    + rewrite (lin_map (-1) (fun e => (UF (fst e) CY, @nofZ RNum 1))) by (intros [j d]; cbn [fst snd unknowns_qt]; eqR; ring).
      match goal with |- _ + _ * ?A = _ * (_ + ?B) => change B with A; generalize A; intros Z end.
      unfold g_of; cbn [sbody_qt fb fb_qt geo system_qt dt density]; rewrite ?arm_qt, ?moi_qt; cbn [geo_qt cofm area].
      change (@ndiv RNum) with Rdiv; set (rc := vsub (K:=RNum) (cofm _) _); set (h1 := _ / dt S). rewrite !lin_cons, !lin_nil. qr. first [ring|lra].
    + rewrite (lin_flat 1 (fun e => let arm := vsub (get_axis (g_of (snd e))) (get_axis (g_of b)) in [(UF (fst e) CX, (- y arm)%num); (UF (fst e) CY, x arm); (UF (fst e) CO, nofZ 1)])).
      2: { intros [j d]. cbn [fst snd]. cbv zeta. change (get_axis (g_of (sbody_qt d))) with (get_axis (geo_qt (g_of d))). change (get_axis (g_of (sbody_qt b))) with (get_axis (geo_qt (g_of b))).
           rewrite !axis_qt. unfold qt. rewrite vsub_rot. set (A := vsub _ _). rewrite !lin_cons, !lin_nil. unfold rot. cbn [x y unknowns_qt]. unr. eqR. ring. }
      match goal with |- _ + _ * ?A = _ * (_ + ?B) => change B with A; generalize A; intros Z end.
      unfold g_of; cbn [sbody_qt fb fb_qt geo system_qt dt density]; rewrite ?arm_qt, ?moi_qt; cbn [geo_qt cofm area].
      change (@ndiv RNum) with Rdiv; set (rc := vsub (K:=RNum) (cofm _) _); set (m := moi_axis (K:=RNum) _); set (h1 := _ / dt S). rewrite !lin_cons, !lin_nil. qr. first [ring|lra].
Qed.

(** What the plan says about the entries it makes. *)
Definition fits (e : entry) : Prop := match ekind e with
  | Speed c => forall b, nth_error (sbodies S) (ebody e) = Some b -> stiff S b c
  | Hooke _ u => u = false
  | _ => True
  end.

Lemma eqn_qt e e' : twin e e' -> fits e ->
  match eqn_of (K:=RNum) ln at2 tp ip (/4) (/1000) S sk ff e, eqn_of (K:=RNum) ln at2 tp ip (/4) (/1000) S' sk' ff' e' with
  | Some q, Some q' => row_qt q q'
  | None, None => True
  | _, _ => False
  end.
Proof.
  intros (K & B & G) F. unfold eqn_of. rewrite B, G, K. cbn [sbodies system_qt]. rewrite nth_error_map. unfold fits in F.
  destruct (nth_error (sbodies S) (ebody e)) as [b|] eqn:Hb; cbn [option_map]; [|exact I].
  destruct (ekind e) as [| | | |c|c|c b0|c|c]; cbn [kind_qt].
  - change (alist (g_of (sbody_qt b))) with (map att_qt (alist (g_of b))). rewrite nth_error_map.
    destruct (nth_error (alist (g_of b)) (eseg e)) as [a|]; cbn [option_map]; [|exact I]. apply slip_row.
  - apply zero_row.
  - apply inf_row.
  - apply steady_row.
  - apply speed_row; [exact Hb|apply F; reflexivity].
  - apply stop_row.
  - subst b0. apply hooke_row.
  - apply hydro_row.
  - apply newton_row. exact Hb.
Qed.
End Rows.

(** ** The solutions *)

Definition planned (l : list shape) (b : nat) (e : entry) : Prop :=
  (b <= ebody e)%nat /\
  match ekind e with
  | Speed c => exists s, nth_error l (ebody e - b) = Some s /\ rigid s c = true
  | Hooke _ u => u = false
  | _ => True
  end.

Lemma plan_segs_fits sp ku b l : forall row once e, In e (fst (plan_segs sp ku b l row once)) -> ebody e = b /\ match ekind e with Speed _ => False | Hooke _ _ => False | _ => True end.
Proof.
  induction l as [|i l IH]; intros row once e; [intros []|]. cbn [plan_segs].
  destruct (negb _); [|destruct ku].
  - specialize (IH (Datatypes.S row) once). destruct (plan_segs _ _ _ _ _ _) as [m o]. cbn [fst] in *. intros [<-|H]; [split; [reflexivity|exact I]|apply IH, H].
  - specialize (IH (Datatypes.S row) once). destruct (plan_segs _ _ _ _ _ _) as [m o]. cbn [fst] in *. intros [<-|H]; [split; [reflexivity|exact I]|apply IH, H].
  - specialize (IH (Datatypes.S row) true). destruct (plan_segs _ _ _ _ _ _) as [m o]. cbn [fst] in *. intros [<-|H]; [split; [reflexivity|destruct once; exact I]|apply IH, H].
Qed.

Lemma plan_fits l : forall b row once es p e, plan_from b l row once PNull = Some (es, p) -> In e es -> planned l b e.
Proof.
  induction l as [|s l IH]; intros b row once es p e; cbn [plan_from]; [intros H; injection H as <- _; intros []|].
  pose proof (plan_body_qt b s row once) as B. unfold plan_body in *. destruct (Nat.leb _ _); [discriminate|].
  pose proof (plan_segs_fits (special s) (kutta s) b (seq 0 (nseg s)) row once) as K.
  destruct (plan_segs _ _ _ _ _ _) as [m o]. cbn [fst] in K. rewrite !plan_spring_null in *. clear B.
  destruct (plan_from _ l _ o PNull) as [[es' p']|] eqn:E; [|discriminate]. intros H. injection H as <- _. rewrite !in_app_iff. intros [[H|H]|H].
  - destruct (K e H) as [EB EK]. split; [lia|]. destruct (ekind e); tauto.
  - assert (Q : forall c n, planned (s :: l) b (mkEntry n (if rigid s c then Speed c else Hooke c false) b 0)).
    { intros c n. split; cbn [ebody ekind]; [lia|]. destruct (rigid s c) eqn:Er; [|reflexivity]. exists s. rewrite Nat.sub_diag. split; [reflexivity|exact Er]. }
    assert (Q' : forall k n, match k with Hydro _ | Newton _ => True | _ => False end -> planned (s :: l) b (mkEntry n k b 0)).
    { intros k n Hk. split; cbn [ebody ekind]; [lia|]. destruct k; tauto. }
    cbn [In] in H. destruct H as [<-|[<-|[<-|[<-|[<-|[<-|[<-|[<-|[<-|[]]]]]]]]]]; first [apply Q | apply Q'; exact I].
  - destruct (IH _ _ _ _ _ _ E H) as [L F]. split; [lia|]. destruct (ekind e); try exact F. destruct F as (s' & N & Rg). exists s'. split; [|exact Rg].
    replace (ebody e - b)%nat with (Datatypes.S (ebody e - Datatypes.S b)) by lia. exact N.
Qed.

Lemma plan_fits_S S es p e : plan (shapes_of S) PNull = Some (es, p) -> In e es -> fits S e.
Proof.
  intros H He. destruct (plan_fits _ _ _ _ _ _ e H He) as [_ F]. unfold fits. destruct (ekind e); try exact F; try exact I.
  intros b Hb. destruct F as (s & N & Rg). rewrite Nat.sub_0_r in N. unfold shapes_of in N. rewrite nth_error_map, Hb in N. cbn [option_map] in N. injection N as <-. exact Rg.
Qed.

Lemma solution_qt at2 tp ip sk sk' ff ff' S v : sinks_qt sk sk' -> flux_qt ff ff' -> no_self_root S -> Forall (not_slid S) (sbodies S) ->
  solution_with at2 tp ip sk ff S PNull v <-> solution_with at2 tp ip sk' ff' (system_qt S) PNull (unknowns_qt v).
Proof.
  intros Hsk Hff NSR NS. pose proof (plan_qt (shapes_of S) 0 0 false) as PQ. fold (plan (shapes_of S) PNull) in PQ.
  rewrite <- shapes_qt in PQ. fold (plan (shapes_of (system_qt S)) PNull) in PQ. split.
  - intros (addr & es & q & order & sl & M & M' & Hp & HP & HR & HL & HF & Hsol). rewrite Hp in PQ.
    destruct (plan (shapes_of (system_qt S)) PNull) as [[es' p']|] eqn:Hp'; [|destruct PQ]. destruct PQ as (-> & -> & TW & _).
    apply (holds_with at2 tp ip (system_qt S) sk' ff' PNull es' PNull); [exact Hp'|apply roots_qt, HL|].
    intros e' qn He Eq. destruct (TW e' He) as (e & Hin & T). pose proof (plan_fits_S _ _ _ _ Hp Hin) as F.
    pose proof (eqn_qt at2 tp ip sk sk' ff ff' S v Hsk Hff NSR NS e e' T F) as X. rewrite Eq in X.
    destruct (eqn_of _ _ _ _ _ _ S sk ff e) as [q0|] eqn:E0; [|destruct X].
    pose proof (row_iff v _ _ X) as L. destruct X as (f & _ & _ & _ & N & N'). split; [exact N'|]. apply L.
    exact (row_holds at2 tp ip S sk ff addr PNull es PNull order sl M M' v e q0 Hp HP HR HL HF Hsol Hin E0 N).
  - intros (addr & es' & q & order & sl & M & M' & Hp & HP & HR & HL & HF & Hsol). rewrite Hp in PQ.
    destruct (plan (shapes_of S) PNull) as [[es p]|] eqn:Hp0; [|destruct PQ]. destruct PQ as (-> & -> & _ & TW).
    apply (holds_with at2 tp ip S sk ff PNull es PNull); [exact Hp0|apply roots_qt, HL|].
    intros e q0 He Eq. destruct (TW e He) as (e' & Hin & T). pose proof (plan_fits_S _ _ _ _ Hp0 He) as F.
    pose proof (eqn_qt at2 tp ip sk sk' ff ff' S v Hsk Hff NSR NS e e' T F) as X. rewrite Eq in X.
    destruct (eqn_of _ _ _ _ _ _ (system_qt S) sk' ff' e') as [qn|] eqn:E0; [|destruct X].
    pose proof (row_iff v _ _ X) as L. destruct X as (f & _ & _ & _ & N & N'). split; [exact N|]. apply L.
    exact (row_holds at2 tp ip (system_qt S) sk' ff' addr PNull es' PNull order sl M M' (unknowns_qt v) e' qn Hp HP HR HL HF Hsol Hin E0 N').
Qed.
