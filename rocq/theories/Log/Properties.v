(** Properties of the step log. *)

From Coq Require Import List Arith ZArith Bool Reals Lia.
From Verif.Base Require Import Num F64 F32.
From Flocq Require Import IEEE754.BinarySingleNaN.
From Verif.Log Require Import Model Spec Proofs ProofsHistory.
Import ListNotations.

(** * C25 the step log is aligned and resumes cleanly *)

(** Whatever file is found, after opening it every dataset of the run has as many
    rows as the time, namely the leading ones before the restart. *)
Theorem C25_open (K : Num) (V : Type) (conv : K -> V) (vltb : V -> V -> bool) (vnan : V)
    (old : option (file V)) (t : K) (sizes : list nat) (profile : bool) (l : log V) :
  open V conv vltb vnan old t sizes profile = Ok l ->
  exists rows,
    (forall p c, logged profile sizes p c ->
       exists d, lfile l p = Some d /\ dcols d = c /\ length (drows d) = rows) /\
    match old with
    | None => rows = 0
    | Some f => match f PTime with
                | None => rows = 0
                | Some d => (forall r, In r (drows d) -> r <> []) ->
                            leading (fun v => vltb v (conv t)) (drows d) rows
                end
    end.
Proof.
  intro H. exists (kept V conv vltb (old_file V old) t). split.
  - intros p c L. destruct (open_aligned V _ _ _ _ _ _ _ _ H p c L) as (_ & d & D). exists d. exact D.
  - unfold kept. destruct old as [f|]; [|reflexivity]. simpl. destruct (f PTime) as [d|]; [|reflexivity].
    intro N. apply count_before_leading, N.
Qed.
Print Assumptions C25_open.

(** The rows kept are the old ones; a dataset shorter than the time is filled up. *)
Theorem C25_kept (K : Num) (V : Type) (conv : K -> V) (vltb : V -> V -> bool) (vnan : V)
    (f : file V) (t : K) (sizes : list nat) (profile : bool) (l : log V) p c d0 :
  open V conv vltb vnan (Some f) t sizes profile = Ok l -> logged profile sizes p c ->
  f p = Some d0 -> (forall r, In r (drows d0) -> length r = c) ->
  exists d, lfile l p = Some d /\
    forall i, i < length (drows d) ->
      nth_error (drows d) i = if Nat.ltb i (length (drows d0)) then nth_error (drows d0) i
                              else Some (repeat vnan c).
Proof.
  intros H L F R. destruct (open_at V _ _ _ _ _ _ _ _ _ _ H L) as (_ & d & D1 & D2 & D3).
  exists d. split; [exact D1|]. simpl in D3. rewrite F in D3.
  unfold set_extent in D3. destruct (Nat.ltb (dmax d0) c); [discriminate|]. injection D3 as <-. simpl.
  assert (M : map (fit V vnan c) (drows d0) = drows d0).
  { rewrite <- (map_id (drows d0)) at 2. apply map_ext_in. intros r I. apply fit_same, R, I. }
  rewrite M. set (k := kept V conv vltb f t). intros i Hi.
  rewrite app_length, firstn_length, repeat_length in Hi.
  destruct (Nat.ltb i (length (drows d0))) eqn:E.
  - apply Nat.ltb_lt in E.
    rewrite nth_error_app1 by (rewrite firstn_length; lia).
    rewrite <- (firstn_skipn k (drows d0)) at 2. rewrite nth_error_app1 by (rewrite firstn_length; lia). reflexivity.
  - apply Nat.ltb_ge in E. rewrite nth_error_app2 by (rewrite firstn_length; lia).
    rewrite (nth_error_nth' _ (repeat vnan c)) by (rewrite repeat_length, firstn_length; lia).
    rewrite nth_repeat. reflexivity.
Qed.
Print Assumptions C25_kept.

(** Every step appends one row of the values of the step to every dataset of the
    run and leaves the rows before it and all other datasets as they are. *)
Theorem C25_step (K : Num) (V : Type) (conv : K -> V) (vltb : V -> V -> bool) (vnan : V)
    old t sizes profile l0 (before : list (step K)) l (s : step K) l' :
  open V conv vltb vnan old t sizes profile = Ok l0 ->
  Forall (fits_step sizes) before -> write_steps V conv l0 before = Ok l ->
  fits_step sizes s -> write V conv l (stime s) (sdt s) (sbodies s) = Ok l' ->
  (forall p c, logged profile sizes p c ->
     exists d d', lfile l p = Some d /\ lfile l' p = Some d' /\ drows d' = drows d ++ [row_of V conv s p]) /\
  (forall p, lfile l' p <> lfile l p -> lopen l0 p = true).
Proof.
  intros H F W Fs Ws. destruct (open_state V _ _ _ _ _ _ _ _ H) as (P & B & _).
  destruct (write_steps_at V conv _ _ _ _ _ _ (open_aligned V _ _ _ _ _ _ _ _ H) P B F W) as (P' & B' & At).
  pose proof (open_aligned V _ _ _ _ _ _ _ _ H) as A0.
  assert (A : aligned profile sizes (kept V conv vltb (old_file V old) t + length before) l).
  { intros p c L. destruct (At p c L) as (O & d & D1 & D2 & D3). split; [exact O|]. eexists. split; [exact D3|].
    simpl. split; [reflexivity|]. rewrite app_length, map_length.
    destruct (A0 p c L) as (_ & d' & D1' & _ & D3'). rewrite D1 in D1'. injection D1' as <-. lia. }
  destruct (write_at V conv _ _ _ _ _ _ A P' B' Fs Ws) as (_ & _ & At2). split.
  - intros p c L. destruct (At2 p c L) as (_ & d & D1 & D2 & D3). exists d. eexists. split; [exact D1|split; [exact D3|reflexivity]].
  - intros p N. destruct (lopen l0 p) eqn:O; [reflexivity|]. exfalso. apply N.
    pose proof (write_steps_open _ _ _ _ _ W) as Op.
    unfold write in Ws. destruct (writes V l (stime s) (sdt s) (sbodies s)); [|discriminate].
    eapply append_all_closed; [exact Ws|]. rewrite Op. exact O.
Qed.
Print Assumptions C25_step.

(** Over any history of runs, stops anywhere and restarts the log holds the rows of
    the completed steps, each once and in order, as one run would have left them, and
    at most a part of the next step. *)
Theorem C25_history (K : Num) (V : Type) (conv : K -> V) (vltb : V -> V -> bool) (vnan : V)
    (steps : nat -> step K) (N : nat) (sizes : list nat) (profile : bool) (f : file V) (c : nat) :
  (forall i, fits_step sizes (steps i)) ->
  (forall i j, i <= N -> j <= N -> vltb (conv (stime (steps i))) (conv (stime (steps j))) = Nat.ltb i j) ->
  log_of V conv vltb vnan steps N sizes profile (Some f) c ->
  forall p k, logged profile sizes p k ->
    exists d, f p = Some d /\
      (drows d = map (fun i => row_of V conv (steps i) p) (seq 0 c) \/
       drows d = map (fun i => row_of V conv (steps i) p) (seq 0 (S c))).
Proof.
  intros Hf Hi H p k L. apply history in H; auto. destruct H as ((_ & H) & _).
  destruct (H p k L) as (d & D1 & _ & D2). exists d. auto.
Qed.
Print Assumptions C25_history.

(** Such a log can always be resumed, and any number of steps logged. *)
Theorem C25_resumes (K : Num) (V : Type) (conv : K -> V) (vltb : V -> V -> bool) (vnan : V)
    (steps : nat -> step K) (N : nat) (sizes : list nat) (profile : bool) f (c k n : nat) :
  (forall i, fits_step sizes (steps i)) ->
  (forall i j, i <= N -> j <= N -> vltb (conv (stime (steps i))) (conv (stime (steps j))) = Nat.ltb i j) ->
  length sizes <= 1000 -> log_of V conv vltb vnan steps N sizes profile f c -> k <= c ->
  exists l l', open V conv vltb vnan f (stime (steps k)) sizes profile = Ok l /\
    write_steps V conv l (map steps (seq k n)) = Ok l' /\
    forall p w, logged profile sizes p w -> exists d, lfile l' p = Some d /\
      drows d = map (fun i => row_of V conv (steps i) p) (seq 0 (k + n)).
Proof.
  intros Hf Hi L H Hk. destruct (resume_ok V _ _ _ _ _ _ Hf _ Hi _ _ _ H L Hk) as (l & E & G).
  destruct (steps_ok V conv _ _ _ Hf n l k G) as (l' & E').
  exists l, l'. split; [exact E|split; [exact E'|]].
  destruct (steps_good V conv _ _ _ Hf _ _ _ _ G E') as (_ & _ & _ & _ & G').
  intros p w Lw. destruct (G' p w Lw) as (_ & d & D1 & _ & _ & D2). exists d. auto.
Qed.
Print Assumptions C25_resumes.

(** The floats of whole times are in order up to 2^24. *)
Theorem C25_times (i j N : nat) : (Z.of_nat N <= 2 ^ 24)%Z -> i <= N -> j <= N ->
  Bltb (f64_to_f32 (f64_ofZ (Z.of_nat i))) (f64_to_f32 (f64_ofZ (Z.of_nat j))) = Nat.ltb i j.
Proof.
  intros HN Hi Hj.
  assert (C : forall k, k <= N -> is_finite (f64_to_f32 (f64_ofZ (Z.of_nat k))) = true /\
                B2R (f64_to_f32 (f64_ofZ (Z.of_nat k))) = IZR (Z.of_nat k)).
  { intros k Hk. destruct (f64_ofZ_R (Z.of_nat k)) as (A & B); [lia|].
    destruct (f64_to_f32_Z (f64_ofZ (Z.of_nat k)) (Z.of_nat k)) as (D & E); auto; lia. }
  destruct (C i Hi) as (F1 & R1). destruct (C j Hj) as (F2 & R2).
  destruct (Nat.ltb i j) eqn:E.
  - apply Nat.ltb_lt in E. apply (ltb32 _ _ F1 F2). rewrite R1, R2. apply IZR_lt. lia.
  - apply Nat.ltb_ge in E. destruct (Bltb _ _) eqn:X; [|reflexivity]. exfalso.
    apply (ltb32 _ _ F1 F2) in X. rewrite R1, R2 in X. apply lt_IZR in X. lia.
Qed.
Print Assumptions C25_times.

(** ** A run of three steps that stops in the fourth and is resumed from the second *)

Definition q (n : Z) : QNum := nofZ n.
Definition qvalues (i : nat) : values QNum :=
  let a := q (Z.of_nat i) in let o := q 0 in
  mkValues (a, o, o) (o, a, o) (o, o, a) (q 7) (q 1, q 1, q 1) (q 2, a, q 2) (q 3, q 3, q 3)
    [mkSeg a (q 5) o; mkSeg (q 4) a o].
Definition qstep (n i : nat) : step QNum := mkStep (q (Z.of_nat i)) (q 1) (repeat (qvalues i) n).

Definition id_ (v : QNum) : QNum := v.
Definition qopen (old : option (file QNum)) (t : Z) (sizes : list nat) (profile : bool) : outcome (log QNum) :=
  open QNum id_ nltb (q (-1)) old (q t) sizes profile.
Definition rows_at (f : file QNum) (p : path) : list (list Z) :=
  match f p with Some d => map (map (fun q => QArith_base.Qnum q)) (drows d) | None => [] end.

Definition got (o : outcome (log QNum)) : log QNum := match o with Ok l => l | _ => mkLog none (fun _ => false) 0 false end.
Definition is_ok {A} (o : outcome A) : bool := match o with Ok _ => true | _ => false end.
Lemma ok_got o : is_ok o = true -> o = Ok (got o).
Proof. destruct o; simpl; [reflexivity|discriminate|discriminate]. Qed.

Definition run1 := got (write_steps QNum id_ (got (qopen None 0 [2] true)) (map (qstep 1) (seq 0 3))).
Definition stopped := got (torn QNum id_ run1 (qstep 1 3) 6).
Definition run2 := got (write_steps QNum id_ (got (qopen (Some (lfile stopped)) 1 [2] true)) (map (qstep 1) (seq 1 1))).

Example C25_ex :
  map (rows_at (lfile stopped)) [PTime; PBody 0 QPosition; PBody 0 QSpring; PBody 0 QPressure] =
    [ [[0]; [1]; [2]; [3]]; [[1; 1; 1]; [1; 1; 1]; [1; 1; 1]; [1; 1; 1]];
      [[2; 0; 2]; [2; 1; 2]; [2; 2; 2]]; [[0; 4]; [1; 4]; [2; 4]] ]%Z /\
  map (rows_at (lfile run2)) [PTime; PBody 0 QPosition; PBody 0 QSpring; PBody 0 QPressure] =
    [ [[0]; [1]]; [[1; 1; 1]; [1; 1; 1]]; [[2; 0; 2]; [2; 1; 2]]; [[0; 4]; [1; 4]] ]%Z.
Proof. vm_compute. split; reflexivity. Qed.

Example C25_history_ex :
  log_of QNum id_ nltb (q (-1)) (qstep 1) 3 [2] true (Some (lfile (got (torn QNum id_ run2 (qstep 1 2) 0)))) 2.
Proof.
  apply (LogRun QNum id_ nltb (q (-1)) (qstep 1) 3 [2] true (Some (lfile stopped)) 3 1 1 0
           (got (qopen (Some (lfile stopped)) 1 [2] true)) run2 _).
  - apply (LogRun QNum id_ nltb (q (-1)) (qstep 1) 3 [2] true None 0 0 3 6 (got (qopen None 0 [2] true)) run1 stopped);
      [apply LogNew|lia|lia|apply ok_got; vm_compute; reflexivity|apply ok_got; vm_compute; reflexivity|apply ok_got; vm_compute; reflexivity].
  - lia.
  - lia.
  - apply ok_got. vm_compute. reflexivity.
  - apply ok_got. vm_compute. reflexivity.
  - apply ok_got. vm_compute. reflexivity.
Qed.

(** ** Where the log is not aligned *)

(** The claim for all datasets of the file. *)
Definition all_aligned {V} (f : file V) : Prop :=
  forall p r d e, f p = Some d -> f r = Some e -> length (drows d) = length (drows e).

(** ... over two runs, whose bodies and profiles are related by [R]. *)
Definition claim (R : list nat * bool -> list nat * bool -> Prop) : Prop :=
  forall (K : Num) (V : Type) (conv : K -> V) (vltb : V -> V -> bool) (vnan : V)
    (t1 t2 : K) (sizes1 sizes2 : list nat) (p1 p2 : bool) (ss1 ss2 : list (step K)) (l1 l1' l2 l2' : log V),
    R (sizes1, p1) (sizes2, p2) ->
    Forall (fits_step sizes1) ss1 -> Forall (fits_step sizes2) ss2 ->
    open V conv vltb vnan None t1 sizes1 p1 = Ok l1 -> write_steps V conv l1 ss1 = Ok l1' ->
    open V conv vltb vnan (Some (lfile l1')) t2 sizes2 p2 = Ok l2 -> write_steps V conv l2 ss2 = Ok l2' ->
    all_aligned (lfile l2').

Definition unequal (f : file QNum) (p r : path) : bool :=
  match f p, f r with Some d, Some e => negb (Nat.eqb (length (drows d)) (length (drows e))) | _, _ => false end.
Lemma unequal_not f p r : unequal f p r = true -> ~ all_aligned f.
Proof.
  unfold unequal. intros H A. destruct (f p) as [d|] eqn:E; [|discriminate]. destruct (f r) as [e|] eqn:E'; [|discriminate].
  rewrite (A p r d e E E'), Nat.eqb_refl in H. discriminate.
Qed.

(** A body taken out of the space between two runs keeps its rows. *)
Definition two_bodies := got (write_steps QNum id_ (got (qopen None 0 [2; 2] false)) [qstep 2 0]).
Definition then_one := got (write_steps QNum id_ (got (qopen (Some (lfile two_bodies)) 0 [2] false)) []).
Theorem C25_removed_body_refuted : ~ claim (fun a b => snd a = snd b).
Proof.
  intro H.
  apply (unequal_not (lfile then_one) PTime (PBody 1 QHydro)); [vm_compute; reflexivity|].
  apply (H QNum QNum id_ nltb (q (-1)) (q 0) (q 0) [2; 2] [2] false false [qstep 2 0] []
           (got (qopen None 0 [2; 2] false)) two_bodies (got (qopen (Some (lfile two_bodies)) 0 [2] false))).
  - reflexivity.
  - repeat constructor.
  - constructor.
  - apply ok_got; vm_compute; reflexivity.
  - apply ok_got; vm_compute; reflexivity.
  - apply ok_got; vm_compute; reflexivity.
  - apply ok_got; vm_compute; reflexivity.
Qed.
Print Assumptions C25_removed_body_refuted.

(** Resumed without profiles, the pressure stops growing. *)
Definition with_profile := got (write_steps QNum id_ (got (qopen None 0 [2] true)) [qstep 1 0]).
Definition then_without := got (write_steps QNum id_ (got (qopen (Some (lfile with_profile)) 1 [2] false)) [qstep 1 1]).
Theorem C25_profile_refuted : ~ claim (fun a b => fst a = fst b).
Proof.
  intro H.
  apply (unequal_not (lfile then_without) PTime (PBody 0 QPressure)); [vm_compute; reflexivity|].
  apply (H QNum QNum id_ nltb (q (-1)) (q 0) (q 1) [2] [2] true false [qstep 1 0] [qstep 1 1]
           (got (qopen None 0 [2] true)) with_profile (got (qopen (Some (lfile with_profile)) 1 [2] false))).
  - reflexivity.
  - repeat constructor.
  - repeat constructor.
  - apply ok_got; vm_compute; reflexivity.
  - apply ok_got; vm_compute; reflexivity.
  - apply ok_got; vm_compute; reflexivity.
  - apply ok_got; vm_compute; reflexivity.
Qed.
Print Assumptions C25_profile_refuted.

(** Times are kept as floats: a row at 16777216 is dropped when the run is resumed
    at 16777217. *)
Theorem C25_float_refuted :
  ~ (forall (f : file f32) (t : F64) (sizes : list nat) (profile : bool) (l : log f32) (times : list F64) d d',
       f PTime = Some d -> drows d = map (fun u => [f64_to_f32 u]) times ->
       open (K:=F64) f32 f64_to_f32 Bltb B754_nan (Some f) t sizes profile = Ok l -> lfile l PTime = Some d' ->
       (forall u, In u times -> Bltb u t = true) -> length (drows d') = length times).
Proof.
  intro H.
  set (d := mkDset 1 1 [[f64_to_f32 (f64_ofZ 16777216)]]).
  set (f := store f32 PTime d none).
  destruct (open_ok f32 B754_nan (K:=F64) f64_to_f32 Bltb (Some f) (f64_ofZ 16777217) [] false) as (l & E).
  { simpl. lia. }
  { intros a e [<-|[]] He. simpl in He. injection He as <-. simpl. lia. }
  destruct (open_at f32 _ _ _ _ _ _ _ _ _ _ E (LTime _ _)) as (_ & d' & D1 & _ & D2).
  simpl old_file in D2.
  assert (X : length (drows d') = 0).
  { change (f PTime) with (Some d) in D2. apply set_extent_rows in D2 as (-> & _).
    unfold kept. change (f PTime) with (Some d). unfold d. cbn [drows count_before].
    replace (Bltb (f64_to_f32 (f64_ofZ 16777216)) (f64_to_f32 (f64_ofZ 16777217))) with false by (vm_compute; reflexivity).
    reflexivity. }
  rewrite (H f _ _ _ _ [f64_ofZ 16777216 : F64] d d' eq_refl eq_refl E D1) in X; [discriminate X|].
  intros u [<-|[]]. vm_compute. reflexivity.
Qed.
Print Assumptions C25_float_refuted.

(** * C70 bodies that were not there when the log was opened are left out of it *)

(** As many bodies as there were: every step can be logged. *)
Theorem C70_no_more_bodies_partial (K : Num) (V : Type) (l : log V) (t dt : K) (bs : list (values K)) :
  length bs <= lbodies l -> exists w, writes V l t dt bs = Some w.
Proof.
  intro H. unfold writes. destruct (bodies_writes_some (lbodies l) (lprofile l) dt bs 0 H) as (w & ->). eauto.
Qed.
Print Assumptions C70_no_more_bodies_partial.

(** One more: its handles are looked up past the end of the vectors. *)
Theorem C70_refuted (K : Num) (V : Type) (conv : K -> V) (l : log V) (t dt : K) (bs : list (values K)) :
  lbodies l < length bs -> write V conv l t dt bs = Undefined.
Proof.
  intro H. unfold write, writes. rewrite bodies_writes_none; [reflexivity|lia|exact H].
Qed.
Print Assumptions C70_refuted.
Example C70_ex : write QNum id_ (got (qopen None 0 [2] false)) (q 0) (q 1) [qvalues 0; qvalues 0] = Undefined.
Proof. apply C70_refuted. vm_compute. lia. Qed.
