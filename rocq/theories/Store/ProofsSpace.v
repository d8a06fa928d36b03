(** Saving and loading a whole space. *)

From Coq Require Import List Arith ZArith Bool String Ascii Permutation Lia Sorted DecimalString.
From Flocq Require Import IEEE754.BinarySingleNaN.
From Verif.Base Require Import Num F64 F32.
From Verif.Body Require Model.
From Verif.Store Require Import Model Spec Proofs ProofsLoad.
Import ListNotations.
Local Open Scope string_scope.
Local Open Scope list_scope.

Lemma write_bodies_names n i l bs : write_bodies n i l = Ok bs -> map fst bs = map body_name (seq i (List.length l)).
Proof.
  revert i bs. induction l as [|b tl IH]; intros i bs H; cbn [write_bodies] in H.
  - apply ok_inj in H. subst bs. reflexivity.
  - apply bind_ok in H. destruct H as (r & _ & H). apply bind_ok in H. destruct H as (d & _ & H).
    apply bind_ok in H. destruct H as (rest & E & H). apply ok_inj in H. subst bs.
    cbn [map fst List.length seq]. f_equal. apply IH. exact E.
Qed.

Lemma write_bodies_at n i l bs k b : write_bodies n i l = Ok bs -> nth_error l k = Some b ->
  exists r d, root_name n (root_body b) = Ok r /\ write_body r b = Ok d /\ assoc (body_name (i + k)) bs = Some d.
Proof.
  revert i bs k. induction l as [|c tl IH]; intros i bs k H N; [destruct k; discriminate|].
  cbn [write_bodies] in H.
  apply bind_ok in H. destruct H as (r & R & H). apply bind_ok in H. destruct H as (d & D & H).
  apply bind_ok in H. destruct H as (rest & E & H). apply ok_inj in H. subst bs.
  destruct k as [|k]; cbn [nth_error] in N.
  - assert (c = b) by congruence. subst c. exists r, d. rewrite Nat.add_0_r, assoc_hit. auto.
  - destruct (IH _ _ _ E N) as (r' & d' & R' & D' & A). exists r', d'. split; auto. split; auto.
    rewrite assoc_skip.
    + replace (i + S k) with (S i + k) by lia. exact A.
    + apply String.eqb_neq. intros X. apply body_name_inj in X. lia.
Qed.

Lemma root_name_plain n r s : root_name n r = Ok s -> no_nul s.
Proof.
  destruct r as [|i|]; cbn [root_name]; intros H.
  - apply ok_inj in H. subst s. intros k E. destruct k; discriminate.
  - destruct (Nat.ltb i n); [|discriminate]. apply ok_inj in H. subst s.
    unfold body_name.
    assert (X : forall d k, String.get k (NilEmpty.string_of_uint d) <> Some Ascii.zero).
    { induction d; intros k E; destruct k; cbn in E; try discriminate; eapply IHd; exact E. }
    assert (Y : forall k, String.get k (decimal i) <> Some Ascii.zero) by (intros k; apply X).
    intros k E. destruct (Nat.ltb i 10); do 5 (destruct k as [|k]; [try discriminate|]);
      cbn [String.append String.get] in E; eapply Y; exact E.
  - discriminate.
Qed.

Lemma root_read n p r s : root_name n r = Ok s -> Permutation p (seq 0 n) ->
  same_root p r (read_root (map body_name p) s).
Proof.
  intros H P. destruct r as [|i|]; cbn [root_name] in H.
  - apply ok_inj in H. subst s. reflexivity.
  - destruct (Nat.ltb_spec i n) as [L|]; [|discriminate]. apply ok_inj in H. subst s.
    unfold read_root. rewrite body_name_not_empty.
    assert (ND : NoDup p). { eapply Permutation_NoDup; [symmetry; exact P|apply seq_NoDup]. }
    assert (I : In i p). { eapply Permutation_in; [symmetry; exact P|]. apply in_seq. lia. }
    destruct (index_name i p ND I) as (k & E & G). rewrite E. cbn [same_root]. eauto.
  - discriminate.
Qed.

(** Validation that passes leaves a loaded body unchanged. *)
Lemma mend_valid b b' : same_body b b' -> invalid b = false -> mend b' = b'.
Proof.
  intros S V. pose proof (kept_kspring _ _ S) as K. unfold mend. rewrite <- K.
  unfold invalid, params in V. unfold Body.Model.first_error in V.
  cbn [Body.Model.damping Body.Model.kspring Body.Model.collision_min Body.Model.collision_max] in V.
  destruct (damping b) as [[dx dy] dz], (kspring b) as [[kx ky] ka] eqn:KS,
    (collision_min b) as [[lx ly] la], (collision_max b) as [[hx hy] ha].
  destruct (@Body.Model.bad_damping F64 dx); [discriminate|].
  destruct (@Body.Model.bad_damping F64 dy); [discriminate|].
  destruct (@Body.Model.bad_damping F64 dz); [discriminate|].
  destruct (@Body.Model.bad_kspring F64 kx) eqn:BX; [discriminate|].
  destruct (@Body.Model.bad_kspring F64 ky) eqn:BY; [discriminate|].
  destruct (@Body.Model.bad_kspring F64 ka) eqn:BA; [discriminate|].
  unfold Body.Model.bad_kspring in BX, BY, BA.
  apply orb_false_iff in BX, BY, BA.
  assert (FX : @Body.Model.fix_kspring F64 finf kx = kx).
  { unfold Body.Model.fix_kspring. destruct BX as (_ & ->). reflexivity. }
  assert (FY : @Body.Model.fix_kspring F64 finf ky = ky).
  { unfold Body.Model.fix_kspring. destruct BY as (_ & ->). reflexivity. }
  assert (FA : @Body.Model.fix_kspring F64 finf ka = ka).
  { unfold Body.Model.fix_kspring. destruct BA as (_ & ->). reflexivity. }
  rewrite FX, FY, FA.
  destruct b' as [x1 x2 x3 x4 x5 x6]. cbn in K |- *. rewrite K. reflexivity.
Qed.

Section Space.
Variable meta : attrs.
Variable accepts : string -> bool.
Variable properties : list vec -> f64 * vec * f64.

Definition lists_of (s : space) : list (string * dataset) :=
  write_list "vort" (vortices s) ++ write_list "heat" (heat s)
  ++ write_list "ink" (streak s) ++ write_list "ink_source" (streak_sources s)
  ++ write_list "source" (sources s).

Lemma save_objects s f : save meta s = Ok f ->
  existsb invalid (bodies s) = false
  /\ exists bs, write_bodies (List.length (bodies s)) 0 (bodies s) = Ok bs /\ objects f = lists_of s ++ bs.
Proof.
  unfold save. destruct (existsb invalid (bodies s)); [discriminate|]. intros H. split; auto.
  apply bind_ok in H. destruct H as (bs & E & H). apply ok_inj in H. exists bs. split; auto.
  subst f. unfold lists_of. cbn [objects]. rewrite <- !app_assoc. reflexivity.
Qed.

Lemma lists_names s : filter (fun n => String.prefix "body" n) (map fst (lists_of s)) = [].
Proof.
  unfold lists_of.
  destruct (vortices s), (heat s), (streak s), (streak_sources s), (sources s); reflexivity.
Qed.

Lemma filter_names l : filter (fun n => String.prefix "body" n) (map body_name l) = map body_name l.
Proof. induction l as [|x tl IH]; cbn [map filter]; auto. rewrite body_name_prefix, IH. reflexivity. Qed.

Lemma saved_names s f : save meta s = Ok f -> body_names f = map body_name (seq 0 (List.length (bodies s))).
Proof.
  intros H. destruct (save_objects s f H) as (_ & bs & W & O).
  unfold body_names. rewrite O, map_app, filter_app, lists_names.
  rewrite (write_bodies_names _ _ _ _ W). cbn [app]. apply filter_names.
Qed.

Lemma saved_body s f i b : save meta s = Ok f -> nth_error (bodies s) i = Some b ->
  exists r d, root_name (List.length (bodies s)) (root_body b) = Ok r /\ write_body r b = Ok d
    /\ assoc (body_name i) (objects f) = Some d.
Proof.
  intros H N. destruct (save_objects s f H) as (_ & bs & W & O).
  destruct (write_bodies_at _ _ _ _ _ _ W N) as (r & d & R & D & A).
  exists r, d. split; auto. split; auto. rewrite O. unfold lists_of. rewrite <- !app_assoc.
  rewrite !assoc_list_skip by reflexivity. exact A.
Qed.

Lemma read_bodies_spec f names todo :
  (forall n, In n todo -> exists b, read_body accepts properties f names n = Ok b) ->
  exists l, read_bodies accepts properties f names todo = Ok l /\ List.length l = List.length todo
    /\ forall k n, nth_error todo k = Some n ->
         exists b, read_body accepts properties f names n = Ok b /\ nth_error l k = Some b.
Proof.
  induction todo as [|x tl IH]; intros H; cbn [read_bodies].
  - exists []. repeat split; auto. intros k n E. destruct k; discriminate.
  - destruct (H x) as (b & B); [left; reflexivity|].
    destruct IH as (l & L & LE & LN); [intros n I; apply H; right; exact I|].
    exists (b :: l). rewrite B. cbn [bind]. rewrite L. cbn [bind List.length]. repeat split; auto.
    intros [|k] n E; cbn [nth_error] in *.
    + exists b. split; congruence.
    + apply LN. exact E.
Qed.

Lemma assoc_not_body name bs l : map fst bs = map body_name l -> String.prefix "body" name = false ->
  assoc name (bs : list (string * dataset)) = None.
Proof.
  intros E P. apply assoc_none. intros a I.
  assert (J : In name (map fst bs)) by (apply in_map_iff; exists (name, a); auto).
  rewrite E in J. apply in_map_iff in J. destruct J as (i & <- & _).
  rewrite body_name_prefix in P. discriminate.
Qed.

Theorem load_saved s s0 f : save meta s = Ok f -> only_meta meta -> plain accepts s ->
  (sources s <> [] \/ sources s0 = []) ->
  exists p s', sort (map body_name (seq 0 (List.length (bodies s)))) = map body_name p
    /\ load accepts properties f s0 = Ok s' /\ same_space p s s'
    /\ Forall (new_body properties) (bodies s').
Proof.
  intros SV OM (PC & PE & PB) HS.
  destruct (sort_names (List.length (bodies s))) as (p & SN & P).
  destruct (save_objects s f SV) as (INV & bs & W & O).
  assert (EN : sort (body_names f) = map body_name p) by (rewrite (saved_names s f SV); exact SN).
  (* bodies *)
  assert (RB : forall i, In i p -> exists b b', nth_error (bodies s) i = Some b
            /\ read_body accepts properties f (map body_name p) (body_name i) = Ok b'
            /\ same_body b b' /\ same_root p (root_body b) (root_body b') /\ mend b' = b' /\ new_body properties b').
  { intros i I. assert (L : i < List.length (bodies s)).
    { assert (J : In i (seq 0 (List.length (bodies s)))) by (eapply Permutation_in; eauto).
      apply in_seq in J. lia. }
    destruct (nth_error (bodies s) i) as [b|] eqn:N; [|apply nth_error_None in N; lia].
    destruct (saved_body s f i b SV N) as (r & d & R & D & A).
    assert (PL : plain_body accepts b) by (rewrite Forall_forall in PB; apply PB; eapply nth_error_In; eauto).
    destruct (read_written accepts properties f (map body_name p) _ r b d A D PL (root_name_plain _ _ _ R))
      as (b' & E & S & RR & NB).
    exists b, b'. split; auto. split; auto. split; auto. split.
    - rewrite RR. eapply root_read; eauto.
    - split; auto. apply mend_valid with b; auto.
      destruct (invalid b) eqn:IV; auto. exfalso.
      assert (X : existsb invalid (bodies s) = true).
      { apply existsb_exists. exists b. split; auto. eapply nth_error_In; eauto. }
      congruence. }
  destruct (read_bodies_spec f (map body_name p) (map body_name p)) as (l & RL & LL & LN).
  { intros n I. apply in_map_iff in I. destruct I as (i & <- & I).
    destruct (RB i I) as (_ & b' & _ & E & _). eauto. }
  assert (LK : forall k i, nth_error p k = Some i -> exists b b', nth_error (bodies s) i = Some b
            /\ nth_error l k = Some b' /\ same_body b b' /\ same_root p (root_body b) (root_body b')
            /\ mend b' = b' /\ new_body properties b').
  { intros k i K. destruct (RB i (nth_error_In _ _ K)) as (b & b' & N & E & X).
    destruct (LN k (body_name i)) as (b'' & E' & N').
    { rewrite nth_error_map, K. reflexivity. }
    rewrite E in E'. apply ok_inj in E'. subst b''. exists b, b'. tauto. }
  assert (LP : List.length l = List.length p) by (rewrite LL, map_length; reflexivity).
  assert (ALL : Forall (fun b' => mend b' = b' /\ new_body properties b') l).
  { apply Forall_forall. intros b' I. apply In_nth_error in I. destruct I as (k & K).
    destruct (nth_error p k) as [i|] eqn:PK.
    - destruct (LK k i PK) as (b & b'' & _ & K' & _ & _ & X). rewrite K in K'. congruence.
    - apply nth_error_None in PK. assert (k < List.length l) by (apply nth_error_Some; congruence). lia. }
  assert (ML : map mend l = l).
  { clear -ALL. induction ALL as [|b tl (M & _) _ IH]; cbn [map]; auto. rewrite M, IH. reflexivity. }
  (* lists *)
  assert (NB : forall name, String.prefix "body" name = false -> assoc name bs = None).
  { intros name. eapply assoc_not_body. exact (write_bodies_names _ _ _ _ W). }
  assert (RD : forall name l0 old, assoc name (objects f) =
             match l0 with [] => None | _ => Some (DList (map (fun o => (ox o, oy o, og o)) l0)) end ->
             (l0 <> [] \/ old = []) ->
             exists m, read_list f name old = Ok m /\ Forall2 same_obj l0 m).
  { intros name l0 old E H. unfold read_list. rewrite E. destruct l0 as [|o l0].
    - exists old. destruct H as [H| ->]; [congruence|]. split; auto.
    - eexists. split; [reflexivity|]. apply fill_same. }
  destruct (RD "vort" (vortices s) []) as (v & RV & SVo); auto.
  { rewrite O. unfold lists_of. rewrite <- !app_assoc, assoc_list_hit. destruct (vortices s); auto.
    rewrite !assoc_list_skip by reflexivity. apply NB. reflexivity. }
  destruct (RD "heat" (heat s) []) as (h & RH & SH); auto.
  { rewrite O. unfold lists_of. rewrite <- !app_assoc. rewrite (assoc_list_skip "vort") by reflexivity.
    rewrite assoc_list_hit. destruct (heat s); auto.
    rewrite !assoc_list_skip by reflexivity. apply NB. reflexivity. }
  destruct (RD "ink" (streak s) []) as (st & RS & SS); auto.
  { rewrite O. unfold lists_of. rewrite <- !app_assoc. rewrite (assoc_list_skip "vort"), (assoc_list_skip "heat") by reflexivity.
    rewrite assoc_list_hit. destruct (streak s); auto.
    rewrite !assoc_list_skip by reflexivity. apply NB. reflexivity. }
  destruct (RD "ink_source" (streak_sources s) []) as (ss & RSS & SSS); auto.
  { rewrite O. unfold lists_of. rewrite <- !app_assoc.
    rewrite (assoc_list_skip "vort"), (assoc_list_skip "heat"), (assoc_list_skip "ink") by reflexivity.
    rewrite assoc_list_hit. destruct (streak_sources s); auto.
    rewrite !assoc_list_skip by reflexivity. apply NB. reflexivity. }
  destruct (RD "source" (sources s) (sources s0)) as (so & RSO & SSO); auto.
  { rewrite O. unfold lists_of. rewrite <- !app_assoc.
    rewrite (assoc_list_skip "vort"), (assoc_list_skip "heat"), (assoc_list_skip "ink"),
      (assoc_list_skip "ink_source") by reflexivity.
    rewrite assoc_list_hit. destruct (sources s); [apply NB|]; reflexivity. }
  (* attributes *)
  assert (FA : exists a, fattrs f = a /\ (forall n, ~ In n ["git_rev"; "git_info"; "git_diff"; "time_local"] ->
    assoc n a = assoc n
      (w_str "caption" (caption s)
       ++ [("time", AT (time s)); ("dt", AT (dt s)); ("dt_save", AT (dt_save s));
           ("dt_streak", AT (dt_streak s)); ("dt_profile", AT (dt_profile s));
           ("re", AD (re s)); ("pr", AD (pr s)); ("inf_marker", AV (inf_marker s))]
       ++ w_str "inf_speed_x" (inf_vx s) ++ w_str "inf_speed_y" (inf_vy s)
       ++ [("inf_circulation", AD (inf_g s)); ("gravity", AV (gravity s)); ("time_to_finish", AD (finish s))]))).
  { eexists. split; [reflexivity|]. intros n NI. unfold save in SV. rewrite INV in SV.
    apply bind_ok in SV. destruct SV as (bs' & _ & SV). apply ok_inj in SV. subst f. cbn [fattrs].
    rewrite !assoc_app, (meta_none meta n OM NI). 
    repeat match goal with |- context [match ?x with Some _ => _ | None => _ end] => destruct x end; reflexivity. }
  destruct FA as (a & EA & AT).
  assert (PX : no_nul (inf_vx s) /\ (inf_vx s <> "" -> accepts (inf_vx s) = true)) by (apply PE; cbn [In]; auto).
  assert (PY : no_nul (inf_vy s) /\ (inf_vy s <> "" -> accepts (inf_vy s) = true)) by (apply PE; cbn [In]; auto).
  destruct PX as (NX & AX), PY as (NY & AY).
  Local Ltac notmeta := cbn [In]; intuition discriminate.
  unfold load. rewrite EA.
  assert (H1 : r_str a "caption" = Ok (caption s)).
  { apply r_str_of. rewrite AT by notmeta. look. destruct (String.eqb (caption s) ""); look; reflexivity. }
  assert (H2 : r_str a "inf_speed_x" = Ok (inf_vx s)).
  { apply r_str_of. rewrite AT by notmeta. look. destruct (String.eqb (inf_vx s) ""); look; reflexivity. }
  assert (H3 : r_str a "inf_speed_y" = Ok (inf_vy s)).
  { apply r_str_of. rewrite AT by notmeta. look. destruct (String.eqb (inf_vy s) ""); look; reflexivity. }
  rewrite (bind_eq _ _ _ H1).
  rewrite (bind_eq _ _ (time s)) by (apply r_time_of; rewrite AT by notmeta; look; reflexivity).
  rewrite (bind_eq _ _ (dt s)) by (apply r_time_of; rewrite AT by notmeta; look; reflexivity).
  rewrite (bind_eq _ _ (dt_save s)) by (apply r_time_of; rewrite AT by notmeta; look; reflexivity).
  rewrite (bind_eq _ _ (dt_streak s)) by (apply r_time_of; rewrite AT by notmeta; look; reflexivity).
  rewrite (bind_eq _ _ (dt_profile s)) by (apply r_time_of; rewrite AT by notmeta; look; reflexivity).
  rewrite (bind_eq _ _ (re s)) by (apply r_d_of; rewrite AT by notmeta; look; reflexivity).
  rewrite (bind_eq _ _ (pr s)) by (apply r_d_of; rewrite AT by notmeta; look; reflexivity).
  rewrite (bind_eq _ _ (inf_marker s)) by (apply r_vec_of; rewrite AT by notmeta; look; reflexivity).
  rewrite (bind_eq _ _ _ (r_expr_of accepts _ _ _ H2 AX)), (bind_eq _ _ _ (r_expr_of accepts _ _ _ H3 AY)).
  rewrite (bind_eq _ _ (inf_g s)) by (apply r_d_of; rewrite AT by notmeta; look; reflexivity).
  rewrite (bind_eq _ _ (gravity s)) by (apply r_vec_of; rewrite AT by notmeta; look; reflexivity).
  rewrite (bind_eq _ _ (finish s)) by (apply r_d_of; rewrite AT by notmeta; look; reflexivity).
  rewrite (bind_eq _ _ _ RV), (bind_eq _ _ _ RH), (bind_eq _ _ _ RS), (bind_eq _ _ _ RSS), (bind_eq _ _ _ RSO).
  cbv zeta. rewrite EN, (bind_eq _ _ _ RL), ML.
  exists p. eexists. split; [exact SN|]. split; [reflexivity|]. split.
  - constructor; cbn; try reflexivity; auto.
    split; [exact P|]. split.
    + rewrite LP. rewrite (Permutation_length P), seq_length. reflexivity.
    + intros k i K. destruct (LK k i K) as (b & b' & X). exists b, b'. tauto.
  - cbn. eapply Forall_impl; [|exact ALL]. intros b (_ & X). exact X.
Qed.
End Space.
