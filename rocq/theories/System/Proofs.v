(** Numbering and plan of the equations. *)

From Coq Require Import ZArith Bool List Lia Permutation.
From Verif.Base Require Import Num.
From Verif.Matrix Require Import Model Proofs.
From Verif.Body Require Import Model.
From Verif.Flow Require Import Model.
From Verif.System Require Import Model Spec.
Import ListNotations.

Lemma system_size_cons n t : system_size (n :: t) = n + 9 + system_size t.
Proof. unfold system_size; simpl. lia. Qed.

Lemma body_unknowns_length b n : length (body_unknowns b n) = n + 9.
Proof. unfold body_unknowns. rewrite !app_length, !map_length, seq_length. reflexivity. Qed.

Lemma unknowns_length_from sizes : forall b, length (unknowns_from b sizes) = system_size sizes.
Proof.
  induction sizes as [|n t IH]; intros b; simpl; [reflexivity|].
  rewrite app_length, body_unknowns_length, IH, system_size_cons. lia.
Qed.
Lemma unknowns_length sizes : length (unknowns sizes) = system_size sizes.
Proof. apply unknowns_length_from. Qed.

Lemma body_unknowns_body b n u : In u (body_unknowns b n) -> ubody u = b.
Proof.
  unfold body_unknowns. rewrite !in_app_iff, !in_map_iff.
  intros [(?&<-&?)|[(?&<-&?)|[(?&<-&?)|(?&<-&?)]]]; reflexivity.
Qed.

Lemma body_unknowns_nodup b n : NoDup (body_unknowns b n).
Proof.
  unfold body_unknowns.
  assert (H : forall (f : comp -> unk), (forall c d, f c = f d -> c = d) -> NoDup (map f comps)).
  { intros f Hf. assert (X : forall l, NoDup l -> NoDup (map f l)).
    { induction 1; simpl; constructor; auto. rewrite in_map_iff. intros (y & E & Y). apply Hf in E. subst. auto. }
    apply X. repeat constructor; simpl; intuition discriminate. }
  assert (Happ : forall (A : Type) (l m : list A), NoDup l -> NoDup m -> (forall a, In a l -> ~ In a m) -> NoDup (l ++ m)).
  { intros A l m Hl Hm D. induction Hl; simpl; [assumption|]. constructor.
    - rewrite in_app_iff. intros [|X]; [auto|]. apply (D x (or_introl eq_refl) X).
    - apply IHHl. intros a Ha. apply D; right; exact Ha. }
  repeat apply Happ; try (apply H; intros ? ? E; injection E; auto).
  - assert (X : forall l, NoDup l -> NoDup (map (UG b) l)).
    { induction 1; simpl; constructor; auto. rewrite in_map_iff. intros (y & E & Y). injection E as ->. auto. }
    apply X, seq_NoDup.
  - intros a; rewrite !in_map_iff; intros (? & <- & _) (? & E & _); discriminate E.
  - intros a; rewrite in_app_iff, !in_map_iff; intros (? & <- & _) [(? & E & _)|(? & E & _)]; discriminate E.
  - intros a; rewrite !in_app_iff, !in_map_iff; intros (? & <- & _) [(? & E & _)|[(? & E & _)|(? & E & _)]]; discriminate E.
Qed.

Lemma unknowns_body sizes : forall b u, In u (unknowns_from b sizes) -> b <= ubody u.
Proof.
  induction sizes as [|n t IH]; intros b u; simpl; [easy|].
  rewrite in_app_iff. intros [H|H]; [apply body_unknowns_body in H; lia|].
  apply IH in H. lia.
Qed.

Lemma unknowns_nodup_from sizes : forall b, NoDup (unknowns_from b sizes).
Proof.
  induction sizes as [|n t IH]; intros b; simpl; [constructor|].
  assert (Happ : forall (A : Type) (l m : list A), NoDup l -> NoDup m -> (forall a, In a l -> ~ In a m) -> NoDup (l ++ m)).
  { intros A l m Hl Hm D. induction Hl; simpl; [assumption|]. constructor.
    - rewrite in_app_iff. intros [|X]; [auto|]. apply (D x (or_introl eq_refl) X).
    - apply IHHl. intros a Ha. apply D; right; exact Ha. }
  apply Happ; [apply body_unknowns_nodup|apply IH|].
  intros a Ha Hb. apply body_unknowns_body in Ha. apply unknowns_body in Hb. lia.
Qed.
Lemma unknowns_nodup sizes : NoDup (unknowns sizes).
Proof. apply unknowns_nodup_from. Qed.

(** ** Where the unknowns are *)

Lemma start_size sizes b : start sizes b = system_size (firstn b sizes).
Proof.
  unfold start. induction (firstn b sizes) as [|n t IH]; [reflexivity|].
  simpl fold_right. rewrite IH, system_size_cons. reflexivity.
Qed.

Lemma body_unknowns_at b n u : ubody u = b -> match u with UG _ i => i < n | _ => True end ->
  nth_error (body_unknowns b n) (offset n u) = Some u.
Proof.
  intros <- Hu. unfold body_unknowns.
  assert (Lm : forall f : comp -> unk, length (map f comps) = 3) by reflexivity.
  destruct u as [b i|b c|b c|b c]; simpl ubody; simpl offset.
  - rewrite nth_error_app1 by (rewrite map_length, seq_length; exact Hu).
    rewrite nth_error_map. rewrite (nth_error_nth' _ 0) by (rewrite seq_length; exact Hu).
    simpl. rewrite seq_nth by exact Hu. reflexivity.
  - rewrite nth_error_app2 by (rewrite map_length, seq_length; lia).
    rewrite map_length, seq_length. replace (n + comp_no c - n) with (comp_no c) by lia.
    destruct c; reflexivity.
  - rewrite nth_error_app2 by (rewrite map_length, seq_length; lia).
    rewrite map_length, seq_length. replace (n + 3 + comp_no c - n) with (3 + comp_no c) by lia.
    destruct c; reflexivity.
  - rewrite nth_error_app2 by (rewrite map_length, seq_length; lia).
    rewrite map_length, seq_length. replace (n + 6 + comp_no c - n) with (6 + comp_no c) by lia.
    destruct c; reflexivity.
Qed.

Lemma unknowns_at_from sizes : forall b k n u, nth_error sizes k = Some n -> ubody u = b + k ->
  match u with UG _ i => i < n | _ => True end ->
  nth_error (unknowns_from b sizes) (start sizes k + offset n u) = Some u.
Proof.
  induction sizes as [|m t IH]; intros b k n u Hk Hb Hu; [destruct k; discriminate Hk|].
  assert (Ho : offset n u < n + 9) by (destruct u as [? ?|? c|? c|? c]; simpl in *; try destruct c; simpl; lia).
  destruct k as [|k]; simpl in Hk |- *.
  - injection Hk as ->. unfold start; simpl. rewrite nth_error_app1 by (rewrite body_unknowns_length; exact Ho).
    apply body_unknowns_at; [lia|exact Hu].
  - replace (start (m :: t) (S k)) with (m + 9 + start t k) by reflexivity.
    rewrite nth_error_app2 by (rewrite body_unknowns_length; lia).
    rewrite body_unknowns_length. replace (m + 9 + start t k + offset n u - (m + 9)) with (start t k + offset n u) by lia.
    apply IH; [exact Hk|lia|exact Hu].
Qed.

Lemma known_at sizes u : known sizes u -> exists n, nth_error sizes (ubody u) = Some n /\
  match u with UG _ i => i < n | _ => True end.
Proof.
  destruct u; simpl.
  - intros (n & E & H). eauto.
  - intros H. destruct (nth_error sizes b) eqn:E; [eauto|]. apply nth_error_None in E. lia.
  - intros H. destruct (nth_error sizes b) eqn:E; [eauto|]. apply nth_error_None in E. lia.
  - intros H. destruct (nth_error sizes b) eqn:E; [eauto|]. apply nth_error_None in E. lia.
Qed.

Lemma unknowns_at sizes u : known sizes u -> nth_error (unknowns sizes) (col sizes u) = Some u.
Proof.
  intros H. destruct (known_at _ _ H) as (n & E & Hu). unfold col. rewrite (nth_error_nth _ _ 0 E).
  apply unknowns_at_from with (b := 0); auto.
Qed.

Lemma unknowns_known_from sizes : forall b u, In u (unknowns_from b sizes) ->
  exists n, nth_error sizes (ubody u - b) = Some n /\ b <= ubody u /\ match u with UG _ i => i < n | _ => True end.
Proof.
  induction sizes as [|m t IH]; intros b u; simpl; [easy|].
  rewrite in_app_iff. intros [H|H].
  - pose proof (body_unknowns_body _ _ _ H) as E. exists m.
    replace (ubody u - b) with 0 by lia. split; [reflexivity|]. split; [lia|].
    unfold body_unknowns in H. rewrite !in_app_iff, !in_map_iff in H.
    destruct H as [(i&<-&Hi)|[(?&<-&?)|[(?&<-&?)|(?&<-&?)]]]; auto. apply in_seq in Hi. lia.
  - destruct (IH _ _ H) as (n & E & L & Hu). exists n.
    replace (ubody u - b) with (S (ubody u - S b)) by lia. simpl. split; [exact E|]. split; [lia|exact Hu].
Qed.

Lemma unknowns_known sizes u : In u (unknowns sizes) <-> known sizes u.
Proof.
  split.
  - intros H. destruct (unknowns_known_from _ _ _ H) as (n & E & _ & Hu). rewrite Nat.sub_0_r in E.
    assert (L : ubody u < length sizes) by (apply nth_error_Some; congruence).
    destruct u; simpl in *; eauto.
  - intros H. apply unknowns_at in H. eapply nth_error_In; eauto.
Qed.

Lemma col_lt sizes u : known sizes u -> col sizes u < system_size sizes.
Proof. intros H. rewrite <- unknowns_length. apply nth_error_Some. rewrite (unknowns_at _ _ H). discriminate. Qed.

Lemma col_inj sizes u v : known sizes u -> known sizes v -> col sizes u = col sizes v -> u = v.
Proof.
  intros Hu Hv E. apply unknowns_at in Hu. apply unknowns_at in Hv. rewrite E in Hu. congruence.
Qed.

(** ** EnumerateBodies *)

Lemma enumerate_all sizes : forall k,
  flat_map (fun e => fst e ++ seq (snd e) 9) (enumerate_from k sizes) = seq k (system_size sizes).
Proof.
  induction sizes as [|n t IH]; intros k; [reflexivity|].
  simpl enumerate_from. cbn [flat_map fst snd]. rewrite IH, system_size_cons.
  rewrite <- seq_app, <- Nat.add_assoc, <- seq_app. reflexivity.
Qed.

Lemma enumerate_nth sizes : forall k b n, nth_error sizes b = Some n ->
  nth_error (enumerate_from k sizes) b = Some (seq (k + start sizes b) n, k + start sizes b + n).
Proof.
  induction sizes as [|m t IH]; intros k b n Hb; [destruct b; discriminate Hb|].
  destruct b as [|b]; simpl in Hb |- *.
  - injection Hb as ->. unfold start; simpl. rewrite Nat.add_0_r. reflexivity.
  - rewrite (IH _ _ _ Hb). replace (start (m :: t) (S b)) with (m + 9 + start t b) by reflexivity.
    f_equal. f_equal; [f_equal; lia|lia].
Qed.

(** ** Registration of the columns *)

Lemma register_from_spec addr sizes : injective addr -> forall l pre s,
  unknowns sizes = pre ++ l ->
  length (ptrs s) = system_size sizes ->
  (forall c p u, nth_error (ptrs s) c = Some p -> known sizes u -> p = addr u -> nth_error (unknowns sizes) c = Some u) ->
  (forall c u, nth_error pre c = Some u -> find (addr u) (idx s) = Some (Z.of_nat c)) ->
  exists s', register_from addr (length pre) l s = Ok s' /\ length (ptrs s') = system_size sizes /\
    (forall c p u, nth_error (ptrs s') c = Some p -> known sizes u -> p = addr u -> nth_error (unknowns sizes) c = Some u) /\
    (forall c u, nth_error (unknowns sizes) c = Some u -> find (addr u) (idx s') = Some (Z.of_nat c)).
Proof.
  intros Inj. induction l as [|u t IH]; intros pre s E L Hp Hi; simpl.
  - exists s. rewrite app_nil_r in E. rewrite E. split; [reflexivity|]. split; [exact L|]. split; [|exact Hi].
    rewrite <- E. exact Hp.
  - assert (Lp : length pre < length (ptrs s)).
    { rewrite L, <- unknowns_length, E, app_length. simpl. lia. }
    unfold set_solution. destruct (nth_error (ptrs s) (length pre)) as [old|] eqn:Eo;
      [|apply nth_error_None in Eo; lia].
    assert (Eu : nth_error (unknowns sizes) (length pre) = Some u).
    { rewrite E, nth_error_app2, Nat.sub_diag by lia. reflexivity. }
    replace (S (length pre)) with (length (pre ++ [u])) by (rewrite app_length; simpl; lia).
    apply IH; simpl.
    + rewrite E, <- app_assoc. reflexivity.
    + rewrite set_nth_length. exact L.
    + intros c p w Hc Hw Ep. rewrite set_nth_spec in Hc by exact Lp.
      destruct (Nat.eqb_spec c (length pre)) as [->|N].
      * injection Hc as <-. apply Inj in Ep. subst. exact Eu.
      * eapply Hp; eauto.
    + intros c w Hc. simpl.
      destruct (Z.eqb_spec (addr u) (addr w)) as [Ea|Na].
      * apply Inj in Ea. subst w.
        assert (Hc' : nth_error (unknowns sizes) c = Some u).
        { rewrite E. replace (pre ++ u :: t) with ((pre ++ [u]) ++ t) by (rewrite <- app_assoc; reflexivity).
          rewrite nth_error_app1; [exact Hc|]. apply nth_error_Some. congruence. }
        f_equal. f_equal. pose proof (unknowns_nodup sizes) as ND.
        pose proof (proj1 (NoDup_nth_error _) ND (length pre) c) as X.
        apply X; [|congruence]. apply nth_error_Some. congruence.
      * assert (Hc' : nth_error pre c = Some w).
        { assert (c < length pre \/ c = length pre) as [X| ->].
          { assert (c < length (pre ++ [u])) by (apply nth_error_Some; congruence). rewrite app_length in *; simpl in *; lia. }
          - rewrite nth_error_app1 in Hc by exact X. exact Hc.
          - rewrite nth_error_app2, Nat.sub_diag in Hc by lia. simpl in Hc. congruence. }
        rewrite !find_erase.
        destruct (Z.eqb_spec (addr w) (addr u)) as [Ea|_]; [congruence|].
        destruct (Z.eqb_spec (addr w) old) as [Eold|_]; [|apply Hi; exact Hc'].
        exfalso.
        assert (Kw : known sizes w).
        { apply unknowns_known. rewrite E. apply in_app_iff. left. eapply nth_error_In; eauto. }
        pose proof (Hp _ _ _ Eo Kw (eq_sym Eold)) as X. congruence.
Qed.

Lemma register_spec addr sizes s : injective addr -> no_clash addr sizes s ->
  exists s', register addr sizes s = Ok s' /\ registered addr sizes s' /\ no_clash addr sizes s'.
Proof.
  intros Inj [L H]. destruct (register_from_spec addr sizes Inj (unknowns sizes) [] s eq_refl L H) as (s' & E & L' & H' & F).
  - intros c u Hc. destruct c; discriminate Hc.
  - exists s'. split; [exact E|]. split; [|split; assumption].
    intros u Hu. unfold get_col. rewrite (F (col sizes u) u); [reflexivity|]. apply unknowns_at. exact Hu.
Qed.

(** ** The plan *)

Lemma plan_segs_rows special kutta b : forall segs row once l o,
  plan_segs special kutta b segs row once = (l, o) ->
  map erow l = seq row (length segs) /\ map eseg l = segs /\ (forall e, In e l -> ebody e = b) /\
  (forall e, In e l -> (ekind e = Slip <-> eseg e <> special)).
Proof.
  induction segs as [|i t IH]; intros row once l o; simpl.
  - intros [= <- <-]. repeat split; try easy.
  - destruct (Nat.eqb_spec i special) as [->|Ni]; simpl.
    + destruct kutta.
      * destruct (plan_segs special true b t (S row) once) as [l' o'] eqn:E. intros [= <- <-].
        destruct (IH _ _ _ _ E) as (R & G & B & Kd). simpl. rewrite R, G. repeat split.
        { intros e [<-|He]; [reflexivity|auto]. }
        { destruct H as [<-|He]; [discriminate|apply Kd; exact He]. }
        { destruct H as [<-|He]; [simpl; congruence|apply Kd; exact He]. }
      * destruct (plan_segs special false b t (S row) true) as [l' o'] eqn:E. intros [= <- <-].
        destruct (IH _ _ _ _ E) as (R & G & B & Kd). simpl. rewrite R, G. repeat split.
        { intros e [<-|He]; [reflexivity|auto]. }
        { destruct H as [<-|He]; [destruct once; discriminate|apply Kd; exact He]. }
        { destruct H as [<-|He]; [simpl; congruence|apply Kd; exact He]. }
    + destruct (plan_segs special kutta b t (S row) once) as [l' o'] eqn:E. intros [= <- <-].
      destruct (IH _ _ _ _ E) as (R & G & B & Kd). simpl. rewrite R, G. repeat split.
      { intros e [<-|He]; [reflexivity|auto]. }
      { destruct H as [<-|He]; [simpl; auto|apply Kd; exact He]. }
      { destruct H as [<-|He]; [reflexivity|apply Kd; exact He]. }
Qed.

Lemma plan_body_rows b s row once p es o q : plan_body b s row once p = Some (es, o, q) ->
  map erow es = seq row (nseg s + 9) /\ forall e, In e es -> ebody e = b.
Proof.
  unfold plan_body. destruct (Nat.leb (nseg s) (special s)); [discriminate|].
  destruct (plan_segs _ _ _ _ _ _) as [l o'] eqn:E.
  destruct (plan_segs_rows _ _ _ _ _ _ _ _ E) as (R & _ & B & _). rewrite seq_length in R.
  destruct (plan_spring (rigid s CX) b CX p) as [kx p1].
  destruct (plan_spring (rigid s CY) b CY p1) as [ky p2].
  destruct (plan_spring (rigid s CO) b CO p2) as [ko p3].
  intros H. apply (f_equal (fun z => match z with Some (a, _, _) => a | None => [] end)) in H. rewrite <- H. clear H.
  split.
  - rewrite map_app, R, seq_app. f_equal. simpl. repeat (f_equal; try lia).
  - intros e. rewrite in_app_iff. intros [He|He]; [auto|].
    repeat (destruct He as [<-|He]; [reflexivity|]). destruct He.
Qed.

Lemma plan_from_rows l : forall b row once p es q, plan_from b l row once p = Some (es, q) ->
  map erow es = seq row (system_size (map nseg l)) /\ forall e, In e es -> b <= ebody e < b + length l.
Proof.
  induction l as [|s t IH]; intros b row once p es q; simpl.
  - intros [= <- <-]. split; [reflexivity|easy].
  - destruct (plan_body b s row once p) as [[[es1 o1] p1]|] eqn:E1; [|discriminate].
    destruct (plan_from (S b) t (row + nseg s + 9) o1 p1) as [[es2 p2]|] eqn:E2; [|discriminate].
    intros H. assert (es = es1 ++ es2) as -> by congruence. clear H.
    destruct (plan_body_rows _ _ _ _ _ _ _ _ E1) as [R1 B1]. destruct (IH _ _ _ _ _ _ E2) as [R2 B2].
    split.
    + rewrite map_app, R1, R2, system_size_cons. rewrite <- Nat.add_assoc. rewrite <- seq_app. reflexivity.
    + intros e. rewrite in_app_iff. intros [He|He]; [rewrite (B1 _ He); lia|]. specialize (B2 _ He). lia.
Qed.

Lemma plan_rows l p es q : plan l p = Some (es, q) -> map erow es = seq 0 (system_size (map nseg l)).
Proof. intros H. eapply plan_from_rows; eauto. Qed.

Lemma plan_defined_from l : forall b row once p, (forall s, In s l -> special s < nseg s) ->
  exists es q, plan_from b l row once p = Some (es, q).
Proof.
  induction l as [|s t IH]; intros b row once p H; simpl; [eauto|].
  unfold plan_body. destruct (Nat.leb_spec (nseg s) (special s)) as [L|L]; [specialize (H s (or_introl eq_refl)); lia|].
  destruct (plan_segs _ _ _ _ _ _) as [l0 o0].
  destruct (plan_spring (rigid s CX) b CX p) as [kx p1].
  destruct (plan_spring (rigid s CY) b CY p1) as [ky p2].
  destruct (plan_spring (rigid s CO) b CO p2) as [ko p3].
  destruct (IH (S b) (row + nseg s + 9) o0 p3) as (es & q & ->); [intros; apply H; right; assumption|]. eauto.
Qed.

(** ** The condition at infinity *)

Definition kinds (l : list entry) : list kind := map ekind l.

Lemma count_app P l m : count P (l ++ m) = count P l + count P m.
Proof. unfold count. rewrite filter_app, app_length. reflexivity. Qed.

Definition b2n (b : bool) : nat := if b then 1 else 0.

Lemma plan_segs_slip sp ku b : forall segs row once, ~ In sp segs ->
  let '(l, o) := plan_segs sp ku b segs row once in o = once /\ count is_inf l = 0 /\ count is_zero_row l = 0 /\ count is_steady l = 0.
Proof.
  induction segs as [|i t IH]; intros row once H; simpl; [repeat split|].
  destruct (Nat.eqb_spec i sp) as [->|_]; [exfalso; apply H; left; reflexivity|]. simpl.
  specialize (IH (S row) once). destruct (plan_segs sp ku b t (S row) once) as [l o].
  destruct IH as (-> & ? & ? & ?); [intros X; apply H; right; exact X|]. repeat split; assumption.
Qed.

Lemma plan_segs_inf sp ku b : forall segs row once, NoDup segs -> In sp segs ->
  let '(l, o) := plan_segs sp ku b segs row once in
  o = once || negb ku /\ count is_inf l = b2n (negb once && negb ku) /\ count is_zero_row l = b2n ku /\ count is_steady l = b2n (once && negb ku).
Proof.
  induction segs as [|i t IH]; intros row once ND H; [destruct H|]. simpl.
  apply NoDup_cons_iff in ND. destruct ND as [Ni ND].
  destruct (Nat.eqb_spec i sp) as [->|N]; simpl.
  - destruct ku.
    + pose proof (plan_segs_slip sp true b t (S row) once Ni) as X.
      destruct (plan_segs sp true b t (S row) once) as [l o]. destruct X as (-> & X1 & X2 & X3).
      unfold count in *. simpl. rewrite X1, X2, X3. rewrite !andb_false_r, orb_false_r. repeat split.
    + pose proof (plan_segs_slip sp false b t (S row) true Ni) as X.
      destruct (plan_segs sp false b t (S row) true) as [l o]. destruct X as (-> & X1 & X2 & X3).
      unfold count in *. destruct once; simpl; rewrite X1, X2, X3; repeat split.
  - destruct H as [->|H]; [congruence|]. specialize (IH (S row) once ND H).
    destruct (plan_segs sp ku b t (S row) once) as [l o]. unfold count in *. simpl. exact IH.
Qed.

Lemma count_springs f b s n p kx p1 ky p2 ko p3 :
  (forall c, f (Speed c) = false /\ f (Stop c) = false /\ (forall u, f (Hooke c u) = false) /\ f (Hydro c) = false /\ f (Newton c) = false) ->
  plan_spring (rigid s CX) b CX p = (kx, p1) -> plan_spring (rigid s CY) b CY p1 = (ky, p2) -> plan_spring (rigid s CO) b CO p2 = (ko, p3) ->
  count f [mkEntry n kx b 0; mkEntry (n + 1) ky b 0; mkEntry (n + 2) ko b 0;
                mkEntry (n + 3) (Hydro CX) b 0; mkEntry (n + 4) (Hydro CY) b 0; mkEntry (n + 5) (Hydro CO) b 0;
                mkEntry (n + 6) (Newton CX) b 0; mkEntry (n + 7) (Newton CY) b 0; mkEntry (n + 8) (Newton CO) b 0] = 0.
Proof.
  intros Hf E1 E2 E3.
  assert (X : forall c p k q, plan_spring (rigid s c) b c p = (k, q) -> f k = false).
  { intros c p0 k q. unfold plan_spring. destruct (rigid s c); [intros [= <- _]; apply Hf|].
    destruct (ptr_eqb _ _); intros [= <- _]; apply Hf. }
  unfold count. simpl. rewrite (X _ _ _ _ E1), (X _ _ _ _ E2), (X _ _ _ _ E3).
  destruct (Hf CX) as (_ & _ & _ & -> & ->). destruct (Hf CY) as (_ & _ & _ & -> & ->). destruct (Hf CO) as (_ & _ & _ & -> & ->).
  reflexivity.
Qed.

Definition steady_bodies (l : list shape) : nat := length (filter (fun s => negb (kutta s)) l).

Lemma steady_le l : steady_bodies l <= length l.
Proof. unfold steady_bodies. induction l as [|s t IH]; simpl; [lia|]. destruct (kutta s); simpl in *; lia. Qed.

Lemma plan_from_inf l : forall b row once p es q, plan_from b l row once p = Some (es, q) ->
  count is_inf es = b2n (negb once && existsb (fun s => negb (kutta s)) l) /\
  count is_zero_row es = length l - steady_bodies l /\
  count is_inf es + count is_steady es = steady_bodies l.
Proof.
  induction l as [|s t IH]; intros b row once p es q; simpl.
  - intros [= <- <-]. rewrite andb_false_r. repeat split.
  - destruct (plan_body b s row once p) as [[[es1 o1] p1]|] eqn:E1; [|discriminate].
    destruct (plan_from (S b) t (row + nseg s + 9) o1 p1) as [[es2 p2]|] eqn:E2; [|discriminate].
    intros H. assert (es = es1 ++ es2) as -> by congruence. clear H.
    destruct (IH _ _ _ _ _ _ E2) as (I1 & I2 & I3). rewrite !count_app.
    unfold plan_body in E1. destruct (Nat.leb_spec (nseg s) (special s)) as [L|L]; [discriminate E1|].
    assert (ND : NoDup (seq 0 (nseg s))) by apply seq_NoDup.
    assert (Hin : In (special s) (seq 0 (nseg s))) by (apply in_seq; lia).
    pose proof (plan_segs_inf (special s) (kutta s) b _ row once ND Hin) as X.
    destruct (plan_segs _ _ _ _ _ _) as [l0 o0].
    destruct (plan_spring (rigid s CX) b CX p) as [kx q1] eqn:F1.
    destruct (plan_spring (rigid s CY) b CY q1) as [ky q2] eqn:F2.
    destruct (plan_spring (rigid s CO) b CO q2) as [ko q3] eqn:F3.
    destruct X as (-> & X1 & X2 & X3).
    pose proof (f_equal (fun z => match z with Some (a, _, _) => a | None => [] end) E1) as Ees. simpl in Ees.
    pose proof (f_equal (fun z => match z with Some (_, a, _) => a | None => false end) E1) as Eo. simpl in Eo.
    clear E1. rewrite <- Ees, !count_app, X1, X2, X3.
    rewrite (count_springs is_inf) with (p := p) (p1 := q1) (p2 := q2) (p3 := q3) (s := s); [|intros []; repeat split|assumption..].
    rewrite (count_springs is_zero_row) with (p := p) (p1 := q1) (p2 := q2) (p3 := q3) (s := s); [|intros []; repeat split|assumption..].
    rewrite (count_springs is_steady) with (p := p) (p1 := q1) (p2 := q2) (p3 := q3) (s := s); [|intros []; repeat split|assumption..].
    rewrite <- Eo in I1. rewrite I2.
    assert (steady_bodies t <= length t) by (apply steady_le).
    unfold steady_bodies in *. simpl. destruct (kutta s), once; simpl in *; rewrite ?orb_true_r, ?orb_false_r, ?andb_false_r, ?andb_true_r in *; simpl in *; try lia;
      destruct (length (filter (fun s0 : shape => negb (kutta s0)) t)); lia.
Qed.
