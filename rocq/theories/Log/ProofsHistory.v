(** Facts about whole runs and histories. *)

From Coq Require Import List Arith ZArith Bool Lia.
From Verif.Base Require Import Num.
From Verif.Log Require Import Model Spec Proofs.
Import ListNotations.

(** All datasets of the run are open and have [rows] rows. *)
Definition aligned {V} (profile : bool) (sizes : list nat) (rows : nat) (l : log V) : Prop :=
  forall p c, logged profile sizes p c ->
    lopen l p = true /\ exists d, lfile l p = Some d /\ dcols d = c /\ length (drows d) = rows.

Section Facts.
Context {K : Num}.
Variable V : Type.
Variable conv : K -> V.
Variable vltb : V -> V -> bool.
Variable vnan : V.
Notation log := (log V).
Notation open := (open V conv vltb vnan).

Lemma open_state old t sizes profile l : open old t sizes profile = Ok l ->
  lprofile l = profile /\ lbodies l = length sizes /\ length sizes <= 1000.
Proof.
  intro H. apply open_acts in H as (L & H). apply acts_profile in H as (A & B). simpl in *. auto.
Qed.

Lemma open_at old t sizes profile l p c : open old t sizes profile = Ok l -> logged profile sizes p c ->
  lopen l p = true /\ exists d, lfile l p = Some d /\ dcols d = c /\
    match old_file V old p with
    | Some d0 => Model.set_extent V vnan d0 (kept V conv vltb (old_file V old) t) c = Some d
    | None => drows d = repeat (repeat vnan c) (kept V conv vltb (old_file V old) t)
    end.
Proof.
  intros H Hp. apply open_acts in H as (L & H). apply action_logged in Hp as (I & Hc).
  destruct (acts_at V vnan _ _ _ _ _ (all_actions_nodup profile sizes) I H) as (A & B & _ & D).
  cbn [apath akeep acols] in *. specialize (B eq_refl). cbn [lfile] in *. unfold result in A.
  destruct (old_file V old p) as [d0|].
  - destruct (lfile l p) as [d|]; [|contradiction]. split; [exact B|]. exists d. symmetry in A.
    destruct (set_extent_rows V vnan _ _ _ _ A) as (_ & A2 & _). cbn [acols] in *. auto.
  - cbn [akeep acols] in A. rewrite (proj2 (Nat.eqb_neq _ _) Hc) in A. simpl in A. rewrite A in B |- *.
    split; [exact B|]. eexists. split; [reflexivity|]. simpl. auto.
Qed.

Lemma open_aligned old t sizes profile l : open old t sizes profile = Ok l ->
  aligned profile sizes (kept V conv vltb (old_file V old) t) l.
Proof.
  intros H p c Hp. destruct (open_at _ _ _ _ _ _ _ H Hp) as (A & d & B & C & D).
  split; [exact A|]. exists d. split; [exact B|split; [exact C|]].
  destruct (old_file V old p) as [d0|].
  - apply set_extent_rows in D as (D & _). exact D.
  - rewrite D. apply repeat_length.
Qed.

(** No dataset is there that a run would not have made. *)
Definition clean (profile : bool) (sizes : list nat) (f : file V) : Prop :=
  forall a, In a (all_actions profile sizes) -> akeep a && negb (Nat.eqb (acols a) 0) = false -> f (apath a) = None.

Lemma open_closed old t sizes profile l p : open old t sizes profile = Ok l -> ~ In p (map apath (all_actions profile sizes)) ->
  lopen l p = false /\ lfile l p = old_file V old p.
Proof.
  intros H N. apply open_acts in H as (L & H).
  destruct (acts_other V vnan _ _ _ _ p H N) as (A & B). auto.
Qed.
Lemma open_only_logged old t sizes profile l p : clean profile sizes (old_file V old) ->
  open old t sizes profile = Ok l -> lopen l p = true -> exists c, logged profile sizes p c.
Proof.
  intros Cl H O.
  destruct (in_dec path_dec p (map apath (all_actions profile sizes))) as [I|N].
  2:{ destruct (open_closed _ _ _ _ _ _ H N) as (X & _). congruence. }
  apply open_acts in H as (L & H).
  apply in_map_iff in I as (a & <- & I).
  destruct (acts_at V vnan _ _ _ _ _ (all_actions_nodup profile sizes) I H) as (A & B & C & D).
  destruct (akeep a && negb (Nat.eqb (acols a) 0)) eqn:E.
  - apply andb_true_iff in E as (E1 & E2). apply negb_true_iff, Nat.eqb_neq in E2.
    exists (acols a). apply logged_action; assumption.
  - cbn [lfile lopen] in *. rewrite (Cl a I E) in A. unfold result in A. rewrite E in A.
    destruct (akeep a); [rewrite B, A in O by reflexivity|rewrite C in O by reflexivity]; discriminate.
Qed.
Lemma open_clean old t sizes profile l : clean profile sizes (old_file V old) ->
  open old t sizes profile = Ok l -> clean profile sizes (lfile l).
Proof.
  intros Cl H a I E. apply open_acts in H as (L & H).
  destruct (acts_at V vnan _ _ _ _ _ (all_actions_nodup profile sizes) I H) as (A & _).
  cbn [lfile] in A. rewrite (Cl a I E) in A. unfold result in A. rewrite E in A. exact A.
Qed.
Lemma logged_no_other profile sizes a c : In a (all_actions profile sizes) ->
  akeep a && negb (Nat.eqb (acols a) 0) = false -> ~ logged profile sizes (apath a) c.
Proof.
  intros I E L. apply action_logged in L as (I' & Z).
  assert (X : a = mkAction (apath a) c true).
  { pose proof (all_actions_nodup profile sizes) as N. revert N I I'. clear.
    induction (all_actions profile sizes) as [|b l IH]; intros N I I'; [contradiction|].
    simpl in N. inversion N as [|? ? N1 N2]; subst. destruct I as [->|I], I' as [X|I']; auto.
    - exfalso. apply N1. apply (in_map apath) in I'. exact I'.
    - exfalso. apply N1. subst b. apply (in_map apath) in I. exact I. }
  rewrite X in E. cbn [akeep acols] in E. rewrite (proj2 (Nat.eqb_neq _ _) Z) in E. discriminate.
Qed.
End Facts.

(** ** Writing *)

Section Writing.
Context {K : Num}.
Variable V : Type.
Variable conv : K -> V.
Notation log := (log V).
Notation row_of := (row_of V conv).

Lemma fits_nth sizes (s : step K) n b : fits_step sizes s -> nth_error (sbodies s) n = Some b -> nth_error sizes n = Some (length (segs b)).
Proof. intros <- H. rewrite nth_error_map, H. reflexivity. Qed.
Lemma fits_length sizes (s : step K) : fits_step sizes s -> length (sbodies s) = length sizes.
Proof. intros <-. rewrite map_length. reflexivity. Qed.

Lemma logged_write profile sizes p c (l : log) (s : step K) w :
  logged profile sizes p c -> lprofile l = profile -> lbodies l = length sizes -> fits_step sizes s ->
  writes V l (stime s) (sdt s) (sbodies s) = Some w ->
  exists buf, In (p, buf) w /\ length buf = c /\ map conv buf = row_of s p.
Proof.
  intros H Hp Hb F W. pose proof (fits_length _ _ F) as FL.
  unfold writes in W. destruct (bodies_writes (lbodies l) (lprofile l) (sdt s) 0 (sbodies s)) as [w'|] eqn:E; [|discriminate].
  apply some_inj in W. subst w. rewrite Hp, Hb in E.
  inversion H as [|n q Hn Hq|n q sz Hpr Hn Hz Hq]; subst.
  - exists [stime s]. split; [left; reflexivity|]. auto.
  - destruct (nth_error (sbodies s) n) as [b|] eqn:Eb; [|apply nth_error_None in Eb; lia].
    assert (G : forall buf, In (PBody n q, buf) (body_writes (lprofile l) (sdt s) n b) -> In (PBody n q, buf) ((PTime, [stime s]) :: w')).
    { intros buf I. right. apply (in_bodies_writes _ _ _ _ 0 w' n b _ E); auto. lia. }
    unfold Spec.row_of. rewrite Eb. simpl in Hq.
    destruct Hq as [<-|[<-|[<-|[<-|[<-|[<-|[]]]]]]];
      (eexists; split; [apply G; unfold body_writes; apply in_or_app; left; simpl; auto 12|]);
      (match goal with |- context [t3 ?x] => destruct x as ((? & ?) & ?) end); simpl; auto.
  - destruct (nth_error (sbodies s) n) as [b|] eqn:Eb.
    2:{ apply nth_error_None in Eb. assert (n < length sizes) by (apply nth_error_Some; congruence). lia. }
    pose proof (fits_nth _ _ _ _ F Eb) as Fn. rewrite Hn in Fn. injection Fn as ->.
    assert (G : forall buf, In (PBody n q, buf) (body_writes (lprofile l) (sdt s) n b) -> In (PBody n q, buf) ((PTime, [stime s]) :: w')).
    { intros buf I. right. apply (in_bodies_writes _ _ _ _ 0 w' n b _ E); auto. lia. }
    unfold Spec.row_of. rewrite Eb. simpl in Hq. rewrite Hpr in G.
    destruct Hq as [<-|[<-|[]]];
      (eexists; split; [apply G; unfold body_writes; apply in_or_app; right; simpl; auto 12|]);
      (rewrite map_length, map_map; auto).
Qed.

Lemma row_of_length profile sizes p c s : logged profile sizes p c -> fits_step sizes s -> length (row_of s p) = c.
Proof.
  intros H F. pose proof (fits_length _ _ F) as FL.
  inversion H as [|n q Hn Hq|n q sz Hpr Hn Hz Hq]; subst; simpl; [reflexivity| |].
  - destruct (nth_error (sbodies s) n) as [b|] eqn:Eb; [|apply nth_error_None in Eb; lia].
    simpl in Hq. destruct Hq as [<-|[<-|[<-|[<-|[<-|[<-|[]]]]]]]; unfold triple_row;
      (match goal with |- context [let '(_, _) := ?x in _] => destruct x as ((? & ?) & ?) end); reflexivity.
  - destruct (nth_error (sbodies s) n) as [b|] eqn:Eb.
    2:{ apply nth_error_None in Eb. assert (n < length sizes) by (apply nth_error_Some; congruence). lia. }
    pose proof (fits_nth _ _ _ _ F Eb) as Fn. rewrite Hn in Fn. injection Fn as ->.
    simpl in Hq. destruct Hq as [<-|[<-|[]]]; apply map_length.
Qed.

Lemma firstn_map' {A B} (f : A -> B) n l : firstn n (map f l) = map f (firstn n l).
Proof. revert l; induction n; intros [|a l]; simpl; f_equal; auto. Qed.

Lemma write_at profile sizes rows l l' (s : step K) :
  aligned profile sizes rows l -> lprofile l = profile -> lbodies l = length sizes -> fits_step sizes s ->
  write V conv l (stime s) (sdt s) (sbodies s) = Ok l' ->
  lprofile l' = profile /\ lbodies l' = length sizes /\
  forall p c, logged profile sizes p c ->
    lopen l' p = true /\
    exists d, lfile l p = Some d /\ dcols d = c /\
      lfile l' p = Some (mkDset (dmax d) c (drows d ++ [row_of s p])).
Proof.
  intros A Hp Hb F W. unfold write in W.
  destruct (writes V l (stime s) (sdt s) (sbodies s)) as [w|] eqn:E; [|discriminate].
  pose proof (writes_nodup V _ _ _ _ _ E) as N.
  destruct (append_all_state _ _ _ _ _ W) as (S1 & S2 & S3).
  split; [congruence|split; [congruence|]]. intros p c L.
  destruct (A p c L) as (O & d & D1 & D2 & D3). split; [congruence|].
  destruct (logged_write _ _ _ _ _ _ _ L Hp Hb F E) as (buf & I & Hl & Hm).
  destruct (append_all_at _ _ _ _ _ _ _ N I W O) as (d' & D1' & D2' & D3').
  rewrite D1 in D1'. injection D1' as <-. exists d. split; [exact D1|split; [exact D2|]].
  rewrite D3', D2, firstn_all2 by lia. rewrite Hm. reflexivity.
Qed.

Lemma write_ok profile sizes rows l (s : step K) :
  aligned profile sizes rows l -> lprofile l = profile -> lbodies l = length sizes -> fits_step sizes s ->
  (forall p, lopen l p = true -> exists c, logged profile sizes p c) ->
  forall m, exists l', match writes V l (stime s) (sdt s) (sbodies s) with None => Undefined | Some w => append_all V conv l (firstn m w) end = Ok l'.
Proof.
  intros A Hp Hb F O m.
  destruct (writes V l (stime s) (sdt s) (sbodies s)) as [w|] eqn:E.
  2:{ exfalso. unfold writes in E.
      destruct (bodies_writes_some (lbodies l) (lprofile l) (sdt s) (sbodies s) 0) as (w' & E'); [rewrite (fits_length _ _ F); lia|].
      rewrite E' in E. discriminate. }
  apply append_all_ok. intros p buf I Op.
  assert (I' : In (p, buf) w). { rewrite <- (firstn_skipn m w). apply in_or_app. auto. }
  destruct (O p Op) as (c & L). destruct (A p c L) as (_ & d & D1 & D2 & _).
  exists d. split; [exact D1|].
  destruct (logged_write _ _ _ _ _ _ _ L Hp Hb F E) as (buf' & I2 & Hl & _).
  assert (buf' = buf).
  { pose proof (writes_nodup V _ _ _ _ _ E) as N. clear -N I' I2. induction w as [|(q & b) w IH]; [contradiction|].
    simpl in N. inversion N as [|? ? N1 N2]; subst.
    destruct I' as [X|X], I2 as [Y|Y]; try congruence; auto; exfalso; apply N1.
    - injection X as <- <-. apply in_map_iff. exists (q, buf'). auto.
    - injection Y as <- <-. apply in_map_iff. exists (q, buf). auto. }
  subst. lia.
Qed.

(** ** Several steps *)

Lemma write_steps_at profile sizes ss : forall rows l l',
  aligned profile sizes rows l -> lprofile l = profile -> lbodies l = length sizes ->
  Forall (fits_step sizes) ss -> write_steps V conv l ss = Ok l' ->
  lprofile l' = profile /\ lbodies l' = length sizes /\
  forall p c, logged profile sizes p c ->
    lopen l' p = true /\
    exists d, lfile l p = Some d /\ dcols d = c /\
      lfile l' p = Some (mkDset (dmax d) c (drows d ++ map (fun s => row_of s p) ss)).
Proof.
  induction ss as [|s ss IH]; intros rows l l' A Hp Hb F W; simpl in W.
  - injection W as <-. split; [exact Hp|split; [exact Hb|]]. intros p c L.
    destruct (A p c L) as (O & d & D1 & D2 & D3). split; [exact O|]. exists d. rewrite D1, app_nil_r.
    split; [reflexivity|split; [exact D2|]]. destruct d; simpl in *. subst; reflexivity.
  - apply bind_ok in W as (m & W1 & W2). inversion F as [|? ? F1 F2]; subst.
    destruct (write_at _ _ _ _ _ _ A eq_refl Hb F1 W1) as (P1 & B1 & At).
    assert (A' : aligned (lprofile l) sizes (S rows) m).
    { intros p c L. destruct (At p c L) as (O & d & D1 & D2 & D3). split; [exact O|].
      eexists; split; [exact D3|]. simpl. split; [reflexivity|]. rewrite app_length. simpl.
      destruct (A p c L) as (_ & d' & D1' & _ & D3'). rewrite D1 in D1'. injection D1' as <-. lia. }
    destruct (IH _ _ _ A' P1 B1 F2 W2) as (P2 & B2 & At2). split; [exact P2|split; [exact B2|]].
    intros p c L. destruct (At p c L) as (O & d & D1 & D2 & D3). destruct (At2 p c L) as (O2 & d2 & E1 & E2 & E3).
    rewrite D3 in E1. injection E1 as <-. split; [exact O2|]. exists d. split; [exact D1|split; [exact D2|]].
    rewrite E3. simpl. rewrite <- app_assoc. reflexivity.
Qed.

Lemma append_all_open w : forall l l', append_all V conv l w = Ok l' -> lopen l' = lopen l.
Proof. intros l l' H. apply append_all_state in H as (H & _). exact H. Qed.

Lemma write_steps_open ss : forall l l', write_steps V conv l ss = Ok l' -> lopen l' = lopen l.
Proof.
  induction ss as [|s ss IH]; intros l l' H; simpl in H; [injection H as <-; reflexivity|].
  apply bind_ok in H as (m & H1 & H2). apply IH in H2. unfold write in H1.
  destruct (writes V l (stime s) (sdt s) (sbodies s)); [|discriminate]. apply append_all_open in H1. congruence.
Qed.
Lemma write_steps_closed ss : forall l l' p, write_steps V conv l ss = Ok l' -> lopen l p = false -> lfile l' p = lfile l p.
Proof.
  induction ss as [|s ss IH]; intros l l' p H O; simpl in H; [injection H as <-; reflexivity|].
  apply bind_ok in H as (m & H1 & H2). unfold write in H1.
  destruct (writes V l (stime s) (sdt s) (sbodies s)); [|discriminate].
  rewrite (IH m l' p H2); [eapply append_all_closed; eauto|]. apply append_all_open in H1. congruence.
Qed.

Lemma torn_at profile sizes rows l l' (s : step K) m :
  aligned profile sizes rows l -> lprofile l = profile -> lbodies l = length sizes -> fits_step sizes s ->
  torn V conv l s m = Ok l' ->
  forall p c, logged profile sizes p c ->
    exists d, lfile l p = Some d /\ dcols d = c /\
      (lfile l' p = Some d \/ lfile l' p = Some (mkDset (dmax d) c (drows d ++ [row_of s p]))).
Proof.
  intros A Hp Hb F W p c L. unfold torn in W.
  destruct (writes V l (stime s) (sdt s) (sbodies s)) as [w|] eqn:E; [|discriminate].
  pose proof (writes_nodup V _ _ _ _ _ E) as N.
  destruct (A p c L) as (O & d & D1 & D2 & D3). exists d. split; [exact D1|split; [exact D2|]].
  destruct (in_dec path_dec p (map fst (firstn m w))) as [I|I].
  - right. destruct (logged_write _ _ _ _ _ _ _ L Hp Hb F E) as (buf & J & Hl & Hm).
    apply in_map_iff in I as ((p' & buf') & X & I). simpl in X; subst p'.
    assert (buf' = buf).
    { assert (I' : In (p, buf') w). { rewrite <- (firstn_skipn m w). apply in_or_app. auto. }
      clear -N I' J. induction w as [|(q & b) w IH]; [contradiction|].
      simpl in N. inversion N as [|? ? N1 N2]; subst.
      destruct I' as [X|X], J as [Y|Y]; try congruence; auto; exfalso; apply N1.
      - injection X as <- <-. apply in_map_iff. exists (q, buf). auto.
      - injection Y as <- <-. apply in_map_iff. exists (q, buf'). auto. }
    subst buf'.
    assert (N' : NoDup (map fst (firstn m w))).
    { rewrite <- (firstn_skipn m w), map_app in N. revert N. generalize (map fst (firstn m w)) (map fst (skipn m w)).
      clear. induction l as [|a l IH]; intros l2 N; [constructor|]. simpl in N. inversion N; subst.
      constructor; [intro I; apply H1, in_or_app; auto|eauto]. }
    destruct (append_all_at _ _ _ _ _ _ _ N' I W O) as (d' & D1' & D2' & D3').
    rewrite D1 in D1'. injection D1' as <-. rewrite D3', D2, firstn_all2 by lia. rewrite Hm. reflexivity.
  - left. rewrite (append_all_other _ _ _ _ _ _ W I). exact D1.
Qed.
Lemma torn_closed l l' (s : step K) m p : torn V conv l s m = Ok l' -> lopen l p = false -> lfile l' p = lfile l p.
Proof.
  unfold torn. destruct (writes V l (stime s) (sdt s) (sbodies s)) as [w|]; [|discriminate].
  apply append_all_closed.
Qed.
End Writing.

(** ** Histories *)

Section Histories.
Context {K : Num}.
Variable V : Type.
Variable conv : K -> V.
Variable vltb : V -> V -> bool.
Variable vnan : V.
Variable steps : nat -> step K.
Variable sizes : list nat.
Variable profile : bool.
Hypothesis Hfit : forall i, fits_step sizes (steps i).
Variable N : nat.
Hypothesis Hinc : forall i j, i <= N -> j <= N -> vltb (conv (stime (steps i))) (conv (stime (steps j))) = Nat.ltb i j.

Definition rows_to (p : path) (c : nat) : list (list V) := map (fun i => row_of V conv (steps i) p) (seq 0 c).

Definition holds (f : file V) (c : nat) : Prop :=
  clean V profile sizes f /\
  forall p k, logged profile sizes p k ->
    exists d, f p = Some d /\ k <= dmax d /\ (drows d = rows_to p c \/ drows d = rows_to p (S c)).

Lemma rows_to_length p c : length (rows_to p c) = c.
Proof. unfold rows_to. rewrite map_length, seq_length. reflexivity. Qed.
Lemma rows_to_firstn p k c : k <= c -> firstn k (rows_to p c) = rows_to p k.
Proof.
  intro H. unfold rows_to. rewrite firstn_map'. f_equal.
  replace c with (k + (c - k)) by lia. rewrite seq_app, firstn_app, firstn_all2 by (rewrite seq_length; lia).
  rewrite seq_length, Nat.sub_diag. simpl. apply app_nil_r.
Qed.
Lemma rows_to_app p k n : rows_to p k ++ map (fun s => row_of V conv s p) (map steps (seq k n)) = rows_to p (k + n).
Proof. unfold rows_to. rewrite map_map, seq_app, map_app. reflexivity. Qed.
Lemma rows_to_S p k : rows_to p k ++ [row_of V conv (steps k) p] = rows_to p (S k).
Proof. unfold rows_to. rewrite seq_S, map_app. reflexivity. Qed.

Lemma count_rows k c : k <= c -> k <= N -> c <= S N -> count_before V vltb (conv (stime (steps k))) (rows_to PTime c) = k.
Proof.
  intros H Hk Hc. unfold rows_to.
  assert (G : forall n s, s <= k -> k <= s + n -> s + n <= S N ->
    count_before V vltb (conv (stime (steps k))) (map (fun i => row_of V conv (steps i) PTime) (seq s n)) = k - s).
  { induction n as [|n IH]; intros s H1 H2 H3; cbn [map seq]; [simpl; lia|].
    cbn [Spec.row_of count_before]. rewrite Hinc by lia. destruct (Nat.ltb s k) eqn:E.
    - apply Nat.ltb_lt in E. rewrite IH by lia. lia.
    - apply Nat.ltb_ge in E. lia. }
  rewrite (G c 0) by lia. lia.
Qed.

Lemma kept_holds f c k : holds f c -> k <= c -> c <= N -> kept V conv vltb f (stime (steps k)) = k.
Proof.
  intros (_ & H) L LN. destruct (H PTime 1 (LTime _ _)) as (d & D1 & _ & D3). unfold kept. rewrite D1.
  destruct D3 as [->| ->]; apply count_rows; lia.
Qed.

Definition good (l : log V) (c : nat) : Prop :=
  lprofile l = profile /\ lbodies l = length sizes /\ clean V profile sizes (lfile l) /\
  (forall p, lopen l p = true -> exists k, logged profile sizes p k) /\
  forall p k, logged profile sizes p k ->
    lopen l p = true /\ exists d, lfile l p = Some d /\ dcols d = k /\ k <= dmax d /\ drows d = rows_to p c.

Lemma good_aligned l c : good l c -> aligned profile sizes c l.
Proof.
  intros (_ & _ & _ & _ & G) p k L. destruct (G p k L) as (O & d & D1 & D2 & _ & D3).
  split; [exact O|]. exists d. rewrite D3, rows_to_length. auto.
Qed.

Lemma open_holds f c k l : holds f c -> k <= c -> c <= N -> open V conv vltb vnan (Some f) (stime (steps k)) sizes profile = Ok l -> good l k.
Proof.
  intros H L LN E. pose proof (kept_holds f c k H L LN) as Hk. destruct H as (Cl & H).
  destruct (open_state V _ _ _ _ _ _ _ _ E) as (P & B & _).
  split; [exact P|split; [exact B|split; [eapply open_clean; [|exact E]; exact Cl|split; [intros p O; eapply open_only_logged; [|exact E|exact O]; exact Cl|]]]].
  intros p n Lg. destruct (open_at V _ _ _ _ _ _ _ _ _ _ E Lg) as (O & d & D1 & D2 & D3).
  split; [exact O|]. exists d. split; [exact D1|split; [exact D2|]].
  simpl old_file in *. destruct (H p n Lg) as (d0 & F1 & F2 & F3). rewrite F1, Hk in D3.
  destruct (set_extent_rows V vnan _ _ _ _ D3) as (R1 & R2 & R3 & R4). split; [lia|].
  unfold set_extent in D3. rewrite (proj2 (Nat.ltb_ge _ _)) in D3 by lia. injection D3 as <-. simpl.
  assert (M : forall m, map (fit V vnan n) (rows_to p m) = rows_to p m).
  { intro m. unfold rows_to. rewrite map_map. apply map_ext. intro i. apply fit_same.
    eapply row_of_length; eauto. }
  destruct F3 as [-> | ->]; rewrite M, rows_to_length, rows_to_firstn by lia;
    (replace (k - _) with 0 by lia; simpl; apply app_nil_r).
Qed.
Lemma open_new l : open V conv vltb vnan None (stime (steps 0)) sizes profile = Ok l -> good l 0.
Proof.
  intro E. destruct (open_state V _ _ _ _ _ _ _ _ E) as (P & B & _).
  assert (Cl : clean V profile sizes (old_file V None)) by (intros a _ _; reflexivity).
  split; [exact P|split; [exact B|split; [eapply open_clean; [|exact E]; exact Cl|split; [intros p O; eapply open_only_logged; [|exact E|exact O]; exact Cl|]]]].
  intros p n Lg.
  pose proof E as E'. apply open_acts in E' as (_ & E').
  destruct (action_logged _ _ _ _ Lg) as (I & Z).
  destruct (acts_at V vnan _ _ _ _ _ (all_actions_nodup profile sizes) I E') as (A & _).
  cbn in A. unfold result in A. cbn [acols akeep] in A. rewrite (proj2 (Nat.eqb_neq _ _) Z) in A. simpl in A.
  destruct (open_at V _ _ _ _ _ _ _ _ _ _ E Lg) as (O & d & D1 & D2 & D3).
  split; [exact O|]. exists d. split; [exact D1|split; [exact D2|]]. rewrite A in D1. injection D1 as <-. simpl. auto.
Qed.

Lemma steps_good ss_k n l l' : good l ss_k -> write_steps V conv l (map steps (seq ss_k n)) = Ok l' -> good l' (ss_k + n).
Proof.
  intros G E. pose proof (good_aligned _ _ G) as A. destruct G as (P & B & Cl & O & G).
  assert (F : Forall (fits_step sizes) (map steps (seq ss_k n))).
  { apply Forall_forall. intros s I. apply in_map_iff in I as (i & <- & _). apply Hfit. }
  destruct (write_steps_at V conv _ _ _ _ _ _ A P B F E) as (P' & B' & At).
  pose proof (write_steps_open _ _ _ _ _ E) as Op.
  split; [exact P'|split; [exact B'|split; [|split]]].
  - intros a I X. rewrite (write_steps_closed _ _ _ _ _ (apath a) E); [apply Cl; auto|].
    destruct (lopen l (apath a)) eqn:Y; [|reflexivity]. destruct (O _ Y) as (k & L).
    exfalso. eapply logged_no_other; eauto.
  - intros p X. apply O. rewrite <- Op. exact X.
  - intros p k L. destruct (At p k L) as (O' & d & D1 & D2 & D3). split; [exact O'|].
    eexists. split; [exact D3|]. simpl. split; [reflexivity|].
    destruct (G p k L) as (_ & d' & D1' & _ & D4 & D5). rewrite D1 in D1'. injection D1' as <-.
    split; [exact D4|]. rewrite D5. apply rows_to_app.
Qed.
Lemma steps_ok n : forall l c, good l c -> exists l', write_steps V conv l (map steps (seq c n)) = Ok l'.
Proof.
  induction n as [|n IH]; intros l c G; simpl; [eauto|].
  pose proof G as (P & B & Cl & O & _).
  destruct (write_ok V conv _ _ _ _ (steps c) (good_aligned _ _ G) P B (Hfit c) O
             (match writes V l (stime (steps c)) (sdt (steps c)) (sbodies (steps c)) with Some w => length w | None => 0 end)) as (m & E).
  assert (E' : write V conv l (stime (steps c)) (sdt (steps c)) (sbodies (steps c)) = Ok m).
  { unfold write. destruct (writes V l (stime (steps c)) (sdt (steps c)) (sbodies (steps c))); [|exact E].
    rewrite firstn_all in E. exact E. }
  rewrite E'. simpl. apply (IH m (S c)). rewrite <- Nat.add_1_r. apply (steps_good c 1 l m G).
  simpl. rewrite E'. reflexivity.
Qed.

Lemma torn_holds l l' c m : good l c -> torn V conv l (steps c) m = Ok l' -> holds (lfile l') c.
Proof.
  intros G E. pose proof (good_aligned _ _ G) as A. destruct G as (P & B & Cl & O & G). split.
  - intros a I X. rewrite (torn_closed _ _ _ _ _ _ (apath a) E); [apply Cl; auto|].
    destruct (lopen l (apath a)) eqn:Y; [|reflexivity]. destruct (O _ Y) as (k & L).
    exfalso. eapply logged_no_other; eauto.
  - intros p k L. destruct (torn_at V conv _ _ _ _ _ _ _ A P B (Hfit c) E p k L) as (d & D1 & D2 & D3).
    destruct (G p k L) as (_ & d' & D1' & _ & D4 & D5). rewrite D1 in D1'. injection D1' as <-.
    destruct D3 as [D3|D3]; eexists; (split; [exact D3|]); simpl; (split; [exact D4|]).
    + left. exact D5.
    + right. rewrite D5. apply rows_to_S.
Qed.

Lemma history f c : log_of V conv vltb vnan steps N sizes profile f c ->
  match f with Some f => holds f c /\ c <= N | None => c = 0 end.
Proof.
  intro H. induction H as [|f c k n m l l' l'' H IH Hk HN E1 E2 E3]; [reflexivity|].
  assert (G : good l k).
  { destruct f as [f|]; [destruct IH; eapply open_holds; eauto|]. subst c. assert (k = 0) as -> by lia. apply open_new, E1. }
  split; [|exact HN]. eapply torn_holds; [eapply steps_good; eauto|exact E3].
Qed.

Lemma resume_ok f c k : log_of V conv vltb vnan steps N sizes profile f c -> length sizes <= 1000 -> k <= c ->
  exists l, open V conv vltb vnan f (stime (steps k)) sizes profile = Ok l /\ good l k.
Proof.
  intros H L Hk. apply history in H. destruct f as [f|].
  - destruct (open_ok V vnan conv vltb (Some f) (stime (steps k)) sizes profile L) as (l & E).
    + intros a d I D. simpl in D. destruct H as ((Cl & H) & _).
      destruct (akeep a && negb (Nat.eqb (acols a) 0)) eqn:X; [|rewrite (Cl a I X) in D; discriminate].
      apply andb_true_iff in X as (X1 & X2). apply negb_true_iff, Nat.eqb_neq in X2.
      destruct (H _ _ (logged_action _ _ _ I X1 X2)) as (d' & D1 & D2 & _). rewrite D in D1. injection D1 as <-. exact D2.
    + exists l. split; [exact E|]. destruct H. eapply open_holds; eauto.
  - subst c. assert (k = 0) as -> by lia.
    destruct (open_ok V vnan conv vltb None (stime (steps 0)) sizes profile L) as (l & E).
    + intros a d I D. discriminate D.
    + exists l. split; [exact E|]. apply open_new, E.
Qed.
End Histories.
