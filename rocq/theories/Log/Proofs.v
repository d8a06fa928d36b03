(** Facts about opening and appending. *)

From Coq Require Import List Arith ZArith Bool Lia.
From Verif.Base Require Import Num.
From Verif.Log Require Import Model Spec.
Import ListNotations.

Lemma quantity_eqb_eq a b : quantity_eqb a b = true <-> a = b.
Proof. destruct a, b; simpl; split; congruence. Qed.
Lemma path_eqb_eq a b : path_eqb a b = true <-> a = b.
Proof.
  destruct a, b; simpl; try (split; congruence).
  rewrite andb_true_iff, Nat.eqb_eq, quantity_eqb_eq. intuition congruence.
Qed.
Lemma path_eqb_refl a : path_eqb a a = true.
Proof. apply path_eqb_eq; reflexivity. Qed.
Lemma path_eqb_neq a b : a <> b -> path_eqb a b = false.
Proof. intro H. destruct (path_eqb a b) eqn:E; [apply path_eqb_eq in E; contradiction|reflexivity]. Qed.
Lemma path_dec (a b : path) : {a = b} + {a <> b}.
Proof. decide equality; [decide equality|apply Nat.eq_dec]. Qed.

Lemma bind_ok {A B} (o : outcome A) (f : A -> outcome B) b : bind o f = Ok b -> exists a, o = Ok a /\ f a = Ok b.
Proof. destruct o; simpl; try discriminate. eauto. Qed.

Lemma some_inj {A} (a b : A) : Some a = Some b -> a = b.
Proof. congruence. Qed.

Section Facts.
Variable V : Type.
Variable vnan : V.
Notation log := (log V).
Notation init := (init V vnan). Notation shrink := (shrink V vnan).
Notation set_extent := (set_extent V vnan).

Lemma fit_length c r : length (fit V vnan c r) = c.
Proof. unfold fit. rewrite app_length, firstn_length, repeat_length. lia. Qed.
Lemma fit_same c r : length r = c -> fit V vnan c r = r.
Proof. intros <-. unfold fit. rewrite firstn_all, Nat.sub_diag. apply app_nil_r. Qed.

Lemma set_extent_rows d rows cols d' : set_extent d rows cols = Some d' ->
  length (drows d') = rows /\ dcols d' = cols /\ dmax d' = dmax d /\ cols <= dmax d.
Proof.
  unfold Model.set_extent. destruct (Nat.ltb (dmax d) cols) eqn:E; [discriminate|].
  apply Nat.ltb_ge in E. intro H; injection H as <-. simpl.
  rewrite app_length, firstn_length, map_length, repeat_length. lia.
Qed.

(** * Opening as a list of actions *)

(** A dataset to be given [acols] columns; created and kept open if [akeep]. *)
Record action := mkAction { apath : path; acols : nat; akeep : bool }.
Definition act (rows : nat) (a : action) (l : log) : outcome log :=
  if akeep a then init (apath a) rows (acols a) l else shrink (apath a) rows (acols a) l.
Fixpoint acts (rows : nat) (l : list action) (s : log) : outcome log :=
  match l with [] => Ok s | a :: t => bind (act rows a s) (acts rows t) end.

Definition body_actions (profile : bool) (n size : nat) : list action :=
  map (fun q => mkAction (PBody n q) 3 true) vectors
  ++ [mkAction (PBody n QPressure) size profile; mkAction (PBody n QShear) size profile].
Fixpoint bodies_actions (profile : bool) (n : nat) (sizes : list nat) : list action :=
  match sizes with [] => [] | s :: t => body_actions profile n s ++ bodies_actions profile (S n) t end.

Lemma acts_app rows a b s : acts rows (a ++ b) s = bind (acts rows a s) (acts rows b).
Proof.
  revert s; induction a as [|x a IH]; intro s; simpl; [reflexivity|].
  destruct (act rows x s); simpl; auto.
Qed.

Lemma init_profile p r c l l' : init p r c l = Ok l' -> lprofile l' = lprofile l /\ lbodies l' = lbodies l.
Proof.
  unfold Model.init. intro H. apply bind_ok in H as ((f & b) & _ & H). injection H as <-. auto.
Qed.
Lemma shrink_profile p r c l l' : shrink p r c l = Ok l' -> lprofile l' = lprofile l /\ lbodies l' = lbodies l.
Proof.
  unfold Model.shrink. destruct (lfile l p); [|intro H; injection H as <-; auto].
  intro H. apply bind_ok in H as ((f & b) & _ & H). injection H as <-. auto.
Qed.
Lemma acts_profile rows a : forall l l', acts rows a l = Ok l' -> lprofile l' = lprofile l /\ lbodies l' = lbodies l.
Proof.
  induction a as [|x a IH]; intros l l' H; simpl in H; [injection H as <-; auto|].
  apply bind_ok in H as (m & H1 & H2). apply IH in H2 as (A & B). unfold act in H1.
  destruct (akeep x); [apply init_profile in H1 as (C & D)|apply shrink_profile in H1 as (C & D)]; split; congruence.
Qed.

Lemma init_all_acts n qs rows cols l :
  init_all V vnan n qs rows cols l = acts rows (map (fun q => mkAction (PBody n q) cols true) qs) l.
Proof.
  revert l; induction qs as [|q qs IH]; intro l; simpl; [reflexivity|].
  unfold act; simpl. destruct (init (PBody n q) rows cols l); simpl; auto.
Qed.

Lemma init_body_acts n size rows l : n < 1000 ->
  init_body V vnan n size rows l = acts rows (body_actions (lprofile l) n size) l.
Proof.
  intro Hn. unfold init_body, body_actions. rewrite (proj2 (Nat.ltb_ge _ _)) by lia.
  rewrite acts_app, <- init_all_acts.
  destruct (init_all V vnan n vectors rows 3 l) as [m| |] eqn:E; simpl; try reflexivity.
  rewrite init_all_acts in E. apply acts_profile in E as (E & _). rewrite E. unfold act; simpl.
  destruct (lprofile l); simpl.
  - destruct (init (PBody n QPressure) rows size m) as [m'| |]; simpl; try reflexivity.
    destruct (init (PBody n QShear) rows size m'); reflexivity.
  - destruct (shrink (PBody n QPressure) rows size m) as [m'| |]; simpl; try reflexivity.
    destruct (shrink (PBody n QShear) rows size m'); reflexivity.
Qed.

Lemma init_bodies_acts sizes : forall n rows l, n + length sizes <= 1000 ->
  init_bodies V vnan n sizes rows l = acts rows (bodies_actions (lprofile l) n sizes) l.
Proof.
  induction sizes as [|s sizes IH]; intros n rows l H; cbn [init_bodies bodies_actions length] in *; [reflexivity|].
  rewrite acts_app, init_body_acts by lia.
  destruct (acts rows (body_actions (lprofile l) n s) l) as [m| |] eqn:E; cbn [bind]; try reflexivity.
  apply acts_profile in E as (E & _). rewrite <- E. apply IH. lia.
Qed.
Lemma init_bodies_undefined sizes : forall n rows l l', 1000 < n + length sizes -> n <= 1000 ->
  init_bodies V vnan n sizes rows l <> Ok l'.
Proof.
  induction sizes as [|s sizes IH]; intros n rows l l' H Hn; simpl in *; [lia|].
  intro E. apply bind_ok in E as (m & E1 & E2).
  destruct (Nat.eq_dec n 1000) as [->|N]; [discriminate E1|].
  revert E2. apply IH; lia.
Qed.

(** ** What the actions do to a path *)

Definition result (rows : nat) (a : action) (d : option (dset V)) : option (dset V) :=
  match d with
  | Some d => set_extent d rows (acols a)
  | None => if akeep a && negb (Nat.eqb (acols a) 0)
            then Some (mkDset (acols a) (acols a) (repeat (repeat vnan (acols a)) rows)) else None
  end.

Lemma store_same p d (f : file V) : store V p d f p = Some d.
Proof. unfold store. rewrite path_eqb_refl. reflexivity. Qed.
Lemma store_other p q d (f : file V) : q <> p -> store V p d f q = f q.
Proof. intro H. unfold store. rewrite path_eqb_neq; auto. Qed.

Lemma act_at rows a l l' : act rows a l = Ok l' ->
  lfile l' (apath a) = result rows a (lfile l (apath a)) /\
  (akeep a = true -> lopen l' (apath a) = match lfile l' (apath a) with Some _ => true | None => false end) /\
  (akeep a = false -> lopen l' (apath a) = lopen l (apath a)) /\
  (forall p, p <> apath a -> lfile l' p = lfile l p /\ lopen l' p = lopen l p) /\
  (match lfile l (apath a), lfile l' (apath a) with Some _, None => False | _, _ => True end).
Proof.
  unfold act, Model.init, Model.shrink, h5d_init. intro H. destruct (akeep a) eqn:Ek.
  - apply bind_ok in H as ((f & b) & H & H'). injection H' as <-. simpl.
    destruct (lfile l (apath a)) as [d|] eqn:Ed.
    + destruct (set_extent d rows (acols a)) as [d'|] eqn:Es; [|discriminate]. injection H as <- <-.
      rewrite store_same. unfold opened. rewrite path_eqb_refl.
      split; [simpl; congruence|split; [auto|split; [congruence|split; [|exact I]]]].
      intros p Hp. rewrite store_other, path_eqb_neq; auto.
    + destruct (acols a) as [|c] eqn:Ec.
      * injection H as <- <-. unfold opened. rewrite path_eqb_refl, Ed. simpl. rewrite Ek, Ec. simpl.
        split; [reflexivity|split; [auto|split; [congruence|split; [|exact I]]]].
        intros p Hp. rewrite path_eqb_neq; auto.
      * injection H as <- <-. rewrite store_same. unfold opened. rewrite path_eqb_refl. simpl. rewrite Ek, Ec. simpl.
        split; [reflexivity|split; [auto|split; [congruence|split; [|exact I]]]].
        intros p Hp. rewrite store_other, path_eqb_neq; auto.
  - destruct (lfile l (apath a)) as [d|] eqn:Ed.
    + apply bind_ok in H as ((f & b) & H & H'). injection H' as <-. simpl.
      destruct (set_extent d rows (acols a)) as [d'|] eqn:Es; [|discriminate]. injection H as <- <-.
      rewrite store_same. split; [congruence|split; [discriminate|split; [auto|split; [|exact I]]]].
      intros p Hp. rewrite store_other; auto.
    + injection H as <-. rewrite Ed. simpl. rewrite Ek. simpl.
      split; [reflexivity|split; [discriminate|split; auto]].
Qed.

Lemma acts_other rows l : forall s s' p, acts rows l s = Ok s' -> ~ In p (map apath l) ->
  lfile s' p = lfile s p /\ lopen s' p = lopen s p.
Proof.
  induction l as [|a l IH]; intros s s' p H N; simpl in *; [injection H as <-; auto|].
  apply bind_ok in H as (m & H1 & H2).
  destruct (IH m s' p H2) as (A & B); [tauto|].
  destruct (act_at _ _ _ _ H1) as (_ & _ & _ & O & _). destruct (O p) as (C & D); [intro; subst; tauto|].
  split; congruence.
Qed.

Lemma acts_at rows l : forall s s' a, NoDup (map apath l) -> In a l -> acts rows l s = Ok s' ->
  lfile s' (apath a) = result rows a (lfile s (apath a)) /\
  (akeep a = true -> lopen s' (apath a) = match lfile s' (apath a) with Some _ => true | None => false end) /\
  (akeep a = false -> lopen s' (apath a) = lopen s (apath a)) /\
  (match lfile s (apath a), lfile s' (apath a) with Some _, None => False | _, _ => True end).
Proof.
  induction l as [|b l IH]; intros s s' a N I H; simpl in *; [contradiction|].
  apply bind_ok in H as (m & H1 & H2). inversion N as [|? ? N1 N2]; subst.
  destruct I as [->|I].
  - destruct (acts_other _ _ _ _ (apath a) H2 N1) as (A & B).
    destruct (act_at _ _ _ _ H1) as (C & D & E & _ & F). rewrite A, B. auto.
  - destruct (IH m s' a N2 I H2) as (A & B & C & F).
    destruct (act_at _ _ _ _ H1) as (_ & _ & _ & O & _). destruct (O (apath a)) as (D & E).
    { intro X. apply N1. rewrite <- X. apply in_map, I. }
    rewrite D, E in *. auto.
Qed.

Lemma act_ok rows a l :
  (forall d, lfile l (apath a) = Some d -> acols a <= dmax d) -> exists l', act rows a l = Ok l'.
Proof.
  intro H. unfold act, Model.init, Model.shrink, h5d_init.
  destruct (lfile l (apath a)) as [d|].
  - specialize (H d eq_refl). unfold Model.set_extent. rewrite (proj2 (Nat.ltb_ge _ _)) by exact H.
    destruct (akeep a); simpl; eauto.
  - destruct (akeep a); simpl; [destruct (acols a); simpl; eauto|eauto].
Qed.
Lemma acts_ok rows l : forall s, NoDup (map apath l) ->
  (forall a d, In a l -> lfile s (apath a) = Some d -> acols a <= dmax d) -> exists s', acts rows l s = Ok s'.
Proof.
  induction l as [|a l IH]; intros s N H; simpl; [eauto|].
  inversion N as [|? ? N1 N2]; subst.
  destruct (act_ok rows a s) as (m & E); [intros; apply H; [left; reflexivity|assumption]|].
  rewrite E. simpl. apply IH; auto. intros b d I Hd.
  destruct (act_at _ _ _ _ E) as (_ & _ & _ & O & _). destruct (O (apath b)) as (D & _).
  { intro X. apply N1. rewrite <- X. apply in_map, I. }
  rewrite D in Hd. apply H; [right; assumption|assumption].
Qed.

(** ** The actions of a run *)

Definition all_actions (profile : bool) (sizes : list nat) : list action :=
  mkAction PTime 1 true :: bodies_actions profile 0 sizes.

Lemma bodies_actions_in profile sizes : forall n a, In a (bodies_actions profile n sizes) ->
  exists k s, nth_error sizes k = Some s /\ In a (body_actions profile (n + k) s).
Proof.
  induction sizes as [|s sizes IH]; intros n a H; cbn [bodies_actions] in H; [contradiction|].
  apply in_app_or in H as [H|H].
  - exists 0, s. rewrite Nat.add_0_r. auto.
  - apply IH in H as (k & t & H1 & H2). exists (S k), t. rewrite Nat.add_succ_r. auto.
Qed.
Lemma in_bodies_actions profile sizes : forall n k s a, nth_error sizes k = Some s -> In a (body_actions profile (n + k) s) ->
  In a (bodies_actions profile n sizes).
Proof.
  induction sizes as [|t sizes IH]; intros n k s a H I; destruct k; cbn [bodies_actions nth_error] in *; try discriminate.
  - injection H as ->. rewrite Nat.add_0_r in I. apply in_or_app. auto.
  - apply in_or_app. right. rewrite Nat.add_succ_r in I. eapply IH; eauto.
Qed.

Lemma body_actions_path profile n s a : In a (body_actions profile n s) -> exists q, apath a = PBody n q.
Proof.
  intro H. unfold body_actions, vectors in H. simpl in H.
  repeat (destruct H as [<-|H]; [simpl; eauto|]). contradiction.
Qed.
Lemma body_actions_nodup profile n s : NoDup (map apath (body_actions profile n s)).
Proof.
  unfold body_actions, vectors. simpl.
  repeat (constructor; [simpl; intuition congruence|]). constructor.
Qed.

Lemma nodup_app {A} (a b : list A) : NoDup a -> NoDup b -> (forall x, In x a -> In x b -> False) -> NoDup (a ++ b).
Proof.
  induction a as [|x a IH]; simpl; intros Ha Hb H; [assumption|].
  inversion Ha; subst. constructor; [|apply IH; auto; intros y Y1 Y2; apply (H y); auto].
  intro I. apply in_app_or in I as [I|I]; [contradiction|]. apply (H x); auto.
Qed.

Lemma bodies_actions_nodup profile sizes : forall n, NoDup (map apath (bodies_actions profile n sizes)).
Proof.
  induction sizes as [|s sizes IH]; intro n; cbn [bodies_actions]; [constructor|].
  rewrite map_app. apply nodup_app; [apply body_actions_nodup|apply IH|].
  intros p I J. apply in_map_iff in I as (a & <- & I). apply in_map_iff in J as (b & E & J).
  apply body_actions_path in I as (q & I). apply bodies_actions_in in J as (k & t & _ & J).
  apply body_actions_path in J as (q' & J). rewrite I, J in E. injection E as E _. lia.
Qed.
Lemma all_actions_nodup profile sizes : NoDup (map apath (all_actions profile sizes)).
Proof.
  unfold all_actions. simpl. constructor; [|apply bodies_actions_nodup].
  intro I. apply in_map_iff in I as (a & E & I). apply bodies_actions_in in I as (k & s & _ & I).
  apply body_actions_path in I as (q & I). congruence.
Qed.

Context {K : Num}.
Variable conv : K -> V.
Variable vltb : V -> V -> bool.

(** The rows kept. *)
Definition kept (f : file V) (t : K) : nat :=
  match f PTime with Some d => count_before V vltb (conv t) (drows d) | None => 0 end.
Definition old_file (old : option (file V)) : file V := match old with Some f => f | None => none end.

Lemma open_acts old t sizes profile l : open V conv vltb vnan old t sizes profile = Ok l ->
  length sizes <= 1000 /\
  acts (kept (old_file old) t) (all_actions profile sizes) (mkLog (old_file old) (fun _ => false) (length sizes) profile) = Ok l.
Proof.
  unfold open. fold (old_file old). intro H. apply bind_ok in H as (m & H1 & H2).
  assert (E : length sizes <= 1000).
  { destruct (le_lt_dec (length sizes) 1000) as [L|L]; [exact L|].
    exfalso. revert H2. apply init_bodies_undefined; simpl; lia. }
  split; [exact E|]. unfold all_actions. simpl acts.
  unfold act. cbn [akeep apath acols]. fold (kept (old_file old) t) in *. rewrite H1. simpl.
  apply init_profile in H1 as (P & _). simpl in P. rewrite init_bodies_acts in H2 by (simpl; lia).
  rewrite P in H2. exact H2.
Qed.
Lemma open_ok old t sizes profile : length sizes <= 1000 ->
  (forall a d, In a (all_actions profile sizes) -> old_file old (apath a) = Some d -> acols a <= dmax d) ->
  exists l, open V conv vltb vnan old t sizes profile = Ok l.
Proof.
  intros L H.
  destruct (acts_ok (kept (old_file old) t) (all_actions profile sizes) (mkLog (old_file old) (fun _ => false) (length sizes) profile)) as (l & E).
  - apply all_actions_nodup.
  - exact H.
  - exists l. unfold open. fold (old_file old). unfold all_actions in E. simpl acts in E.
    unfold act in E at 1. cbn [akeep apath acols] in E.
    apply bind_ok in E as (m & E1 & E2). fold (kept (old_file old) t). rewrite E1. simpl.
    apply init_profile in E1 as (P & _). simpl in P. rewrite init_bodies_acts by (simpl; lia).
    rewrite P. exact E2.
Qed.

Lemma action_logged profile sizes p c : logged profile sizes p c ->
  In (mkAction p c true) (all_actions profile sizes) /\ c <> 0.
Proof.
  intros [|n q H I|n q s -> H Z I].
  - split; [left; reflexivity|lia].
  - split; [right|lia]. destruct (nth_error sizes n) as [s|] eqn:E; [|apply nth_error_None in E; lia].
    apply (in_bodies_actions _ _ 0 n s _ E). unfold body_actions. apply in_or_app. left.
    change (0 + n) with n. apply (in_map (fun q => mkAction (PBody n q) 3 true)). exact I.
  - split; [right|exact Z]. apply (in_bodies_actions _ _ 0 n s _ H). unfold body_actions. apply in_or_app. right.
    change (0 + n) with n. simpl in I. destruct I as [<-|[<-|[]]]; simpl; auto.
Qed.
(** ** The rows kept are the leading ones before the restart *)
Lemma count_before_leading t rows : (forall r, In r rows -> r <> []) ->
  leading (fun v => vltb v t) rows (count_before V vltb t rows).
Proof.
  induction rows as [|r rows IH]; intro H; simpl.
  - split; [simpl; lia|split; [lia|]]. intros v r0 E. discriminate E.
  - destruct r as [|v r]; [exfalso; apply (H []); [left; reflexivity|reflexivity]|].
    destruct (vltb v t) eqn:E.
    + destruct IH as (A & B & C); [intros; apply H; right; assumption|].
      split; [simpl; lia|split].
      * intros [|i] Hi; [exists v, r; auto|]. apply B. lia.
      * exact C.
    + split; [simpl; lia|split; [lia|]]. intros v' r' X. injection X as <- <-. exact E.
Qed.

End Facts.

Lemma logged_action profile sizes a : In a (all_actions profile sizes) -> akeep a = true -> acols a <> 0 ->
  logged profile sizes (apath a) (acols a).
Proof using.
  intros [<-|H] Hk Hc; [constructor|].
  apply bodies_actions_in in H as (k & s & Hs & H). simpl in H.
  assert (Hk' : k < length sizes) by (apply nth_error_Some; congruence).
  unfold body_actions, vectors in H. simpl in H.
  repeat (destruct H as [<-|H]; [simpl in *; first [apply LVector; [exact Hk'|simpl; tauto] | apply LProfile; [exact Hk|exact Hs|exact Hc|simpl; tauto]]|]).
  contradiction.
Qed.

(** * Appending *)

Section Append.
Context {K : Num}.
Variable V : Type.
Variable conv : K -> V.

Lemma append_at l p buf l' : append V conv l p buf = Ok l' ->
  lopen l' = lopen l /\ lbodies l' = lbodies l /\ lprofile l' = lprofile l /\
  (forall q, q <> p -> lfile l' q = lfile l q) /\
  (lopen l p = false -> l' = l) /\
  (lopen l p = true -> exists d, lfile l p = Some d /\ dcols d <= length buf /\
     lfile l' p = Some (mkDset (dmax d) (dcols d) (drows d ++ [map conv (firstn (dcols d) buf)]))).
Proof.
  unfold append. destruct (lopen l p).
  - destruct (lfile l p) as [d|] eqn:E; [|discriminate].
    destruct (Nat.ltb (length buf) (dcols d)) eqn:L; [discriminate|]. apply Nat.ltb_ge in L.
    intro H; injection H as <-. simpl. repeat (split; [auto|]).
    + intros q N. apply store_other, N.
    + discriminate.
    + intros _. exists d. rewrite store_same. auto.
  - intro H; injection H as <-. repeat (split; [auto|]). discriminate.
Qed.

Lemma append_all_other w : forall l l' p, append_all V conv l w = Ok l' -> ~ In p (map fst w) -> lfile l' p = lfile l p.
Proof.
  induction w as [|(q & buf) w IH]; intros l l' p H N; simpl in *; [injection H as <-; reflexivity|].
  apply bind_ok in H as (m & H1 & H2). apply append_at in H1 as (_ & _ & _ & O & _).
  rewrite (IH m l' p H2) by tauto. apply O. intro; subst; tauto.
Qed.
Lemma append_all_state w : forall l l', append_all V conv l w = Ok l' ->
  lopen l' = lopen l /\ lbodies l' = lbodies l /\ lprofile l' = lprofile l.
Proof.
  induction w as [|(q & buf) w IH]; intros l l' H; simpl in *; [injection H as <-; auto|].
  apply bind_ok in H as (m & H1 & H2). apply append_at in H1 as (A & B & C & _).
  apply IH in H2 as (D & E & F). repeat split; congruence.
Qed.
Lemma append_all_closed w : forall l l' p, append_all V conv l w = Ok l' -> lopen l p = false -> lfile l' p = lfile l p.
Proof.
  induction w as [|(q & buf) w IH]; intros l l' p H N; simpl in *; [injection H as <-; reflexivity|].
  apply bind_ok in H as (m & H1 & H2). apply append_at in H1 as (A & _ & _ & O & C & _).
  rewrite (IH m l' p H2) by congruence.
  destruct (path_dec p q) as [->|N']; [rewrite (C N); reflexivity|apply O, N'].
Qed.
Lemma append_all_at w : forall l l' p buf, NoDup (map fst w) -> In (p, buf) w -> append_all V conv l w = Ok l' ->
  lopen l p = true ->
  exists d, lfile l p = Some d /\ dcols d <= length buf /\
     lfile l' p = Some (mkDset (dmax d) (dcols d) (drows d ++ [map conv (firstn (dcols d) buf)])).
Proof.
  induction w as [|(q & b) w IH]; intros l l' p buf N I H O; simpl in *; [contradiction|].
  inversion N as [|? ? N1 N2]; subst. apply bind_ok in H as (m & H1 & H2).
  destruct (append_at _ _ _ _ H1) as (A & _ & _ & Oth & _ & At).
  destruct I as [E|I].
  - injection E as -> ->. destruct (At O) as (d & D1 & D2 & D3). exists d. split; [auto|split; [auto|]].
    rewrite (append_all_other _ _ _ _ H2 N1). exact D3.
  - rewrite <- A in O. destruct (IH m l' p buf N2 I H2 O) as (d & D1 & D2 & D3).
    exists d. rewrite Oth in D1; auto.
    intro; subst. apply N1. apply in_map_iff. exists (q, buf). auto.
Qed.
Lemma append_all_ok w : forall l,
  (forall p buf, In (p, buf) w -> lopen l p = true -> exists d, lfile l p = Some d /\ dcols d <= length buf) ->
  exists l', append_all V conv l w = Ok l'.
Proof.
  induction w as [|(q & b) w IH]; intros l H; simpl; [eauto|].
  assert (exists m, append V conv l q b = Ok m) as (m & E).
  { unfold append. destruct (lopen l q) eqn:O; [|eauto].
    destruct (H q b (or_introl eq_refl) O) as (d & D1 & D2). rewrite D1.
    rewrite (proj2 (Nat.ltb_ge _ _)) by exact D2. eauto. }
  rewrite E. simpl. apply IH. intros p buf I O.
  destruct (append_at _ _ _ _ E) as (A & _ & _ & Oth & Cl & At). rewrite A in O.
  destruct (H p buf (or_intror I) O) as (d & D1 & D2).
  destruct (path_dec p q) as [->|N].
  - destruct (At O) as (d' & D1' & D2' & D3'). rewrite D1' in D1. injection D1 as ->. eauto.
  - rewrite Oth by exact N. eauto.
Qed.

End Append.

(** * The writes of a step *)

Section Writes.
Context {K : Num}.
Variable V : Type.

Lemma body_writes_path profile dt n (b : values K) p buf : In (p, buf) (body_writes profile dt n b) -> exists q, p = PBody n q.
Proof.
  unfold body_writes. intro H. apply in_app_or in H as [H|H].
  - simpl in H. repeat (destruct H as [H|H]; [injection H as <- _; eauto|]). contradiction.
  - destruct profile; simpl in H; [|contradiction].
    repeat (destruct H as [H|H]; [injection H as <- _; eauto|]). contradiction.
Qed.
Lemma body_writes_nodup profile dt n (b : values K) : NoDup (map fst (body_writes profile dt n b)).
Proof.
  unfold body_writes. destruct profile; simpl;
  repeat (constructor; [simpl; intuition congruence|]); constructor.
Qed.

Lemma bodies_writes_in bl profile dt bs : forall n w p buf, bodies_writes bl profile dt n bs = Some w -> In (p, buf) w ->
  exists k (b : values K), nth_error bs k = Some b /\ In (p, buf) (body_writes profile dt (n + k) b).
Proof.
  induction bs as [|b bs IH]; intros n w p buf H I; cbn [bodies_writes] in H; [injection H as <-; contradiction|].
  destruct (Nat.eqb n bl); [discriminate|].
  destruct (bodies_writes bl profile dt (S n) bs) as [w'|] eqn:E; [|discriminate]. apply some_inj in H; subst w.
  assert (R : In (p, buf) w' -> exists k b0, nth_error (b :: bs) k = Some b0 /\ In (p, buf) (body_writes profile dt (n + k) b0)).
  { intro J. destruct (IH _ _ _ _ E J) as (k & b0 & A & B). exists (S k), b0. rewrite Nat.add_succ_r. auto. }
  destruct (Nat.ltb bl n); [auto|]. apply in_app_or in I as [I|I]; [|auto].
  exists 0, b. rewrite Nat.add_0_r. auto.
Qed.
Lemma bodies_writes_some bl profile dt (bs : list (values K)) : forall n, n + length bs <= bl -> exists w, bodies_writes bl profile dt n bs = Some w.
Proof.
  induction bs as [|b bs IH]; intros n H; cbn [bodies_writes length] in *; [eauto|].
  rewrite (proj2 (Nat.eqb_neq _ _)) by lia. destruct (IH (S n)) as (w & ->); [lia|]. eauto.
Qed.
Lemma bodies_writes_none bl profile dt (bs : list (values K)) : forall n, n <= bl -> bl < n + length bs -> bodies_writes bl profile dt n bs = None.
Proof.
  induction bs as [|b bs IH]; intros n H1 H2; cbn [bodies_writes length] in *; [lia|].
  destruct (Nat.eqb n bl) eqn:E; [reflexivity|]. apply Nat.eqb_neq in E. rewrite IH; [reflexivity|lia|lia].
Qed.
Lemma in_bodies_writes bl profile dt bs : forall n w k (b : values K) e, bodies_writes bl profile dt n bs = Some w ->
  n + length bs <= bl -> nth_error bs k = Some b -> In e (body_writes profile dt (n + k) b) -> In e w.
Proof.
  induction bs as [|b' bs IH]; intros n w k b e H L Hk I; destruct k; cbn [bodies_writes nth_error length] in *; try discriminate;
    (destruct (Nat.eqb n bl); [discriminate|];
     destruct (bodies_writes bl profile dt (S n) bs) as [w'|] eqn:E; [|discriminate];
     rewrite (proj2 (Nat.ltb_ge _ _)) in H by lia; apply some_inj in H; subst w; apply in_or_app).
  - injection Hk as ->. rewrite Nat.add_0_r in I. auto.
  - right. rewrite Nat.add_succ_r in I. eapply (IH (S n)); eauto. lia.
Qed.
Lemma bodies_writes_nodup bl profile dt (bs : list (values K)) : forall n w, bodies_writes bl profile dt n bs = Some w -> NoDup (map fst w).
Proof.
  induction bs as [|b bs IH]; intros n w H; cbn [bodies_writes] in H; [injection H as <-; constructor|].
  destruct (Nat.eqb n bl); [discriminate|].
  destruct (bodies_writes bl profile dt (S n) bs) as [w'|] eqn:E; [|discriminate]. apply some_inj in H; subst w.
  destruct (Nat.ltb bl n); [eauto|]. rewrite map_app. apply nodup_app; [apply body_writes_nodup|eauto|].
  intros p I J. apply in_map_iff in I as ((p1 & b1) & <- & I). apply in_map_iff in J as ((p2 & b2) & X & J).
  simpl in X. subst p2.
  apply body_writes_path in I as (q & I). destruct (bodies_writes_in _ _ _ _ _ _ _ _ E J) as (k & b' & _ & J').
  apply body_writes_path in J' as (q' & J'). simpl in I. rewrite I in J'. injection J' as X _. lia.
Qed.
Lemma writes_nodup l t dt (bs : list (values K)) w : writes V l t dt bs = Some w -> NoDup (map fst w).
Proof.
  unfold writes. destruct (bodies_writes (lbodies l) (lprofile l) dt 0 bs) as [w'|] eqn:E; [|discriminate].
  intro H; apply some_inj in H; subst w. cbn [map]. constructor; [|eapply bodies_writes_nodup; eauto].
  intro I. apply in_map_iff in I as ((p & b) & X & I). simpl in X. subst.
  destruct (bodies_writes_in _ _ _ _ _ _ _ _ E I) as (k & b' & _ & J).
  apply body_writes_path in J as (q & J). discriminate.
Qed.
End Writes.
