(** Writing the planned equations into the matrix. *)

From Coq Require Import ZArith Bool List Lia Permutation Reals Lra.
From Verif.Base Require Import Num.
From Verif.Matrix Require Import Model Proofs.
From Verif.Body Require Import Model Spec.
From Verif.Flow Require Import Model.
From Verif.System Require Import Model Spec Proofs ProofsCollision.
Import ListNotations.

Lemma unk_eqb_spec u w : reflect (u = w) (unk_eqb u w).
Proof.
  destruct u as [b i|b c|b c|b c], w as [b' i'|b' c'|b' c'|b' c']; simpl; try (constructor; congruence).
  - destruct (Nat.eqb_spec b b'), (Nat.eqb_spec i i'); simpl; constructor; congruence.
  - destruct (Nat.eqb_spec b b'), (comp_eqb_spec c c'); simpl; constructor; congruence.
  - destruct (Nat.eqb_spec b b'), (comp_eqb_spec c c'); simpl; constructor; congruence.
  - destruct (Nat.eqb_spec b b'), (comp_eqb_spec c c'); simpl; constructor; congruence.
Qed.

Lemma indexed_nth {A} (l : list A) k a : In (k, a) (indexed l) <-> nth_error l k = Some a.
Proof.
  unfold indexed.
  assert (H : forall l s, In (k, a) (combine (seq s (length l)) l) <-> s <= k /\ nth_error l (k - s) = Some a).
  { clear l. induction l as [|h t IH]; intros s; simpl.
    - split; [easy|]. intros (_ & X). destruct (k - s); discriminate X.
    - rewrite IH. split.
      + intros [X|[X Y]]; [injection X as <- <-; rewrite Nat.sub_diag; split; [lia|reflexivity]|].
        split; [lia|]. replace (k - s) with (S (k - S s)) by lia. exact Y.
      + intros (L & X). destruct (Nat.eq_dec k s) as [->|N].
        * left. rewrite Nat.sub_diag in X. injection X as ->. reflexivity.
        * right. split; [lia|]. replace (k - s) with (S (k - S s)) in X by lia. exact X. }
  rewrite H, Nat.sub_0_r. split; [tauto|]. intros; split; [lia|assumption].
Qed.

(** ** Entries of the plan *)

(** The body and segment of an entry exist. *)
Definition entry_ok (l : list shape) (e : entry) : Prop :=
  exists s, nth_error l (ebody e) = Some s /\ eseg e < nseg s.

Lemma plan_entries l : forall b row once p es q pre, plan_from b l row once p = Some (es, q) -> b = length pre ->
  forall e, In e es -> entry_ok (pre ++ l) e.
Proof.
  induction l as [|s t IH]; intros b row once p es q pre; simpl.
  - intros [= <- _] _ e [].
  - destruct (plan_body b s row once p) as [[[es1 o1] p1]|] eqn:E1; [|discriminate].
    destruct (plan_from (S b) t (row + nseg s + 9) o1 p1) as [[es2 p2]|] eqn:E2; [|discriminate].
    intros H Hb e. assert (es = es1 ++ es2) as -> by congruence. clear H. rewrite in_app_iff. intros [He|He].
    + exists s. destruct (plan_body_rows _ _ _ _ _ _ _ _ E1) as [_ B]. rewrite (B _ He), Hb, nth_error_app2, Nat.sub_diag by lia.
      split; [reflexivity|].
      unfold plan_body in E1. destruct (Nat.leb_spec (nseg s) (special s)) as [L|L]; [discriminate E1|].
      destruct (plan_segs _ _ _ _ _ _) as [l0 o0] eqn:E0.
      destruct (plan_segs_rows _ _ _ _ _ _ _ _ E0) as (_ & Sg & _).
      destruct (plan_spring (rigid s CX) b CX p) as [kx q1].
      destruct (plan_spring (rigid s CY) b CY q1) as [ky q2].
      destruct (plan_spring (rigid s CO) b CO q2) as [ko q3].
      pose proof (f_equal (fun z => match z with Some (a, _, _) => a | None => [] end) E1) as Ees. simpl in Ees.
      clear E1. rewrite <- Ees, in_app_iff in He. destruct He as [He|He].
      * apply (in_map eseg) in He. rewrite Sg in He. apply in_seq in He. lia.
      * repeat (destruct He as [<-|He]; [simpl; lia|]). destruct He.
    + replace (pre ++ s :: t) with ((pre ++ [s]) ++ t) by (rewrite <- app_assoc; reflexivity).
      eapply IH; [exact E2|rewrite app_length; simpl; lia|exact He].
Qed.

Lemma children_in {K : Num} (S : sspace K) ib j b : In (j, b) (children S ib) <-> nth_error (sbodies S) j = Some b /\ root (fb b) = Some ib.
Proof.
  unfold children. rewrite filter_In. unfold bodies_i. rewrite indexed_nth. simpl.
  destruct (root (fb b)) as [k|]; [|intuition discriminate].
  destruct (Nat.eqb_spec k ib) as [->|N]; [tauto|]. intuition congruence.
Qed.

Section Write.
Context {K : Num}.
Variables (lnf : K -> K) (atan2f : K -> K -> K) (two_pi inv_2pi quarter milli : K).
Variable S : sspace K.
Variables (sinks : vec K -> vec K) (free_flux : att K -> K).
Notation eqn_of := (eqn_of lnf atan2f two_pi inv_2pi quarter milli S sinks free_flux).
Notation sizes := (sizes_of S).
Notation shapes := (shapes_of S).

Lemma sizes_shapes : map nseg shapes = sizes.
Proof. unfold shapes_of, sizes_of. rewrite map_map. reflexivity. Qed.

Lemma entry_eqn e : entry_ok shapes e -> exists q, eqn_of e = Some q.
Proof.
  intros (s & E & H). unfold shapes_of in E. rewrite nth_error_map in E. unfold Model.eqn_of.
  destruct (nth_error (sbodies S) (ebody e)) as [b|]; [|discriminate E]. simpl in E. injection E as <-. simpl in H.
  destruct (ekind e); eauto.
  destruct (nth_error (alist (g_of b)) (eseg e)) eqn:Ea; [simpl; eauto|]. apply nth_error_None in Ea. lia.
Qed.

Lemma known_seg j b k : nth_error (sbodies S) j = Some b -> k < length (alist (g_of b)) -> known sizes (UG j k).
Proof.
  intros H L. simpl. exists (length (alist (g_of b))). split; [|exact L].
  unfold sizes_of. rewrite nth_error_map, H. reflexivity.
Qed.
Lemma known_body j b u : nth_error (sbodies S) j = Some b -> ubody u = j ->
  match u with UG _ _ => False | _ => True end -> known sizes u.
Proof.
  intros H Eu Hu. assert (j < length (sbodies S)) by (apply nth_error_Some; congruence).
  subst j. destruct u; [destruct Hu|..]; simpl in *; unfold sizes_of; rewrite map_length; assumption.
Qed.
Ltac kb := first [eapply known_body; [eassumption|reflexivity|exact I]].

Lemma ones_known j b : nth_error (sbodies S) j = Some b -> forall u v, In (u, v) (ones j b) -> known sizes u.
Proof.
  intros Hj u v. unfold ones. rewrite in_app_iff, in_map_iff. intros [(k & E & H)|[E|[]]].
  - injection E as <- _. apply in_seq in H. eapply known_seg; eauto. lia.
  - injection E as <- _. kb.
Qed.

Lemma eqn_known e q : roots_listed S -> eqn_of e = Some q -> (eseg e < nth (ebody e) sizes 0) ->
  forall u v, In (u, v) (coefs q) -> known sizes u.
Proof.
  intros HR. unfold Model.eqn_of. destruct (nth_error (sbodies S) (ebody e)) as [b|] eqn:Eb; [|discriminate].
  intros Hq Hs u v.
  assert (Hs' : eseg e < length (alist (g_of b))).
  { unfold sizes_of in Hs. erewrite nth_error_nth in Hs by (rewrite nth_error_map, Eb; reflexivity). exact Hs. }
  assert (Kseg : forall j b0 k a, nth_error (sbodies S) j = Some b0 -> In (k, a) (indexed (alist (g_of b0))) -> known sizes (UG j k)).
  { intros j b0 k a Hj Hk. apply indexed_nth in Hk. eapply known_seg; eauto. apply nth_error_Some. congruence. }
  destruct (ekind e) as [| | | |c|c|c bo|c|c].
  - destruct (nth_error (alist (g_of b)) (eseg e)) as [a|]; [|discriminate Hq]. simpl in Hq. apply (f_equal (fun z => match z with Some w => w | None => q end)) in Hq. subst q.
    unfold slip_eq. cbn [coefs]. rewrite in_flat_map. intros ([j b0] & Hj & Hu). apply indexed_nth in Hj.
    rewrite in_app_iff, in_map_iff in Hu. destruct Hu as [([k l] & E & Hk)|Hu].
    + injection E as <- _. eapply Kseg; eauto.
    + destruct Hu as [E|[E|[E|[]]]]; injection E as <- _; kb.
  - apply (f_equal (fun z => match z with Some w => w | None => q end)) in Hq. subst q.
    intros [E|[]]. injection E as <- _. eapply known_seg; eauto.
  - apply (f_equal (fun z => match z with Some w => w | None => q end)) in Hq. subst q.
    unfold inf_eq. cbn [coefs]. rewrite in_flat_map. intros ([j b0] & Hj & Hu). apply indexed_nth in Hj. eapply ones_known; eauto.
  - apply (f_equal (fun z => match z with Some w => w | None => q end)) in Hq. subst q.
    unfold steady_eq. cbn [coefs]. eapply ones_known; eauto.
  - apply (f_equal (fun z => match z with Some w => w | None => q end)) in Hq. subst q.
    unfold speed_eq. cbn [coefs]. intros [E|Hu]; [injection E as <- _; kb|].
    destruct (root (fb b)) as [j|] eqn:Er; [|destruct Hu].
    assert (Hj : j < length (sbodies S)) by (eapply HR; [eapply nth_error_In; eauto|exact Er]).
    destruct (nth_error (sbodies S) j) as [rt|] eqn:Ej; [|apply nth_error_None in Ej; lia].
    destruct c; simpl in Hu; repeat (destruct Hu as [E|Hu]; [injection E as <- _; kb|]); destruct Hu.
  - apply (f_equal (fun z => match z with Some w => w | None => q end)) in Hq. subst q.
    intros [E|[]]. injection E as <- _. kb.
  - apply (f_equal (fun z => match z with Some w => w | None => q end)) in Hq. subst q.
    intros [E|[E|[]]]; injection E as <- _; kb.
  - apply (f_equal (fun z => match z with Some w => w | None => q end)) in Hq. subst q.
    assert (X : forall (f : nat * att K -> K) tl, (forall u0 v0, In (u0, v0) tl -> known sizes u0) ->
      In (u, v) (map (fun p => (UG (ebody e) (fst p), f p)) (indexed (alist (g_of b))) ++ tl) -> known sizes u).
    { intros f tl Ht. rewrite in_app_iff, in_map_iff. intros [([k l] & E & Hk)|Hu]; [|eauto].
      injection E as <- _. eapply Kseg; eauto. }
    destruct c; unfold hydro_eq; cbn [coefs]; apply X; intros u0 v0 [E|[E|[E|[E|[]]]]]; injection E as <- _; kb.
  - apply (f_equal (fun z => match z with Some w => w | None => q end)) in Hq. subst q.
    assert (X : forall tl, (forall u0 v0, In (u0, v0) tl -> known sizes u0) ->
      forall (a1 a2 a3 a4 a5 : unk * K), known sizes (fst a1) -> known sizes (fst a2) -> known sizes (fst a3) -> known sizes (fst a4) -> known sizes (fst a5) ->
      In (u, v) ([a1; a2; a3; a4; a5] ++ tl) -> known sizes u).
    { intros tl Ht a1 a2 a3 a4 a5 H1 H2 H3 H4 H5. rewrite in_app_iff.
      intros [[->|[->|[->|[->|[->|[]]]]]]|Hu]; auto. eauto. }
    destruct c; unfold newton_eq; cbn [coefs]; apply X; try kb.
    + intros u0 v0. rewrite in_map_iff. intros ([j b0] & E & Hj). injection E as <- _.
      apply children_in in Hj. destruct Hj as [Hj _]. kb.
    + intros u0 v0. rewrite in_map_iff. intros ([j b0] & E & Hj). injection E as <- _.
      apply children_in in Hj. destruct Hj as [Hj _]. kb.
    + intros u0 v0. rewrite in_flat_map. intros ([j b0] & Hj & Hu). apply children_in in Hj. destruct Hj as [Hj _].
      destruct Hu as [E|[E|[E|[]]]]; injection E as <- _; kb.
Qed.

(** ** Cells *)

Variable addr : unk -> Z.
Notation N := (system_size sizes).

Lemma write_coefs_spec sl row (l : list (unk * K)) : registered addr sizes sl -> row < N ->
  (forall u v, In (u, v) l -> known sizes u) ->
  forall A, exists A', write_coefs addr N sl row l A = Ok A' /\
    (forall r' u, known sizes u -> A' (r' * N + col sizes u) =
      if Nat.eqb r' row then fold_left (fun a e => if unk_eqb (fst e) u then snd e else a) l (A (r' * N + col sizes u))
      else A (r' * N + col sizes u)).
Proof.
  intros HR Hrow. induction l as [|[w v] t IH]; intros Hk A; simpl.
  - exists A. split; [reflexivity|]. intros r' u _. destruct (Nat.eqb r' row); reflexivity.
  - unfold get_cell. rewrite (HR w) by (eapply Hk; left; reflexivity).
    assert (Kw : known sizes w) by (eapply Hk; left; reflexivity).
    pose proof (col_lt _ _ Kw) as Lw.
    destruct (Z.leb_spec (Z.of_nat N) (Z.of_nat row)); [lia|].
    destruct (Z.leb_spec (Z.of_nat N) (Z.of_nat (col sizes w))); [lia|]. simpl.
    destruct (IH (fun u v H => Hk u v (or_intror H)) (put (Z.to_nat (Z.of_nat row * Z.of_nat N + Z.of_nat (col sizes w))) v A)) as (A' & E & HA).
    exists A'. split; [exact E|]. intros r' u Hu. rewrite (HA r' u Hu).
    replace (Z.to_nat (Z.of_nat row * Z.of_nat N + Z.of_nat (col sizes w))) with (row * N + col sizes w) by lia.
    unfold put.
    pose proof (col_lt _ _ Hu) as Lu.
    destruct (Nat.eqb_spec r' row) as [->|Nr].
    + f_equal. destruct (unk_eqb_spec w u) as [->|Nw].
      * rewrite Nat.eqb_refl. reflexivity.
      * destruct (Nat.eqb_spec (row * N + col sizes u) (row * N + col sizes w)) as [X|_]; [|reflexivity].
        exfalso. apply Nw. symmetry. eapply col_inj; eauto. lia.
    + destruct (Nat.eqb_spec (r' * N + col sizes u) (row * N + col sizes w)) as [X|_]; [|reflexivity].
      apply cell_inj in X; [|assumption..]. destruct X. contradiction.
Qed.

Definition stops (e : entry) : bool := match ekind e with Stop _ => true | _ => false end.

Definition rightly (right_only : bool) (M M' : system K) (es : list entry) : Prop :=
  (forall e q, In e es -> eqn_of e = Some q -> right_ M' (erow e) = rhs q) /\
  (forall e q u, In e es -> eqn_of e = Some q -> known sizes u ->
     cell M' (erow e * N + col sizes u) =
       if right_only && negb (stops e) then cell M (erow e * N + col sizes u)
       else fold_left (fun a e => if unk_eqb (fst e) u then snd e else a) (coefs q) (cell M (erow e * N + col sizes u))) /\
  (forall row, ~ In row (map erow es) -> right_ M' row = right_ M row /\
     forall u, known sizes u -> cell M' (row * N + col sizes u) = cell M (row * N + col sizes u)).

Lemma write_all_spec right_only sl : registered addr sizes sl -> roots_listed S ->
  forall es M, NoDup (map erow es) -> (forall e, In e es -> entry_ok shapes e /\ erow e < N) ->
  exists M', write_all lnf atan2f two_pi inv_2pi quarter milli S sinks free_flux addr N right_only sl es M = Ok M' /\
    rightly right_only M M' es.
Proof.
  intros HR HL. induction es as [|e t IH]; intros M ND He; simpl.
  - exists M. split; [reflexivity|]. split; [|split]; [easy|easy|]. intros row _. split; reflexivity.
  - simpl in ND. apply NoDup_cons_iff in ND. destruct ND as [Ne ND].
    destruct (He e (or_introl eq_refl)) as [Hok Hrow]. destruct (entry_eqn e Hok) as (q & Eq).
    unfold write_entry. rewrite Eq. destruct (Nat.leb_spec N (erow e)); [lia|].
    assert (Hk : forall u v, In (u, v) (coefs q) -> known sizes u).
    { apply (eqn_known e q HL Eq). destruct Hok as (s & Es & Hs). unfold sizes_of.
      unfold shapes_of in Es. rewrite nth_error_map in Es. destruct (nth_error (sbodies S) (ebody e)) as [b|] eqn:Eb; [|discriminate Es].
      simpl in Es. injection Es as <-. erewrite nth_error_nth by (rewrite nth_error_map, Eb; reflexivity). exact Hs. }
    fold (stops e).
    assert (exists A, (if right_only && negb (stops e) then Ok (cell M) else write_coefs addr N sl (erow e) (coefs q) (cell M)) = Ok A /\
      forall r' u, known sizes u -> A (r' * N + col sizes u) =
        if Nat.eqb r' (erow e) && negb (right_only && negb (stops e)) then fold_left (fun a e => if unk_eqb (fst e) u then snd e else a) (coefs q) (cell M (r' * N + col sizes u))
        else cell M (r' * N + col sizes u)) as (A & EA & HA).
    { destruct (right_only && negb (stops e)); simpl.
      - exists (cell M). split; [reflexivity|]. intros. rewrite andb_false_r. reflexivity.
      - destruct (write_coefs_spec sl (erow e) (coefs q) HR Hrow Hk (cell M)) as (A & EA & HA). exists A. split; [exact EA|].
        intros r' u Hu. rewrite (HA r' u Hu), andb_true_r. reflexivity. }
    rewrite EA.
    destruct (IH (mkSystem A (put (erow e) (rhs q) (right_ M))) ND (fun e' H' => He e' (or_intror H'))) as (M' & EM & R1 & R2 & R3).
    exists M'. split; [exact EM|]. split; [|split].
    + intros e' q' [<-|H'] Eq'; [|eauto]. rewrite Eq in Eq'. destruct (R3 (erow e) Ne) as [-> _]. simpl. unfold put. rewrite Nat.eqb_refl. congruence.
    + intros e' q' u [<-|H'] Eq' Hu.
      * rewrite Eq in Eq'. assert (q = q') as <- by congruence. destruct (R3 (erow e) Ne) as [_ X]. rewrite (X u Hu). simpl. rewrite (HA _ _ Hu), Nat.eqb_refl.
        destruct (right_only && negb (stops e)); reflexivity.
      * rewrite (R2 e' q' u H' Eq' Hu). simpl.
        assert (Nr : erow e' <> erow e). { intros X. apply Ne. rewrite <- X. apply in_map. exact H'. }
        rewrite (HA (erow e') u Hu). destruct (Nat.eqb_spec (erow e') (erow e)); [contradiction|]. reflexivity.
    + intros row Hr. simpl in Hr. destruct (R3 row ltac:(tauto)) as [X Y]. rewrite X. simpl. unfold put.
      destruct (Nat.eqb_spec row (erow e)) as [->|Nr]; [tauto|]. split; [reflexivity|].
      intros u Hu. rewrite (Y u Hu). simpl. rewrite (HA row u Hu). destruct (Nat.eqb_spec row (erow e)); [contradiction|]. reflexivity.
Qed.

Lemma fill_in_spec p es q order right_only sl M : plan shapes p = Some (es, q) -> Permutation es order ->
  registered addr sizes sl -> roots_listed S ->
  exists M', fill_in lnf atan2f two_pi inv_2pi quarter milli S sinks free_flux addr N order right_only sl M = Ok M' /\
    rightly right_only (if right_only then M else mkSystem (fun _ => nofZ 0) (right_ M)) M' es.
Proof.
  intros Hp HP HR HL. unfold fill_in.
  pose proof (plan_rows _ _ _ _ Hp) as Rows. rewrite sizes_shapes in Rows.
  assert (NDe : NoDup (map erow es)) by (rewrite Rows; apply seq_NoDup).
  destruct (write_all_spec right_only sl HR HL order (if right_only then M else mkSystem (fun _ => nofZ 0) (right_ M))) as (M' & E & R1 & R2 & R3).
  - eapply Permutation_NoDup; [apply Permutation_map; exact HP|exact NDe].
  - intros e He. apply (Permutation_in _ (Permutation_sym HP)) in He. split.
    + apply (plan_entries _ _ _ _ _ _ _ [] Hp eq_refl _ He).
    + apply (in_map erow) in He. rewrite Rows in He. apply in_seq in He. lia.
  - exists M'. split; [exact E|]. split; [|split].
    + intros e q0 He. apply R1. eapply Permutation_in; eauto.
    + intros e q0 u He. apply R2. eapply Permutation_in; eauto.
    + intros row Hr. apply R3. intros X. apply Hr. eapply Permutation_in; [|exact X]. apply Permutation_sym, Permutation_map, HP.
Qed.
End Write.

(** ** Solutions, over the reals *)

Local Open Scope R_scope.

Lemma total_cons {A} (f : A -> R) a l : total f (a :: l) = f a + total f l.
Proof. reflexivity. Qed.
Lemma total_ext {A} (f g : A -> R) l : (forall a, In a l -> f a = g a) -> total f l = total g l.
Proof.
  induction l as [|a t IH]; intros H; [reflexivity|]. rewrite !total_cons. f_equal; [apply H; left; reflexivity|].
  apply IH. intros; apply H; right; assumption.
Qed.
Lemma total_map {A B} (h : A -> B) (f : B -> R) l : total f (map h l) = total (fun a => f (h a)) l.
Proof. induction l as [|a t IH]; [reflexivity|]. simpl map. rewrite !total_cons, IH. reflexivity. Qed.
Lemma total_zero {A} (l : list A) f : (forall a, In a l -> f a = 0) -> total f l = 0.
Proof.
  induction l as [|a t IH]; intros H; [reflexivity|]. rewrite total_cons, (H a (or_introl eq_refl)).
  rewrite IH; [lra|]. intros; apply H; right; assumption.
Qed.
Lemma total_plus {A} (f g : A -> R) l : total (fun a => f a + g a) l = total f l + total g l.
Proof. induction l as [|a t IH]; [unfold total; simpl; lra|]. rewrite !total_cons, IH. lra. Qed.
Lemma total_app {A} (f : A -> R) l m : total f (l ++ m) = total f l + total f m.
Proof. induction l as [|a t IH]; [unfold total; simpl; lra|]. simpl app. rewrite !total_cons, IH. lra. Qed.
Lemma total_scal {A} (f : A -> R) c l : total (fun a => c * f a) l = c * total f l.
Proof. induction l as [|a t IH]; [unfold total; simpl; lra|]. rewrite !total_cons, IH. lra. Qed.
Lemma total_flat_map {A B} (h : A -> list B) (f : B -> R) l : total f (flat_map h l) = total (fun a => total f (h a)) l.
Proof. induction l as [|a t IH]; [reflexivity|]. simpl flat_map. rewrite total_app, IH. reflexivity. Qed.

Lemma total_nth {A} (l : list A) (f : A -> R) d : total f l = total (fun c => f (nth c l d)) (seq 0 (length l)).
Proof.
  rewrite <- (total_map (fun c => nth c l d)). f_equal.
  assert (X : forall l (pre : list A), map (fun c => nth c (pre ++ l) d) (seq (length pre) (length l)) = l).
  { clear. induction l as [|a t IH]; intros pre; [reflexivity|]. simpl. f_equal.
    - rewrite app_nth2, Nat.sub_diag by lia. reflexivity.
    - specialize (IH (pre ++ [a])). rewrite app_length in IH. simpl in IH. rewrite Nat.add_1_r in IH.
      rewrite <- app_assoc in IH. exact IH. }
  symmetry. exact (X l []).
Qed.

Lemma coef_absent (l : list (unk * R)) u a : ~ In u (map fst l) ->
  fold_left (fun a (e : unk * R) => if unk_eqb (fst e) u then snd e else a) l a = a.
Proof.
  revert a. induction l as [|[w v] t IH]; intros a H; simpl in *; [reflexivity|].
  destruct (unk_eqb_spec w u) as [->|_]; [tauto|]. apply IH. tauto.
Qed.

Lemma lin_sum us (l : list (unk * R)) (v : unk -> R) : NoDup us -> NoDup (map fst l) -> incl (map fst l) us ->
  total (fun u => fold_left (fun a (e : unk * R) => if unk_eqb (fst e) u then snd e else a) l 0 * v u) us =
  total (fun e => snd e * v (fst e)) l.
Proof.
  intros NU. induction l as [|[w a] t IH]; intros NL HI.
  - simpl. apply total_zero. intros; lra.
  - simpl in NL, HI. apply NoDup_cons_iff in NL. destruct NL as [Nw NL].
    change (total (fun e : unk * R => snd e * v (fst e)) ((w, a) :: t)) with (a * v w + total (fun e : unk * R => snd e * v (fst e)) t).
    rewrite <- IH; [|exact NL|intros z Hz; apply HI; right; exact Hz].
    assert (Hw : In w us) by (apply HI; left; reflexivity).
    rewrite (total_ext _ (fun u => (if unk_eqb w u then a * v w else 0) +
       fold_left (fun a (e : unk * R) => if unk_eqb (fst e) u then snd e else a) t 0 * v u)).
    + rewrite total_plus. f_equal. clear IH NL HI Nw.
      induction us as [|u us IH]; [destruct Hw|]. apply NoDup_cons_iff in NU. destruct NU as [Nu NU].
      rewrite total_cons. destruct (unk_eqb_spec w u) as [->|N].
      * rewrite total_zero; [lra|]. intros z Hz. destruct (unk_eqb_spec u z) as [->|_]; [contradiction|reflexivity].
      * destruct Hw as [->|Hw]; [congruence|]. rewrite IH by assumption. lra.
    + intros u _. simpl. destruct (unk_eqb_spec w u) as [->|N].
      * rewrite (coef_absent t u a Nw), (coef_absent t u 0 Nw). lra.
      * lra.
Qed.

Section Solution.
Variables (atan2f : R -> R -> R) (two_pi inv_2pi : R).
Variable S : sspace RNum.
Variables (sinks : vec RNum -> vec RNum) (free_flux : att RNum -> R).
Notation eqn_of := (eqn_of (K:=RNum) ln atan2f two_pi inv_2pi (/4) (/1000) S sinks free_flux).
Notation sizes := (sizes_of S).
Notation N := (system_size sizes).

Lemma row_sum addr p es pq order sl M M' v e q :
  plan (shapes_of S) p = Some (es, pq) -> Permutation es order -> registered addr sizes sl -> roots_listed S ->
  fill_in (K:=RNum) ln atan2f two_pi inv_2pi (/4) (/1000) S sinks free_flux addr N order false sl M = Ok M' ->
  In e es -> eqn_of e = Some q -> NoDup (map fst (coefs q)) ->
  (erow e < N)%nat /\ right_ M' (erow e) = rhs q /\ total (fun c => cell M' (erow e * N + c)%nat * values sizes v c) (seq 0 N) = total (fun t : unk * R => snd t * v (fst t)) (coefs q).
Proof.
  intros Hp HP HR HL HF He Eq ND.
  destruct (fill_in_spec (K:=RNum) ln atan2f two_pi inv_2pi (/4) (/1000) S sinks free_flux addr p es pq order false sl M Hp HP HR HL)
    as (M2 & E2 & R1 & R2 & _).
  rewrite HF in E2. assert (M' = M2) by (injection E2; auto). subst M2. clear E2.
  assert (Hrow : (erow e < N)%nat).
  { pose proof (plan_rows _ _ _ _ Hp) as Rows. rewrite sizes_shapes in Rows. apply (in_map erow) in He. rewrite Rows in He. apply in_seq in He. lia. }
  split; [exact Hrow|]. split; [exact (R1 e q He Eq)|].
  rewrite <- (lin_sum (unknowns sizes) (coefs q) v (unknowns_nodup _) ND).
  - rewrite (total_nth (unknowns sizes) _ (UG 0 0)), (unknowns_length sizes).
    apply total_ext. intros c Hc. apply in_seq in Hc. pose proof (unknowns_length sizes) as Lu.
      set (u := nth c (unknowns sizes) (UG 0 0)).
      assert (Hu : known sizes u) by (apply unknowns_known, nth_In; lia).
      assert (Ec : col sizes u = c).
      { pose proof (unknowns_at _ _ Hu) as X.
        apply (proj1 (NoDup_nth_error _) (unknowns_nodup sizes)); [rewrite unknowns_length; apply col_lt, Hu|].
        rewrite X. symmetry. apply nth_error_nth'. lia. }
      pose proof (R2 e q u He Eq Hu) as X. cbn in X.
      rewrite Ec in X. rewrite X. reflexivity.
  - intros u Hu. apply in_map_iff in Hu. destruct Hu as ([u' a] & <- & Hu). apply unknowns_known. simpl.
    eapply (eqn_known (K:=RNum)); [exact HL|exact Eq| |exact Hu].
    destruct (plan_entries _ _ _ _ _ _ _ [] Hp eq_refl _ He) as (s & Es & Hseg). simpl in Es.
    unfold shapes_of in Es. rewrite nth_error_map in Es. destruct (nth_error (sbodies S) (ebody e)) as [b|] eqn:Eb; [|discriminate Es].
    simpl in Es. injection Es as <-. unfold sizes_of. erewrite nth_error_nth by (rewrite nth_error_map, Eb; reflexivity). exact Hseg.
Qed.

Lemma row_holds addr p es pq order sl M M' v e q :
  plan (shapes_of S) p = Some (es, pq) -> Permutation es order -> registered addr sizes sl -> roots_listed S ->
  fill_in (K:=RNum) ln atan2f two_pi inv_2pi (/4) (/1000) S sinks free_flux addr N order false sl M = Ok M' ->
  solves N M' (values sizes v) ->
  In e es -> eqn_of e = Some q -> NoDup (map fst (coefs q)) ->
  total (fun t : unk * R => snd t * v (fst t)) (coefs q) = rhs q.
Proof.
  intros Hp HP HR HL HF Hs He Eq ND.
  destruct (row_sum addr p es pq order sl M M' v e q Hp HP HR HL HF He Eq ND) as (Hrow & Hr & Ht).
  rewrite <- Hr, <- Ht. apply Hs. exact Hrow.
Qed.

Lemma find_self n : forall k s, (s <= k)%nat -> (k < s + n)%nat ->
  find (Z.of_nat k) (map (fun c => (Z.of_nat c, Z.of_nat c)) (seq s n)) = Some (Z.of_nat k).
Proof.
  induction n as [|n IH]; intros k s L U; [lia|]. simpl. destruct (Z.eqb_spec (Z.of_nat s) (Z.of_nat k)) as [E|E]; [congruence|].
  apply IH; lia.
Qed.

(** Numbers that satisfy every equation are a solution. *)
Lemma holds_with p es pq v :
  plan (shapes_of S) p = Some (es, pq) -> roots_listed S ->
  (forall e q, In e es -> eqn_of e = Some q -> NoDup (map fst (coefs q)) /\ total (fun t : unk * R => snd t * v (fst t)) (coefs q) = rhs q) ->
  solution_with atan2f two_pi inv_2pi sinks free_flux S p v.
Proof.
  intros Hp HL H.
  set (addr := fun u => Z.of_nat (col sizes u)).
  set (sl := mkSlots [] (map (fun c => (Z.of_nat c, Z.of_nat c)) (seq 0 N))).
  assert (HR : registered addr sizes sl).
  { intros u Hu. unfold get_col, sl, addr. cbn [idx]. rewrite find_self by (pose proof (col_lt _ _ Hu); lia). reflexivity. }
  destruct (fill_in_spec (K:=RNum) ln atan2f two_pi inv_2pi (/4) (/1000) S sinks free_flux addr p es pq es false sl (@mkSystem RNum (fun _ => 0) (fun _ => 0)) Hp (Permutation_refl _) HR HL)
    as (M' & E & _).
  exists addr, es, pq, es, sl, (@mkSystem RNum (fun _ => 0) (fun _ => 0)), M'.
  split; [exact Hp|]. split; [apply Permutation_refl|]. split; [exact HR|]. split; [exact HL|]. split; [exact E|].
  intros row Hrow. pose proof (plan_rows _ _ _ _ Hp) as Rows. rewrite sizes_shapes in Rows.
  assert (Hin : In row (map erow es)) by (rewrite Rows; apply in_seq; lia).
  apply in_map_iff in Hin. destruct Hin as (e & <- & He).
  destruct (entry_eqn (K:=RNum) ln atan2f two_pi inv_2pi (/4) (/1000) S sinks free_flux e) as (q & Eq).
  { apply (plan_entries _ _ _ _ _ _ _ [] Hp eq_refl _ He). }
  destruct (H e q He Eq) as [ND Hq].
  destruct (row_sum addr p es pq es sl _ M' v e q Hp (Permutation_refl _) HR HL E He Eq ND) as (_ & Hr & Ht).
  rewrite Hr, Ht. exact Hq.
Qed.

Lemma holds_solution p es pq v :
  plan (shapes_of S) p = Some (es, pq) -> roots_listed S ->
  (forall e q, In e es -> eqn_of e = Some q -> NoDup (map fst (coefs q)) /\ total (fun t : unk * R => snd t * v (fst t)) (coefs q) = rhs q) ->
  solution S p v.
Proof.
  intros A B C. destruct (holds_with p es pq v A B C) as (addr & es' & q & order & sl & M & M' & H).
  exists atan2f, two_pi, inv_2pi, sinks, free_flux, addr, es', q, order, sl, M, M'. exact H.
Qed.
End Solution.
