(** The way of the collision pointer through the plan. *)

From Coq Require Import ZArith Bool List Lia.
From Verif.Base Require Import Num.
From Verif.Matrix Require Import Model.
From Verif.Body Require Import Model.
From Verif.Flow Require Import Model.
From Verif.System Require Import Model Spec Proofs.
Import ListNotations.

Lemma comp_eqb_spec c d : reflect (c = d) (comp_eqb c d).
Proof. destruct c, d; simpl; constructor; congruence. Qed.

Lemma ptr_eqb_spec p q : reflect (p = q) (ptr_eqb p q).
Proof.
  destruct p as [|b c|b c], q as [|b' c'|b' c']; simpl; try (constructor; congruence).
  all: destruct (Nat.eqb_spec b b'), (comp_eqb_spec c c'); simpl; constructor; congruence.
Qed.

(** The springs in the order of the loop. *)
Definition spring := (nat * comp * bool)%type.
Fixpoint springs_from (b : nat) (l : list shape) : list spring :=
  match l with
  | [] => []
  | s :: t => (b, CX, rigid s CX) :: (b, CY, rigid s CY) :: (b, CO, rigid s CO) :: springs_from (S b) t
  end.

Fixpoint walk (l : list spring) (p : ptr) : list (nat * kind) * ptr :=
  match l with
  | [] => ([], p)
  | (b, c, rg) :: t =>
      let '(k, p) := plan_spring rg b c p in
      let '(ks, p) := walk t p in ((b, k) :: ks, p)
  end.

Definition is_spring (k : kind) : bool :=
  match k with Speed _ | Stop _ | Hooke _ _ => true | _ => false end.

Lemma plan_segs_spring sp ku b : forall segs row once l o, plan_segs sp ku b segs row once = (l, o) ->
  forall e, In e l -> is_spring (ekind e) = false.
Proof.
  induction segs as [|i t IH]; intros row once l o; simpl; [intros [= <- _] e []|].
  destruct (negb (Nat.eqb i sp)); [|destruct ku].
  - destruct (plan_segs sp ku b t (S row) once) as [l' o'] eqn:E. intros [= <- _] e [<-|He]; [reflexivity|eauto].
  - destruct (plan_segs sp true b t (S row) once) as [l' o'] eqn:E. intros [= <- _] e [<-|He]; [reflexivity|eauto].
  - destruct (plan_segs sp false b t (S row) true) as [l' o'] eqn:E. intros [= <- _] e [<-|He]; [destruct once; reflexivity|eauto].
Qed.

Lemma plan_walk l : forall b row once p es q, plan_from b l row once p = Some (es, q) ->
  q = snd (walk (springs_from b l) p) /\
  forall i k, is_spring k = true ->
    (In (i, k) (fst (walk (springs_from b l) p)) <-> exists e, In e es /\ ebody e = i /\ ekind e = k).
Proof.
  induction l as [|s t IH]; intros b row once p es q; simpl.
  - intros [= <- <-]. split; [reflexivity|]. simpl. intros i k _. split; [easy|intros (e & [] & _)].
  - destruct (plan_body b s row once p) as [[[es1 o1] p1]|] eqn:E1; [|discriminate].
    destruct (plan_from (S b) t (row + nseg s + 9) o1 p1) as [[es2 p2]|] eqn:E2; [|discriminate].
    intros H. assert (es = es1 ++ es2) as -> by congruence. assert (p2 = q) as -> by congruence. clear H.
    unfold plan_body in E1. destruct (Nat.leb (nseg s) (special s)); [discriminate E1|].
    destruct (plan_segs _ _ _ _ _ _) as [l0 o0] eqn:E0.
    pose proof (plan_segs_spring _ _ _ _ _ _ _ _ E0) as Hl0.
    destruct (plan_spring (rigid s CX) b CX p) as [kx q1].
    destruct (plan_spring (rigid s CY) b CY q1) as [ky q2].
    destruct (plan_spring (rigid s CO) b CO q2) as [ko q3].
    pose proof (f_equal (fun z => match z with Some (a, _, _) => a | None => [] end) E1) as Ees. simpl in Ees.
    pose proof (f_equal (fun z => match z with Some (_, _, a) => a | None => p end) E1) as Eq. simpl in Eq.
    clear E1. subst p1. destruct (IH _ _ _ _ _ _ E2) as (Hq & Hk). clear IH.
    destruct (walk (springs_from (S b) t) q3) as [ks qe]. simpl in *. split; [exact Hq|].
    intros i k Sk. rewrite (Hk i k Sk). rewrite <- Ees. split.
    + intros [X|[X|[X|(e & He & X)]]].
      * injection X as <- <-. eexists. rewrite !in_app_iff. split; [left; right; left; reflexivity|split; reflexivity].
      * injection X as <- <-. eexists. rewrite !in_app_iff. split; [left; right; right; left; reflexivity|split; reflexivity].
      * injection X as <- <-. eexists. rewrite !in_app_iff. split; [left; right; right; right; left; reflexivity|split; reflexivity].
      * exists e. rewrite in_app_iff. split; [right; exact He|exact X].
    + intros (e & He & <- & <-). rewrite !in_app_iff in He. destruct He as [[He|He]|He].
      * rewrite (Hl0 _ He) in Sk. discriminate Sk.
      * destruct He as [<-|He]; [left; reflexivity|]. destruct He as [<-|He]; [right; left; reflexivity|].
        destruct He as [<-|He]; [right; right; left; reflexivity|].
        repeat (destruct He as [<-|He]; [discriminate Sk|]). destruct He.
      * right; right; right. exists e. auto.
Qed.

Lemma springs_nth l : forall b k c s, nth_error l k = Some s ->
  exists pre post, springs_from b l = pre ++ (b + k, c, rigid s c) :: post.
Proof.
  induction l as [|s0 t IH]; intros b k c s Hk; [destruct k; discriminate Hk|].
  destruct k as [|k]; simpl in Hk |- *.
  - injection Hk as ->. rewrite Nat.add_0_r. destruct c.
    + exists [], ((b, CY, rigid s CY) :: (b, CO, rigid s CO) :: springs_from (S b) t). reflexivity.
    + exists [(b, CX, rigid s CX)], ((b, CO, rigid s CO) :: springs_from (S b) t). reflexivity.
    + exists [(b, CX, rigid s CX); (b, CY, rigid s CY)], (springs_from (S b) t). reflexivity.
  - destruct (IH (S b) k c s Hk) as (pre & post & E). rewrite E. rewrite <- plus_n_Sm. simpl plus.
    exists ((b, CX, rigid s0 CX) :: (b, CY, rigid s0 CY) :: (b, CO, rigid s0 CO) :: pre), post. reflexivity.
Qed.

Lemma springs_in l : forall b i c rg, In (i, c, rg) (springs_from b l) <->
  b <= i /\ exists s, nth_error l (i - b) = Some s /\ rg = rigid s c.
Proof.
  induction l as [|s t IH]; intros b i c rg; simpl.
  - split; [easy|]. intros (_ & s & E & _). destruct (i - b); discriminate E.
  - rewrite IH. split.
    + intros [H|[H|[H|[H (s' & E & F)]]]].
      1-3: injection H as <- <- <-; split; [lia|]; exists s; rewrite Nat.sub_diag; split; reflexivity.
      split; [lia|]. exists s'. replace (i - b) with (S (i - S b)) by lia. split; assumption.
    + intros (L & s' & E & F). destruct (Nat.eq_dec i b) as [->|N].
      * rewrite Nat.sub_diag in E. injection E as <-. subst rg. destruct c; tauto.
      * right; right; right. split; [lia|]. exists s'. replace (i - b) with (S (i - S b)) in E by lia. split; assumption.
Qed.

Definition comp_of (s : spring) : nat * comp := fst s.

Lemma springs_nodup l : forall b, NoDup (map comp_of (springs_from b l)).
Proof.
  induction l as [|s t IH]; intros b; simpl; [constructor|].
  assert (H : forall c, ~ In (b, c) (map comp_of (springs_from (S b) t))).
  { intros c. rewrite in_map_iff. intros ([[i c'] rg] & E & X). unfold comp_of in E; simpl in E. injection E as -> ->.
    apply springs_in in X. lia. }
  repeat constructor; [..|apply IH]; simpl; unfold comp_of at 1; simpl; intuition (try discriminate; try (eapply H; eassumption)).
Qed.

(** ** Walks *)

Lemma walk_app l m p : walk (l ++ m) p =
  let '(k1, p1) := walk l p in let '(k2, p2) := walk m p1 in (k1 ++ k2, p2).
Proof.
  revert p. induction l as [|[[b c] rg] t IH]; intros p; simpl.
  - destruct (walk m p); reflexivity.
  - destruct (plan_spring rg b c p) as [k p1]. rewrite IH.
    destruct (walk t p1) as [k1 p2]. destruct (walk m p2) as [k2 p3]. reflexivity.
Qed.

Definition all_rigid (l : list spring) : Prop := forall b c rg, In (b, c, rg) l -> rg = true.

Lemma walk_rigid l : all_rigid l -> forall p, snd (walk l p) = p /\ forall i k, In (i, k) (fst (walk l p)) -> exists c, k = Speed c.
Proof.
  induction l as [|[[b c] rg] t IH]; intros H p; simpl.
  - split; [reflexivity|easy].
  - assert (rg = true) as -> by (apply (H b c); left; reflexivity). simpl.
    assert (Ht : all_rigid t) by (intros b' c' rg' X; apply (H b' c'); right; exact X).
    destruct (IH Ht p) as [E1 E2]. destruct (walk t p) as [ks q]. simpl in *. split; [exact E1|].
    intros i k [X|X]; [injection X as <- <-; eauto|eauto].
Qed.

Lemma walk_null l : snd (walk l PNull) = PNull /\
  forall i k, In (i, k) (fst (walk l PNull)) -> exists c, k = Speed c \/ k = Hooke c false.
Proof.
  induction l as [|[[b c] rg] t IH]; simpl; [split; [reflexivity|easy]|].
  unfold plan_spring. destruct rg; simpl; destruct (walk t PNull) as [ks q]; simpl in *; destruct IH as [-> IH]; split; auto;
    intros i k [X|X]; try (injection X as <- <-); eauto.
Qed.

(** A pointer that belongs to none of the springs is dropped at the first one that moves. *)
Definition about (b : nat) (c : comp) (p : ptr) : Prop := p = PSpring b c \/ p = PHolder b c.

Lemma walk_foreign l b c p : about b c p -> ~ In (b, c) (map comp_of l) ->
  (all_rigid l /\ snd (walk l p) = p) \/ (~ all_rigid l /\ snd (walk l p) = PNull).
Proof.
  intros Ha. induction l as [|[[b' c'] rg] t IH]; intros Hn; simpl.
  - left. split; [intros ? ? ? []|reflexivity].
  - simpl in Hn. unfold comp_of at 1 in Hn. simpl in Hn.
    assert (Hn' : ~ In (b, c) (map comp_of t)) by tauto.
    destruct rg; simpl.
    + destruct (IH Hn') as [[R E]|[R E]]; destruct (walk t p) as [ks q]; simpl in *; [left|right]; split; auto.
      * intros b0 c0 rg0 [X|X]; [congruence|eapply R; eauto].
      * intros X. apply R. intros b0 c0 rg0 Y. eapply X. right. exact Y.
    + right. split; [intros X; specialize (X b' c' false (or_introl eq_refl)); discriminate X|].
      unfold plan_spring.
      destruct (ptr_eqb_spec p (PSpring b' c')) as [->|N1].
      { exfalso. destruct Ha as [Ha|Ha]; [injection Ha as -> ->; apply Hn; left; reflexivity|discriminate Ha]. }
      destruct (walk_null t) as [E _]. destruct (walk t PNull). exact E.
Qed.

Lemma plan_all_springs l b c s : nth_error l b = Some s ->
  exists pre post, springs_from 0 l = pre ++ (b, c, rigid s c) :: post /\
    ~ In (b, c) (map comp_of pre) /\ ~ In (b, c) (map comp_of post).
Proof.
  intros H. destruct (springs_nth l 0 b c s H) as (pre & post & E). exists pre, post. split; [exact E|].
  pose proof (springs_nodup l 0) as ND. rewrite E, map_app in ND. simpl in ND. apply NoDup_remove_2 in ND.
  rewrite in_app_iff in ND. unfold comp_of at 2 in ND. simpl in ND. tauto.
Qed.

Lemma walk_hit b c t : walk ((b, c, false) :: t) (PSpring b c) =
  ((b, Stop c) :: fst (walk t (PHolder b c)), snd (walk t (PHolder b c))).
Proof. simpl. rewrite Nat.eqb_refl. destruct c; simpl; destruct (walk t _); reflexivity. Qed.
Lemma walk_back b c t : walk ((b, c, false) :: t) (PHolder b c) =
  ((b, Hooke c true) :: fst (walk t PNull), snd (walk t PNull)).
Proof. simpl. rewrite Nat.eqb_refl. destruct c; simpl; destruct (walk t _); reflexivity. Qed.

Lemma walk_bounce b c pre post : ~ In (b, c) (map comp_of pre) -> ~ In (b, c) (map comp_of post) ->
  let l := pre ++ (b, c, false) :: post in
  let '(k1, p1) := walk l (PSpring b c) in
  let '(k2, p2) := walk l p1 in
  (all_rigid pre -> In (b, Stop c) k1) /\
  (~ all_rigid pre -> forall i k, In (i, k) k1 -> forall c', k <> Stop c') /\
  (all_rigid pre /\ all_rigid post -> In (b, Hooke c true) k2) /\
  (~ (all_rigid pre /\ all_rigid post) -> forall i k, In (i, k) k2 -> exists c', k = Speed c' \/ k = Hooke c' false) /\ p2 = PNull.
Proof.
  intros Hp Hq. cbv zeta. rewrite !walk_app.
  pose proof (walk_foreign pre b c (PSpring b c) (or_introl eq_refl) Hp) as X1.
  assert (Rk : forall p i k, all_rigid pre -> In (i, k) (fst (walk pre p)) -> exists c', k = Speed c').
  { intros p i k R. apply walk_rigid. exact R. }
  assert (S1 : forall i k c', In (i, k) (fst (walk pre (PSpring b c))) -> k <> Stop c').
  { clear X1 Rk. intros i k c'. revert i k.
    assert (G : forall p, (p = PSpring b c \/ p = PNull) -> forall i k, In (i, k) (fst (walk pre p)) -> k <> Stop c').
    { induction pre as [|[[b' c0] rg] t IH]; intros p Ht i k; simpl; [easy|]. simpl in Hp. unfold comp_of at 1 in Hp; simpl in Hp.
      unfold plan_spring. destruct rg; simpl.
      - specialize (IH ltac:(tauto) p Ht). destruct (walk t p) as [ks q]. simpl in *. intros [X|X]; [injection X as <- <-; discriminate|eauto].
      - destruct (ptr_eqb_spec p (PSpring b' c0)) as [->|N1].
        { exfalso. destruct Ht as [Ht|Ht]; [injection Ht as -> ->; tauto|discriminate Ht]. }
        specialize (IH ltac:(tauto) PNull (or_intror eq_refl)). destruct (walk t PNull) as [ks q]. simpl in *.
        intros [X|X]; [injection X as <- <-; discriminate|eauto]. }
    intros i k. apply G. left. reflexivity. }
  destruct (walk pre (PSpring b c)) as [ka pa] eqn:Ea. simpl in X1, S1.
  destruct X1 as [[R ->]|[R ->]].
  - (* the pointer arrives *)
    rewrite walk_hit.
    pose proof (walk_foreign post b c (PHolder b c) (or_intror eq_refl) Hq) as X2.
    destruct (walk post (PHolder b c)) as [kb pb] eqn:Eb. simpl in X2. cbn [fst snd].
    destruct X2 as [[R2 ->]|[R2 ->]].
    + rewrite walk_app. pose proof (walk_rigid pre R (PHolder b c)) as [E3 _].
      destruct (walk pre (PHolder b c)) as [kc pc]. simpl in E3. subst pc. rewrite walk_back.
      destruct (walk_null post) as [E4 _]. destruct (walk post PNull) as [kd pd]. simpl in *.
      repeat split.
      * intros _. rewrite in_app_iff. right. left. reflexivity.
      * tauto.
      * intros _. rewrite in_app_iff. right. left. reflexivity.
      * tauto.
      * exact E4.
    + pose proof (walk_null (pre ++ (b, c, false) :: post)) as [E5 E6].
      destruct (walk (pre ++ (b, c, false) :: post) PNull) as [k2 p2]. simpl in *.
      repeat split; try tauto.
      intros _. rewrite in_app_iff. right. left. reflexivity.
  - destruct (walk_null ((b, c, false) :: post)) as [E7 E8].
    destruct (walk ((b, c, false) :: post) PNull) as [kb pb]. simpl in E7, E8. subst pb.
    pose proof (walk_null (pre ++ (b, c, false) :: post)) as [E5 E6].
    destruct (walk (pre ++ (b, c, false) :: post) PNull) as [k2 p2]. simpl in *.
    repeat split; try tauto.
    intros _ i k. rewrite in_app_iff. intros [X|X] c'; [exact (S1 _ _ c' X)|].
    destruct (E8 _ _ X) as (c0 & [->| ->]); discriminate.
Qed.
