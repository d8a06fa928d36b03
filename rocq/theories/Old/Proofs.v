(** Proofs about the files of the old format. *)

From Coq Require Import ZArith Bool List Arith Ascii String Lia.
From Verif Require Import Old.Model Old.Spec.
Import ListNotations.
Local Open Scope Z_scope.

(** * Bytes at a place *)

Lemma at_app file pos a b : at_pos file pos (a ++ b) -> at_pos file pos a /\ at_pos file (pos + List.length a) b.
Proof.
  intros (u & v & E & L). split.
  - exists u, (b ++ v). rewrite app_assoc. split; [now rewrite <- (app_assoc a b v) in E; rewrite E, <- app_assoc | assumption].
  - exists (u ++ a), v. rewrite app_length, L. split; [rewrite E, <- !app_assoc; reflexivity | reflexivity].
Qed.
Lemma there_at file pos b : at_pos file pos b -> there file pos (List.length b) = b.
Proof.
  intros (u & v & -> & <-). unfold there. rewrite skipn_app, skipn_all, Nat.sub_diag. cbn [app skipn].
  rewrite firstn_app, firstn_all, Nat.sub_diag, firstn_O. apply app_nil_r.
Qed.
Lemma over_all old new : (List.length old <= List.length new)%nat -> over old new = new.
Proof. intros H. unfold over. rewrite skipn_all2 by lia. apply app_nil_r. Qed.

Lemma unsigned_put n : forall x, 0 <= x < 256 ^ Z.of_nat n -> unsigned (put_number n x) = x.
Proof.
  induction n as [|n IH]; intros x H.
  - cbn in *. lia.
  - cbn [put_number unsigned]. rewrite Nat2Z.inj_succ, Z.pow_succ_r in H by lia.
    rewrite IH; [pose proof (Z.div_mod x 256); lia|].
    split; [apply Z.div_pos; lia | apply Z.div_lt_upper_bound; lia].
Qed.
Lemma put_length n : forall x, List.length (put_number n x) = n.
Proof. induction n; intros; cbn [put_number List.length]; auto. Qed.
Lemma int64_put x : 0 <= x < 2 ^ 63 -> int64 (put_number 8 x) = x.
Proof.
  intros H. unfold int64. rewrite unsigned_put by (change (256 ^ Z.of_nat 8) with (2 ^ 64); lia).
  destruct (Z.ltb_spec x (2 ^ 63)); lia.
Qed.
Lemma int32_put x : 0 <= x < 2 ^ 31 -> int32 (put_number 4 x) = x.
Proof.
  intros H. unfold int32. rewrite unsigned_put by (change (256 ^ Z.of_nat 4) with (2 ^ 32); lia).
  destruct (Z.ltb_spec x (2 ^ 31)); lia.
Qed.

Section Reading.
Variable file : bytes.
Variable stack : Z.
Variable accepts : bytes -> bool.
Variable to_float : bytes -> bytes.
Variable body0 : body.

(** * Steps of a reader *)

Lemma bind_step {A B} (m : reader A) (k : A -> reader B) pos a pos' :
  m pos = Done (a, pos') -> bind m k pos = k a pos'.
Proof. intros E. unfold bind. now rewrite E. Qed.
Lemma into_at old n pos b : at_pos file pos b -> List.length b = n -> List.length old = n -> into file old n pos = Done (b, (pos + n)%nat).
Proof. intros H <- L. unfold into. rewrite there_at by assumption. rewrite over_all by lia. reflexivity. Qed.
Lemma fresh_at n pos b : at_pos file pos b -> List.length b = n -> fresh file n pos = Done (b, (pos + n)%nat).
Proof. intros H <-. unfold fresh. rewrite there_at by assumption. now rewrite Nat.ltb_irrefl. Qed.

Lemma c_str_app s r : ~ In 0 s -> c_str (s ++ 0 :: r) = s.
Proof.
  induction s as [|x s IH]; intros H; [reflexivity|]. cbn [app c_str].
  destruct (Z.eqb_spec x 0) as [->|_]; [elim H; now left|]. now rewrite IH by (intros I; apply H; now right).
Qed.
Lemma c_str_same s : ~ In 0 s -> c_str s = s.
Proof.
  induction s as [|x s IH]; intros H; [reflexivity|]. cbn [c_str].
  destruct (Z.eqb_spec x 0) as [->|_]; [elim H; now left|]. now rewrite IH by (intros I; apply H; now right).
Qed.
Lemma has_nul_app s r : has_nul (s ++ 0 :: r) = true.
Proof. induction s as [|x s IH]; cbn [app has_nul]; [reflexivity|]. now rewrite IH, orb_true_r. Qed.

Lemma script_at pos s : at_pos file pos (put_text s) -> good_text stack accepts s ->
  script file stack accepts pos = Done (s, (pos + List.length (put_text s))%nat).
Proof.
  intros H (N & St & Sz & A). unfold put_text in *. apply at_app in H as [H1 H2].
  unfold script. rewrite (bind_step _ _ _ _ _ (fresh_at 4 pos _ H1 (put_length _ _))).
  rewrite int32_put by lia. rewrite put_length in *.
  destruct (Z.ltb_spec (Z.of_nat (List.length s)) 0); [lia|]. destruct (Z.ltb_spec stack (Z.of_nat (List.length s))); [lia|].
  cbn [orb]. rewrite Nat2Z.id, there_at by assumption. rewrite Z.ltb_irrefl. cbn [andb].
  rewrite c_str_same, A by assumption. rewrite app_length, put_length, Nat.add_assoc. reflexivity.
Qed.

Lemma agree_refl a : agree a a = true.
Proof. induction a; cbn [agree]; [reflexivity|]. now rewrite Z.eqb_refl. Qed.
Lemma version_at pos : at_pos file pos (chars "v: 1.3  ") -> version file pos = Done (tt, (pos + 8)%nat).
Proof. intros H. unfold version. change 8%nat with (List.length (chars "v: 1.3  ")). rewrite there_at by assumption. rewrite agree_refl, Nat.ltb_irrefl. reflexivity. Qed.
Lemma name_at pos s : at_pos file pos (s ++ repeat 0 (64 - List.length s)) -> ~ In 0 s -> (List.length s < 64)%nat ->
  name file pos = Done (s, (pos + 64)%nat).
Proof.
  intros H N L. assert (E : List.length (s ++ repeat 0 (64 - List.length s)) = 64%nat) by (rewrite app_length, repeat_length; lia).
  unfold name. replace (there file pos 64) with (s ++ repeat 0 (64 - List.length s)) by (symmetry; rewrite <- E at 1; apply there_at; exact H). rewrite E.
  destruct (64 - List.length s)%nat as [|k] eqn:K; [lia|]. cbn [repeat]. now rewrite has_nul_app, c_str_app.
Qed.

Ltac sizes := repeat match goal with
  | H : Forall _ (_ :: _) |- _ => inversion H; clear H; subst
  | H : Forall _ [] |- _ => clear H
  | H : _ /\ _ |- _ => destruct H
  end; unfold of_size in *.
Ltac next := erewrite bind_step; [| first
  [ apply into_at; [eassumption | assumption | assumption]
  | apply fresh_at; [eassumption | first [assumption | apply put_length]]
  | apply script_at; [eassumption | assumption]
  | apply version_at; eassumption
  | apply name_at; [eassumption | assumption | assumption] ]]; cbn beta.
(** Where the next bytes are. *)
Ltac split_at := repeat match goal with
  | H : at_pos file ?p (?a ++ ?b) |- _ =>
    lazymatch b with repeat _ _ => fail | _ => idtac end;
    let H1 := fresh "P" in apply at_app in H as [H1 H]
  end.
Ltac numbers := repeat match goal with
  | L : List.length ?b = ?n, H : context [(_ + List.length ?b)%nat] |- _ => rewrite L in H
  end.

Lemma header_at pos h0 h : at_pos file pos (put_header h) -> good_head stack accepts h -> sized_head h0 ->
  exists pos', header file stack accepts h0 pos = Done (h, pos').
Proof.
  intros H (Z1 & N & L & T) Z0. unfold put_header, sized_head in *. sizes.
  assert (E : List.length (caption h ++ repeat 0 (64 - List.length (caption h))) = 64%nat) by (rewrite app_length, repeat_length; lia).
  set (cap := caption h ++ repeat 0 (64 - List.length (caption h))) in *.
  split_at. numbers. change (List.length (chars "v: 1.3  ")) with 8%nat in *.
  unfold header. subst cap. do 15 next. eexists. destruct h; reflexivity.
Qed.

Lemma body_data_at pos b : at_pos file pos (put_body b) -> good_body stack accepts b -> sized_body body0 ->
  exists pos', body_data file stack accepts body0 pos = Done (new_body body0 b, pos').
Proof.
  intros H (Z1 & T) Z0. unfold put_body, sized_body in *. sizes. split_at. numbers.
  unfold body_data. do 12 next. eexists. reflexivity.
Qed.

Lemma objects_at l : forall pos obj, at_pos file pos (List.concat l) -> Forall (of_size 24) l -> List.length obj = 24%nat ->
  exists pos', objects file (List.length l) obj pos = Done (l, pos').
Proof.
  induction l as [|o l IH]; intros pos obj H F L; [eexists; reflexivity|].
  cbn [List.concat List.length objects] in *. inversion F as [|? ? O F']; subst. unfold of_size in O.
  apply at_app in H as [H1 H2]. rewrite O in H2. next.
  destruct (IH _ o H2 F' O) as [pos' E]. rewrite (bind_step _ _ _ _ _ E). eexists. reflexivity.
Qed.
Lemma load_list_at pos before l : at_pos file pos (put_number 8 (Z.of_nat (List.length l)) ++ List.concat l) ->
  Forall (of_size 24) l -> Z.of_nat (List.length l) < 2 ^ 63 ->
  exists pos', load_list file before pos = Done (before ++ l, pos').
Proof.
  intros H F B. apply at_app in H as [H1 H2]. rewrite put_length in H2. unfold load_list. next.
  rewrite int64_put, Nat2Z.id by lia. destruct (objects_at l _ (zeros 24) H2 F eq_refl) as [pos' E].
  rewrite (bind_step _ _ _ _ _ E). eexists. reflexivity.
Qed.

Definition with_number (n : Z) (b : body) : body :=
  mkBody (holder b) (dpos b) (speed_x b) (speed_y b) (speed_o b) (speed_slae b) (speed_slae_prev b)
    (kspring b) (density b) (force_hydro b) (fdt_dead b) (friction_prev b) (boundary b) (heating b) n (alist b).

Lemma last_def {A} (l : list A) d e : l <> [] -> last l d = last l e.
Proof. induction l as [|a [|b l] IH]; intros H; [contradiction | reflexivity|]. apply IH. discriminate. Qed.
Lemma segments_at l : forall pos a b, at_pos file pos (List.concat (map put_segment l)) -> Forall good_segment l ->
  List.length (corner a) = 16%nat -> List.length (ag a) = 8%nat -> List.length (gsum a) = 8%nat ->
  exists pos', segments file to_float (List.length l) a b pos =
    Done (mkBody (holder b) (dpos b) (speed_x b) (speed_y b) (speed_o b) (speed_slae b) (speed_slae_prev b)
      (kspring b) (density b) (force_hydro b) (fdt_dead b) (friction_prev b)
      (last_special l (boundary b)) (last (map (fun s => heat_of (s_hc s)) l) (heating b))
      (special b) (alist b ++ segments_say to_float (slip a) l), pos').
Proof.
  induction l as [|s l IH]; intros pos a b H F La Lb Lc.
  - eexists. cbn. rewrite app_nil_r. destruct b; reflexivity.
  - cbn [map List.concat List.length segments] in *. inversion F as [|? ? G F']; subst.
    destruct G as (S1 & S2 & Cb & Ch). sizes. unfold put_segment in H. rewrite <- !app_assoc in H. split_at. rewrite !put_length in *. numbers.
    do 6 next.
    match goal with |- exists _, segments _ _ _ ?a' ?b' ?p = _ => destruct (IH p a' b') as [pos' E]; [assumption .. |] end.
    rewrite E. exists pos'. clear IH E. cbn [boundary heating special alist holder dpos speed_x speed_y speed_o speed_slae speed_slae_prev kspring density force_hydro fdt_dead friction_prev slip].
    rewrite <- app_assoc. cbn [app segments_say].
    assert (Hh : hc_of (int64 (put_number 8 (char (s_hc s)))) (heating b) = heat_of (s_hc s)).
    { repeat (destruct Ch as [<-|Ch]; [reflexivity|]). destruct Ch. }
    rewrite Hh.
    assert (Hl : last (map (fun s => heat_of (s_hc s)) l) (heat_of (s_hc s)) = last (heat_of (s_hc s) :: map (fun s => heat_of (s_hc s)) l) (heating b)).
    { destruct l as [|s' l']; [reflexivity|]. cbn [map]. change (last (?x :: ?y :: ?z) ?d) with (last (y :: z) d). apply last_def. discriminate. }
    rewrite Hl. cbn [last_special fold_left].
    repeat (destruct Cb as [<-|Cb]; [reflexivity|]). destruct Cb.
Qed.
End Reading.
