(** A written file is laid out as it should be; damaged files; lists. *)

From Coq Require Import ZArith Bool List Arith Ascii String Lia.
From Verif Require Import Old.Model Old.Spec Old.Proofs Old.ProofsLoad.
Import ListNotations.
Local Open Scope Z_scope.

Lemma table_length cs : forall off, List.length (table off cs) = (16 * List.length cs)%nat.
Proof.
  induction cs as [|[c|] cs IH]; intros off; cbn [table List.length]; [reflexivity| |]; rewrite !app_length, put_length, IH.
  - rewrite title_length. lia.
  - rewrite repeat_length. lia.
Qed.
Lemma at_prefix u b v : at_pos (u ++ b ++ v) (List.length u) b.
Proof. exists u, v. now split. Qed.
Lemma at_equal file pos b u v : file = u ++ b ++ v -> List.length u = pos -> at_pos file pos b.
Proof. intros E L. exists u, v. now split. Qed.


Lemma written_at cs : forall off u w,
  0 < off -> off + Z.of_nat (List.length (List.concat (map put_chapter (present cs)))) < 2 ^ 63 ->
  Z.of_nat (List.length u + List.length (table off cs) + List.length w) = off ->
  forall j c, nth_error cs j = Some c ->
    let file := u ++ table off cs ++ w ++ List.concat (map put_chapter (present cs)) in
    match c with
    | None => at_pos file (List.length u + 16 * j) (put_number 8 0)
    | Some c => exists off, 0 < off < 2 ^ 63 /\ at_pos file (List.length u + 16 * j) (put_number 8 off ++ title c) /\
                            at_pos file (Z.to_nat off) (put_chapter c)
    end.
Proof.
  induction cs as [|d cs IH]; intros off u w P B L j c N; [destruct j; discriminate|].
  destruct d as [d|].
  - cbn [table present map List.concat] in *. rewrite !app_length, Nat2Z.inj_add in B. rewrite !app_length, put_length, title_length in L.
    set (off' := off + Z.of_nat (List.length (put_chapter d))) in *.
    destruct j as [|j].
    + cbn [nth_error] in N. inversion N; subst c; clear N. cbv zeta. exists off. split; [lia|]. split.
      * apply at_equal with (u := u) (v := table off' cs ++ w ++ put_chapter d ++ List.concat (map put_chapter (present cs))); [| lia].
        now rewrite <- !app_assoc.
      * apply at_equal with (u := u ++ put_number 8 off ++ title d ++ table off' cs ++ w) (v := List.concat (map put_chapter (present cs))).
        -- now rewrite <- !app_assoc.
        -- rewrite !app_length, put_length, title_length. lia.
    + cbn [nth_error] in N. cbv zeta.
      specialize (IH off' (u ++ put_number 8 off ++ title d) (w ++ put_chapter d)).
      rewrite !app_length, put_length, title_length in IH.
      assert (E : u ++ (put_number 8 off ++ title d ++ table off' cs) ++ w ++ put_chapter d ++ List.concat (map put_chapter (present cs)) =
                  (u ++ put_number 8 off ++ title d) ++ table off' cs ++ (w ++ put_chapter d) ++ List.concat (map put_chapter (present cs)))
        by now rewrite <- !app_assoc.
      rewrite E. replace (List.length u + 16 * S j)%nat with (List.length u + (8 + 8) + 16 * j)%nat by lia.
      apply IH; [lia | lia | lia | exact N].
  - cbn [table present] in *. rewrite !app_length, put_length, repeat_length in L.
    destruct j as [|j].
    + cbn [nth_error] in N. inversion N; subst c; clear N. cbv zeta.
      apply at_equal with (u := u) (v := repeat 32 8 ++ table off cs ++ w ++ List.concat (map put_chapter (present cs))); [| lia].
      now rewrite <- !app_assoc.
    + cbn [nth_error] in N. cbv zeta.
      specialize (IH off (u ++ put_number 8 0 ++ repeat 32 8) w).
      rewrite !app_length, put_length, repeat_length in IH.
      assert (E : u ++ (put_number 8 0 ++ repeat 32 8 ++ table off cs) ++ w ++ List.concat (map put_chapter (present cs)) =
                  (u ++ put_number 8 0 ++ repeat 32 8) ++ table off cs ++ w ++ List.concat (map put_chapter (present cs)))
        by now rewrite <- !app_assoc.
      rewrite E. replace (List.length u + 16 * S j)%nat with (List.length u + (8 + 8) + 16 * j)%nat by lia.
      apply IH; [lia | lia | lia | exact N].
Qed.

Lemma write_laid_out cs : List.length cs = 64%nat -> 1024 + Z.of_nat (List.length (List.concat (map put_chapter (present cs)))) < 2 ^ 63 ->
  laid_out (write_v13 cs) cs.
Proof.
  intros L B. split; [exact L|]. intros i c N.
  pose proof (written_at cs 1024 [] [] ltac:(lia) B) as W. cbn [app List.length] in W.
  rewrite table_length, L in W. specialize (W eq_refl i c N). exact W.
Qed.

(** * A list that is cut off *)

Lemma there_end file pos n : (List.length file <= pos)%nat -> there file pos n = [].
Proof. intros H. unfold there. rewrite skipn_all2 by exact H. apply firstn_nil. Qed.
Lemma over_nil old : over old [] = old.
Proof. reflexivity. Qed.
Lemma objects_end file n : forall pos obj, (List.length file <= pos)%nat -> objects file n obj pos = Done (repeat obj n, pos).
Proof.
  induction n as [|n IH]; intros pos obj H; [reflexivity|]. cbn [objects repeat].
  unfold bind at 1, into. rewrite there_end by exact H. rewrite over_nil. cbn [List.length]. rewrite Nat.add_0_r.
  unfold bind. rewrite IH by exact H. reflexivity.
Qed.
Lemma objects_cut file l : forall k pos obj, at_pos file pos (List.concat l) -> Forall (of_size 24) l -> List.length obj = 24%nat ->
  List.length file = (pos + List.length (List.concat l))%nat ->
  exists pos', objects file (List.length l + k) obj pos = Done (l ++ repeat (last l obj) k, pos').
Proof.
  induction l as [|o l IH]; intros k pos obj H F L E.
  - cbn [List.length Nat.add app last]. exists pos. apply objects_end. cbn in E. lia.
  - cbn [List.concat List.length Nat.add objects] in *. inversion F as [|? ? O F']; subst. unfold of_size in O.
    apply at_app in H as [H1 H2]. rewrite app_length in E. rewrite O in H2, E.
    rewrite (bind_step _ _ _ _ _ (into_at file obj 24 pos o H1 O L)).
    destruct (IH k _ o H2 F' O) as [pos' Ei]; [lia|]. rewrite (bind_step _ _ _ _ _ Ei). exists pos'.
    unfold ret. cbn [app]. do 4 f_equal. destruct l as [|p l]; [reflexivity|]. change (last (o :: p :: l) obj) with (last (p :: l) obj). f_equal. apply last_def. discriminate.
Qed.

(** * Lists *)

Lemma records_at l : forall n rest, Forall (of_size 24) l -> (List.length rest < 24)%nat -> (List.length l <= n)%nat ->
  records n (List.concat l ++ rest) = l.
Proof.
  induction l as [|o l IH]; intros n rest F R N.
  - cbn [List.concat app]. destruct n; [reflexivity|]. cbn [records]. destruct (Nat.ltb_spec (List.length rest) 24); [reflexivity | lia].
  - inversion F as [|? ? O F']; subst. unfold of_size in O. destruct n as [|n]; [cbn in N; lia|]. cbn [records List.concat].
    rewrite <- app_assoc, app_length, O. destruct (Nat.ltb_spec (24 + List.length (List.concat l ++ rest)) 24); [lia|].
    rewrite <- O, firstn_app, firstn_all, Nat.sub_diag, firstn_O, app_nil_r, skipn_app, skipn_all, Nat.sub_diag. cbn [app skipn].
    f_equal. apply IH; [assumption .. |]. cbn [List.length] in N. lia.
Qed.
Lemma concat_enough l : Forall (of_size 24) l -> (List.length l <= List.length (List.concat l))%nat.
Proof. induction 1 as [|o l O F IH]; [reflexivity|]. cbn [List.concat List.length]. rewrite app_length. unfold of_size in O. lia. Qed.

Lemma triples_all {A} (l : list (A * A * A)) rest : triples rest = [] -> triples (all_numbers (flat3 l) ++ rest) = l.
Proof.
  intros H. unfold all_numbers, flat3. induction l as [|[[a b] c] l IH]; [exact H|]. cbn [flat_map map app fst snd triples]. now rewrite IH.
Qed.
Lemma pairs_all {A} (l : list (A * A)) rest : pairs rest = [] -> pairs (all_numbers (flat2 l) ++ rest) = l.
Proof.
  intros H. unfold all_numbers, flat2. induction l as [|[a b] l IH]; [exact H|]. cbn [flat_map map app fst snd pairs]. now rewrite IH.
Qed.
