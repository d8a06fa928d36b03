(** Proofs about gpquick. *)

From Coq Require Import List ZArith Bool String Ascii Arith Lia.
From Verif.Store Require Model Proofs.
From Verif.Quick Require Import Model Spec.
Import ListNotations.
Local Open Scope string_scope.

Lemma app_assoc_s (a b c : string) : (a ++ b) ++ c = a ++ b ++ c.
Proof. induction a as [|x a IH]; [reflexivity|]. cbn. rewrite IH. reflexivity. Qed.
Lemma app_nil_s (a : string) : a ++ "" = a.
Proof. induction a as [|x a IH]; [reflexivity|]. cbn. rewrite IH. reflexivity. Qed.

(** Texts that are read to their end as a part of one command. *)
Definition closed (c : string) : Prop := forall w s, split false w (c ++ s) = split false (w ++ c) s.

Lemma closed_nil : closed "".
Proof. intros w s. rewrite app_nil_s. reflexivity. Qed.
Lemma closed_app a b : closed a -> closed b -> closed (a ++ b).
Proof. intros A B w s. rewrite app_assoc_s, A, B, app_assoc_s. reflexivity. Qed.
Lemma plain_cons c s : plain (String c s) -> (c <> quote /\ c <> ";"%char /\ c <> "010"%char) /\ plain s.
Proof. intros H. split; [apply H; left; reflexivity|]. intros d I. apply H. right. exact I. Qed.
Lemma closed_plain a : plain a -> closed a.
Proof.
  induction a as [|c a IH]; intros H w s; [rewrite app_nil_s; reflexivity|].
  apply plain_cons in H as [(Q & S & N) H]. cbn [append split]. rewrite (proj2 (Ascii.eqb_neq c quote) Q).
  rewrite (proj2 (Ascii.eqb_neq c ";") S), (proj2 (Ascii.eqb_neq c "010") N). cbn [negb andb orb].
  rewrite (IH H), app_assoc_s. reflexivity.
Qed.

Lemma split_quoted n : no_quote n -> forall w s, split true w (n ++ s) = split true (w ++ n) s.
Proof.
  induction n as [|c n IH]; intros H w s; [rewrite app_nil_s; reflexivity|].
  cbn [append split]. assert (Q : c <> quote) by (intros E; apply H; left; exact E). rewrite (proj2 (Ascii.eqb_neq c quote) Q). cbn [negb andb].
  rewrite IH; [|intros I; apply H; right; exact I]. rewrite app_assoc_s. reflexivity.
Qed.
Lemma closed_quoted n : no_quote n -> closed ("'" ++ n ++ "'").
Proof.
  intros H w s. cbn [append split]. rewrite Ascii.eqb_refl. cbn [negb]. rewrite app_assoc_s, (split_quoted n H). cbn [append split].
  rewrite Ascii.eqb_refl. cbn [negb]. rewrite !app_assoc_s. reflexivity.
Qed.

(** A literal without separators. *)
Fixpoint plainb (s : string) : bool :=
  match s with "" => true | String c s => negb (Ascii.eqb c quote || Ascii.eqb c ";" || Ascii.eqb c "010") && plainb s end.
Lemma plainb_plain s : plainb s = true -> plain s.
Proof.
  induction s as [|c s IH]; intros H d I; [destruct I|]. cbn in H. apply andb_prop in H as [H1 H2]. destruct I as [<-|I]; [|exact (IH H2 d I)].
  apply negb_true_iff in H1. apply orb_false_iff in H1 as [H1 N]. apply orb_false_iff in H1 as [Q S].
  apply Ascii.eqb_neq in Q, S, N. tauto.
Qed.
Lemma closed_lit s : plainb s = true -> closed s.
Proof. intros H. apply closed_plain, plainb_plain, H. Qed.

Definition ended (c : string) : string := c ++ ";" ++ nl.
Definition joined (cs : list string) : string := fold_right (fun c s => ended c ++ s) "" cs.
Definition nonempty (c : string) : bool := negb (String.eqb c "").

Lemma commands_joined cs : Forall closed cs -> Forall (fun c => c <> "") cs -> commands (joined cs) = Some cs.
Proof.
  intros C N. unfold commands. assert (S : exists l, split false "" (joined cs) = Some l /\ filter nonempty l = cs).
  { induction C as [|c cs C _ IH]; [exists [""]; split; reflexivity|]. apply Forall_cons_iff in N as [Nc N]. destruct (IH N) as (l & E & Fl).
    exists (c :: "" :: l). cbn [joined fold_right]. fold (joined cs). unfold ended. rewrite !app_assoc_s, C. cbn [append nl split].
    change (Ascii.eqb ";" quote) with false. change (Ascii.eqb ";" ";") with true. cbn [negb andb orb].
    change (Ascii.eqb "010" quote) with false. change (Ascii.eqb "010" ";") with false. change (Ascii.eqb "010" "010") with true. cbn [negb andb orb].
    rewrite E. split; [reflexivity|]. cbn [filter]. unfold nonempty at 1. rewrite (proj2 (String.eqb_neq c "") Nc). cbn [negb].
    change (nonempty "") with false. cbv iota. rewrite Fl. reflexivity. }
  destruct S as (l & -> & Fl). cbn [option_map]. f_equal. exact Fl.
Qed.

Section Gpquick.
Context {F : Type} (showf : F -> string) (showi : Z -> string).

Definition range_cmd (axis : string) (r : option (F * F)) : list string :=
  match r with Some (a, b) => ["set " ++ axis ++ "range [" ++ showf a ++ ":" ++ showf b ++ "]"] | None => [] end.
Definition before (o : options F) : list string :=
  ["set terminal pngcairo enhanced size " ++ showi (fst (size o)) ++ ", " ++ showi (snd (size o))]
  ++ match output o with Some n => ["set output " ++ "'" ++ n ++ "'"] | None => [] end
  ++ ["unset key"]
  ++ (if square o then ["set size ratio -1"] else [])
  ++ range_cmd "x" (xrange o) ++ range_cmd "y" (yrange o)
  ++ (if has_x (grid_ o) then ["set grid ytics"] else [])
  ++ (if has_y (grid_ o) then ["set grid xtics"] else []).
Definition plot_cmd (o : options F) : string :=
  "plot '-' using " ++ columns o ++ " with linespoints lt " ++ style_lt o ++ " pt " ++ style_pt o ++ " lc rgb 'black'".

Lemma joined_app a b : joined (a ++ b) = joined a ++ joined b.
Proof. induction a as [|c a IH]; [reflexivity|]. cbn [app joined fold_right]. fold (joined (a ++ b)) (joined a). rewrite IH, app_assoc_s. reflexivity. Qed.
Lemma concat_fold l : String.concat "" l = fold_right append "" l.
Proof.
  induction l as [|a l IH]; [reflexivity|]. cbn [fold_right]. rewrite <- IH. cbn [String.concat]. destruct l; [cbn; rewrite app_nil_s|]; reflexivity.
Qed.
Lemma concat_app a b : String.concat "" (a ++ b) = String.concat "" a ++ String.concat "" b.
Proof. rewrite !concat_fold. induction a as [|c a IH]; [reflexivity|]. cbn [app fold_right]. rewrite IH, app_assoc_s. reflexivity. Qed.

Lemma script_joined o : script showf showi o = joined (before o ++ [plot_cmd o; "exit"]).
Proof.
  unfold script, script_lines, before. rewrite !concat_app, !joined_app, !app_assoc_s.
  assert (P1 : String.concat "" ["set terminal pngcairo enhanced"; " size " ++ showi (fst (size o)) ++ ", " ++ showi (snd (size o)) ++ ";" ++ nl] =
    joined ["set terminal pngcairo enhanced size " ++ showi (fst (size o)) ++ ", " ++ showi (snd (size o))]).
  { rewrite concat_fold. cbn [fold_right joined]. unfold ended. rewrite !app_nil_s, !app_assoc_s. reflexivity. }
  assert (P2 : String.concat "" (match output o with Some n => ["set output '" ++ n ++ "';" ++ nl] | None => [] end) =
    joined (match output o with Some n => ["set output " ++ "'" ++ n ++ "'"] | None => [] end)).
  { destruct (output o); [|reflexivity]. rewrite concat_fold. cbn [fold_right joined]. unfold ended. rewrite !app_nil_s, !app_assoc_s. reflexivity. }
  assert (P3 : String.concat "" (if square o then ["set size ratio -1;" ++ nl] else []) = joined (if square o then ["set size ratio -1"] else [])).
  { destruct (square o); reflexivity. }
  assert (P4 : forall axis r, String.concat "" (range_line showf axis r) = joined (range_cmd axis r)).
  { intros axis r. unfold range_line, range_cmd. destruct r as [[a b]|]; [|reflexivity]. rewrite concat_fold. cbn [fold_right joined]. unfold ended. rewrite !app_nil_s, !app_assoc_s. reflexivity. }
  assert (P5 : String.concat "" (if has_x (grid_ o) then ["set grid ytics;" ++ nl] else []) = joined (if has_x (grid_ o) then ["set grid ytics"] else [])).
  { destruct (has_x _); reflexivity. }
  assert (P6 : String.concat "" (if has_y (grid_ o) then ["set grid xtics;" ++ nl] else []) = joined (if has_y (grid_ o) then ["set grid xtics"] else [])).
  { destruct (has_y _); reflexivity. }
  assert (P7 : String.concat "" ["plot '-'"; " using " ++ columns o; " with linespoints lt " ++ style_lt o ++ " pt " ++ style_pt o; " lc rgb 'black';" ++ nl; "exit;" ++ nl] =
    joined [plot_cmd o; "exit"]).
  { rewrite concat_fold. cbn [fold_right joined]. unfold ended, plot_cmd. rewrite !app_nil_s, !app_assoc_s. reflexivity. }
  rewrite P1, P2, P3, !P4, P5, P6, P7. reflexivity.
Qed.

Lemma commands_script o : (forall a, plain (showf a)) -> (forall z, plain (showi z)) -> plain (columns o) ->
  (forall n, output o = Some n -> no_quote n) -> commands (script showf showi o) = Some (before o ++ [plot_cmd o; "exit"])%list.
Proof.
  intros PF PI PC PO. rewrite script_joined. apply commands_joined.
  - unfold before. rewrite !Forall_app. repeat split.
    + constructor; [|constructor]. repeat apply closed_app; first [apply closed_plain, PI|apply closed_lit; reflexivity].
    + destruct (output o) as [n|]; constructor; [|constructor]. apply closed_app; [apply closed_lit; reflexivity|]. apply closed_quoted, PO. reflexivity.
    + constructor; [apply closed_lit; reflexivity|constructor].
    + destruct (square o); repeat constructor. apply closed_lit. reflexivity.
    + destruct (xrange o) as [[a b]|]; constructor; [|constructor]. repeat apply closed_app; first [apply closed_plain, PF|apply closed_lit; reflexivity].
    + destruct (yrange o) as [[a b]|]; constructor; [|constructor]. repeat apply closed_app; first [apply closed_plain, PF|apply closed_lit; reflexivity].
    + destruct (has_x _); repeat constructor. apply closed_lit. reflexivity.
    + destruct (has_y _); repeat constructor. apply closed_lit. reflexivity.
    + constructor; [|constructor; [apply closed_lit; reflexivity|constructor]]. unfold plot_cmd.
      change ("plot '-' using ") with ("plot " ++ ("'" ++ "-" ++ "'") ++ " using "). change (" lc rgb 'black'") with (" lc rgb " ++ "'" ++ "black" ++ "'").
      assert (Q1 : no_quote "-") by (intros [H|[]]; discriminate). assert (Q2 : no_quote "black") by (intros H; cbn in H; intuition discriminate).
      repeat first [apply (closed_quoted _ Q1)|apply (closed_quoted _ Q2)|apply closed_plain, PC|apply closed_lit; reflexivity|apply closed_app].
      * unfold style_lt. destruct (lines o); [apply closed_lit; reflexivity|]. destruct (points o); apply closed_lit; reflexivity.
      * unfold style_pt. destruct (points o); apply closed_lit; reflexivity.
  - unfold before. rewrite !Forall_app. repeat split; try (repeat constructor; discriminate).
    + destruct (output o); repeat constructor; discriminate.
    + destruct (square o); repeat constructor; discriminate.
    + destruct (xrange o) as [[a b]|]; repeat constructor; discriminate.
    + destruct (yrange o) as [[a b]|]; repeat constructor; discriminate.
    + destruct (has_x _); repeat constructor; discriminate.
    + destruct (has_y _); repeat constructor; discriminate.
Qed.

Lemma unquote_lit n : no_quote n -> unquote ("'" ++ n ++ "'") = Some n.
Proof.
  intros H. cbn [append unquote]. induction n as [|c n IH]; [reflexivity|].
  assert (Q : c <> quote) by (intros E; apply H; left; exact E). assert (H' : no_quote n) by (intros I; apply H; right; exact I).
  specialize (IH H'). cbn [append unquote_from]. rewrite IH.
  destruct c as [[|] [|] [|] [|] [|] [|] [|] [|]]; try reflexivity. destruct Q. reflexivity.
Qed.
End Gpquick.
