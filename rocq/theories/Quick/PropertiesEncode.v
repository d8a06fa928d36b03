(** C128: what vvencode hands to ffmpeg. *)

From Coq Require Import List Bool String Ascii Lia.
From Verif.Quick Require Import Model ModelEncode.
Import ListNotations.
Local Open Scope string_scope.

(** A word: not empty, without blanks; a plain word is no pattern either. *)
Definition word (s : string) : Prop := s <> "" /\ forall c, In c (list_ascii_of_string s) -> ~ In c [" "; "009"; "010"]%char.
Definition plain (s : string) : Prop := word s /\ forall c, In c (list_ascii_of_string s) -> ~ In c ["*"; "?"; "["]%char.
Fixpoint joined (l : list string) : string :=
  match l with [] => "" | [w] => w | w :: l => w ++ " " ++ joined l end.

Lemma in_self c s : In c (list_ascii_of_string (String c s)).
Proof. left. reflexivity. Qed.
Lemma in_tail c d s : In c (list_ascii_of_string s) -> In c (list_ascii_of_string (String d s)).
Proof. intros H. right. exact H. Qed.
Lemma existsb_in c l : existsb (Ascii.eqb c) l = true -> In c l.
Proof. intros H. apply existsb_exists in H. destruct H as (d & I & E). apply Ascii.eqb_eq in E. subst d. exact I. Qed.
Lemma append_assoc' a b c : (a ++ b) ++ c = a ++ (b ++ c).
Proof. induction a as [|x a IH]; [reflexivity|]. cbn. rewrite IH. reflexivity. Qed.
Lemma append_nil' a : a ++ "" = a.
Proof. induction a as [|x a IH]; [reflexivity|]. cbn. rewrite IH. reflexivity. Qed.

Lemma split_word w s t : (forall c, In c (list_ascii_of_string s) -> ~ In c [" "; "009"; "010"]%char) -> split w (s ++ t) = split (w ++ s) t.
Proof.
  revert w. induction s as [|c s IH]; intros w H; [rewrite append_nil'; reflexivity|]. cbn [append split].
  destruct (is_blank c) eqn:B; [exfalso; exact (H c (in_self c s) (existsb_in _ _ B))|].
  rewrite IH by (intros d Hd; apply H, in_tail, Hd). rewrite append_assoc'. reflexivity.
Qed.
Lemma split_joined l : Forall word l -> split "" (joined l) = l.
Proof.
  induction 1 as [|w l [N W] F IH]; [reflexivity|]. destruct l as [|v l].
  - cbn [joined]. rewrite <- (append_nil' w) at 1. rewrite split_word by exact W. cbn [append split]. unfold ended. destruct (String.eqb_spec w ""); [contradiction|reflexivity].
  - change (joined (w :: v :: l)) with (w ++ " " ++ joined (v :: l)). rewrite split_word by exact W. change (split ("" ++ w) (" " ++ joined (v :: l))) with (ended w (split "" (joined (v :: l)))). rewrite IH.
    unfold ended. destruct (String.eqb_spec w ""); [contradiction|reflexivity].
Qed.
Lemma plain_glob s : plain s -> any is_glob s = false.
Proof.
  intros [_ H]. revert H. induction s as [|c s IH]; intros H; [reflexivity|]. cbn [any]. rewrite IH by (intros d Hd; apply H, in_tail, Hd).
  destruct (is_glob c) eqn:G; [|reflexivity]. exfalso. exact (H c (in_self c s) (existsb_in _ _ G)).
Qed.
Lemma expand_joined matches l : Forall plain l -> expand matches (joined l) = l.
Proof.
  intros F. unfold expand. rewrite split_joined by (eapply Forall_impl; [|exact F]; intros a [W _]; exact W).
  induction F as [|w l P F IH]; [reflexivity|]. cbn [flat_map]. rewrite (plain_glob w P), IH. reflexivity.
Qed.
Lemma expand_plain matches s : plain s -> expand matches s = [s].
Proof. intros P. apply (expand_joined matches [s]). constructor; [exact P|constructor]. Qed.

(** The mask reaches ffmpeg unchanged, whatever it is. *)
Theorem C128_mask : forall matches ls exiv2 args l, encode matches ls exiv2 args = Some l ->
  nth_error args 0 <> None -> nth_error l 3 = nth_error args 0 /\ nth_error l 2 = Some "-i".
Proof.
  intros matches ls exiv2 args l E N. unfold encode in E. destruct (shows_usage _); [discriminate|]. injection E as <-. destruct args as [|a args]; [contradiction N; reflexivity|]. split; reflexivity.
Qed.
Print Assumptions C128_mask.

(** A plain output is the last argument; in front of it stand exactly the words of
    the third argument, behind a fixed beginning. *)
Theorem C128_output_partial : forall matches ls exiv2 mask out opts rest, shows_usage (S (S (List.length rest))) = false ->
  plain out -> Forall plain opts -> match rest with [] => opts = [] | o :: _ => o = joined opts end ->
  exists fixed, List.length fixed = 16 /\ encode matches ls exiv2 (mask :: out :: rest) = Some (fixed ++ opts ++ [out])%list.
Proof.
  intros matches ls exiv2 mask out opts rest U P F R. eexists. split; [|unfold encode; cbn [List.length]; rewrite U; unfold ffmpeg_args; cbn [nth]; rewrite (expand_plain matches out P);
    assert (E : expand matches (nth 0 rest "") = opts); [destruct rest as [|o rest]; [subst; reflexivity|cbn; subst o; apply expand_joined, F]|rewrite E; reflexivity]]. reflexivity.
Qed.
Print Assumptions C128_output_partial.

(** So is a pattern that no file matches, as a new film. *)
Theorem C128_unmatched : forall matches ls exiv2 mask out, word out -> matches out = [] ->
  exists fixed, List.length fixed = 16 /\ encode matches ls exiv2 [mask; out] = Some (fixed ++ [out])%list.
Proof.
  intros matches ls exiv2 mask out W M.
  assert (E : expand matches out = [out]).
  { unfold expand. pose proof (split_joined [out]) as S. cbn [joined] in S. rewrite S by (constructor; [exact W|constructor]).
    cbn [flat_map]. rewrite M. destruct (any is_glob out); reflexivity. }
  eexists. split; [|unfold encode, ffmpeg_args; cbn [List.length nth]; rewrite E; reflexivity]. reflexivity.
Qed.
Print Assumptions C128_unmatched.

(** Further arguments are not used. *)
Theorem C128_rest : forall matches ls exiv2 mask out opts rest,
  ffmpeg_args matches ls exiv2 (mask :: out :: opts :: rest) = ffmpeg_args matches ls exiv2 [mask; out; opts].
Proof. reflexivity. Qed.
Print Assumptions C128_rest.

(** The comment is that of the first file, if its name is plain. *)
Theorem C128_comment_partial : forall matches ls exiv2 mask f t, ls (expand matches mask) = f :: t -> plain f ->
  comment matches ls exiv2 mask = chomp (exiv2 [f]).
Proof.
  intros matches ls exiv2 mask f t E P. unfold comment, first_file. rewrite E.
  assert (X : forall s, (forall c, In c (list_ascii_of_string s) -> c <> "010"%char) -> chomp s = s).
  { induction s as [|c s IH]; intros H; [reflexivity|]. cbn [chomp]. rewrite IH by (intros d Hd; apply H, in_tail, Hd). destruct s; [|reflexivity].
    destruct (Ascii.eqb_spec c "010"); [|reflexivity]. exfalso. exact (H c (in_self c _) e). }
  rewrite (X f), (expand_plain matches f P); [reflexivity|]. intros c Hc ->. apply (proj2 (proj1 P) _ Hc). cbn. auto.
Qed.
Print Assumptions C128_comment_partial.

(** A name with a blank becomes two outputs, a name that is a pattern becomes the
    files that match it, and no name no output at all. *)
Theorem C128_output_refuted : forall matches ls exiv2 mask,
  (exists fixed, List.length fixed = 16 /\ encode matches ls exiv2 [mask; "my film.mp4"] = Some (fixed ++ ["my"; "film.mp4"])%list) /\
  (exists fixed, List.length fixed = 16 /\ encode matches ls exiv2 [mask; ""] = Some fixed) /\
  (matches "a?.mp4" = ["a1.mp4"; "a2.mp4"] -> exists fixed, List.length fixed = 16 /\ encode matches ls exiv2 [mask; "a?.mp4"] = Some (fixed ++ ["a1.mp4"; "a2.mp4"])%list).
Proof.
  intros matches ls exiv2 mask. split; [|split].
  - eexists. split; [|unfold encode, ffmpeg_args; reflexivity]. reflexivity.
  - eexists. split; [|unfold encode, ffmpeg_args; reflexivity]. reflexivity.
  - intros E. eexists. split; [|unfold encode, ffmpeg_args; cbn [List.length nth]; assert (X : expand matches "a?.mp4" = ["a1.mp4"; "a2.mp4"]) by (cbn; rewrite E; reflexivity); rewrite X; reflexivity]. reflexivity.
Qed.
Print Assumptions C128_output_refuted.

(** The comment of "im 1.png" is asked from two files that are not there. *)
Theorem C128_comment_refuted : forall matches ls exiv2, ls (expand matches "im*.png") = ["im 1.png"; "im 2.png"] ->
  comment matches ls exiv2 "im*.png" = chomp (exiv2 ["im"; "1.png"]).
Proof. intros matches ls exiv2 E. unfold comment, first_file. rewrite E. reflexivity. Qed.
Print Assumptions C128_comment_refuted.

Example C128_ex : let l := ["im0.png"; "im1.png"] in
  encode (fun _ => l) (fun _ => l) (fun l => match l with ["im0.png"] => "step 7" ++ nl | _ => "?" end) ["im*.png"; "film.mp4"; "-vf  scale=640:-2"] =
  Some ["-pattern_type"; "glob"; "-i"; "im*.png"; "-r"; "25"; "-c:v"; "libx264"; "-crf"; "28"; "-pix_fmt"; "yuv420p"; "-bf"; "0";
        "-metadata"; "comment=step 7"; "-vf"; "scale=640:-2"; "film.mp4"].
Proof. reflexivity. Qed.
