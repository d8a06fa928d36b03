(** C131: what vvxtract -i prints is a script with the settings. *)

From Coq Require Import ZArith Bool List String Ascii Reals Lia Lra.
From Flocq Require Import IEEE754.BinarySingleNaN.
From Verif.Base Require Import Num.
From Verif.Lua Require Import ModelMembers.
From Verif.Xtract Require Model.
From Verif.Print Require Import Model Spec Proofs ModelInfo SpecInfo ProofsInfo.
Import ListNotations.
Local Open Scope string_scope.

(** The name in a line is that of the member that a script sets by it. *)
Theorem C131_names n f k : In (n, f, k) space_rows -> exists kd, In (mkRow n kd true f) space_members.
Proof. intros H. repeat (destruct H as [E|H]; [injection E as <- <- <-; eexists; cbn; tauto|]). contradiction. Qed.
Theorem C131_body_names n f k : In (n, f, k) body_rows -> exists kd, In (mkRow n kd true f) tbody_members.
Proof. intros H. repeat (destruct H as [E|H]; [injection E as <- <- <-; eexists; cbn; tauto|]). contradiction. Qed.

(** Every setting has its line; for slip and root see C91. *)
Theorem C131_complete_partial r : In r space_members -> rset r = true -> rname r <> "caption" ->
  exists k, In (rname r, rfield r, k) space_rows.
Proof.
  intros H. repeat (destruct H as [<-|H]; [cbn [rset rname rfield]; intros S N; try discriminate S; try congruence; eexists; cbn; tauto|]).
  contradiction.
Qed.
Theorem C131_body_complete r : In r tbody_members -> rname r <> "slip" -> rname r <> "root" ->
  exists k, In (rname r, rfield r, k) body_rows.
Proof.
  intros H. repeat (destruct H as [<-|H]; [cbn; intros N1 N2; try congruence; eexists; tauto|]). contradiction.
Qed.

(** A line assigns to the name what the member holds: numbers to six digits,
    times and whole numbers exactly, and texts that need no escapes. *)
Theorem C131_space_partial s n f k kd : In (n, f, k) space_rows -> In (mkRow n kd true f) space_members ->
  of_kind kd (s f) -> plain_mem (s f) ->
  exists line l, In line (info_space s) /\ statement "S" n line = Some l /\ stands (s f) l.
Proof.
  intros H _ K P. exists (info_line "S" s (n, f, k)).
  destruct (literal_shown k (s f)) as (l & L & St); [destruct kd, (s f); try contradiction; exact I|exact P|].
  exists l. split; [unfold info_space; apply in_map; exact H|]. split; [|exact St].
  unfold info_line. rewrite statement_line. exact L.
Qed.
Theorem C131_body_partial label b n f k kd : In (n, f, k) body_rows -> In (mkRow n kd true f) tbody_members ->
  of_kind kd (b f) -> plain_mem (b f) ->
  exists line l, In line (info_body label b) /\ statement label n line = Some l /\ stands (b f) l.
Proof.
  intros H _ K P. exists (info_line label b (n, f, k)).
  destruct (literal_shown k (b f)) as (l & L & St); [destruct kd, (b f); try contradiction; exact I|exact P|].
  exists l. split; [unfold info_body; apply in_map; exact H|]. split; [|exact St].
  unfold info_line. rewrite statement_line. exact L.
Qed.

(** The caption is not printed. *)
Theorem C131_caption_refuted (s : object) m : info_space (put s "caption" m) = info_space s.
Proof. reflexivity. Qed.

(** A text with an apostrophe is no Lua text any more. *)
Theorem C131_text_refuted : exists m, of_kind KExpr m /\
  forall s : object, s "inf_vx" = m -> exists line, In line (info_space s) /\ drop "S.inf_vx = " line <> None /\ statement "S" "inf_vx" line = None.
Proof.
  exists (MExpr "t'2"). split; [exact I|]. intros s E. exists (info_line "S" s ("inf_vx", "inf_vx", Plain)).
  split; [unfold info_space; apply in_map; cbn; tauto|]. unfold info_line. rewrite E. split; [discriminate|reflexivity].
Qed.

(** The line for a body with both kinds of walls assigns nil, which is refused. *)
Theorem C131_mixed_refuted : exists b, Xtract.Model.slip_text b = Some "nil -- mixed" /\
  forall str2num accepts scan (o : object) l, o "alist" = MSlips l ->
  exists e, newindex str2num accepts scan tbody_members o "slip" LNil = (o, LuaError e).
Proof.
  exists (Xtract.Model.mkBody "b" [0%Z; 1%Z] 0 None). split; [reflexivity|].
  intros str2num accepts scan o l E. cbn. rewrite E. eexists. reflexivity.
Qed.

(** Numbers of more than six digits change. *)
Theorem C131_digits_refuted : exists x y : f64, x <> y /\ forall s : object, info_space (put s "re" (MDbl x)) = info_space (put s "re" (MDbl y)).
Proof.
  exists (f64_ofZ 1234567), (f64_ofZ 1234568). split; [intros E; apply (f_equal of_double) in E; vm_compute in E; discriminate E|]. intros s.
  assert (E : num (f64_ofZ 1234567) = num (f64_ofZ 1234568)) by (vm_compute; reflexivity).
  unfold info_space, space_rows. cbn [map info_line put String.eqb Ascii.eqb Bool.eqb andb shown]. rewrite E. reflexivity.
Qed.

Example C131_ex :
  let b : object := fun f => if String.eqb f "holder" then MVec3 (f64_ofZ 1) (f64_ofZ 0) c_pi else MDbl (f64_ofZ 2) in
  nth_error (info_body "cyl" b) 2 = Some "cyl.holder_pos = {1, 0, 3.14159} -- .d = 180" /\
  statement "cyl" "holder_pos" "cyl.holder_pos = {1, 0, 3.14159} -- .d = 180" = Some (LitTab [Dec false 1 0; Dec false 0 0; Dec false 314159 (-5)]) /\
  info_line "S" (fun _ => MTime (Time.Model.mkTime (-3) 200)) ("time", "time", Seconds) = "S.time = '-3/200' -- -0.015".
Proof. vm_compute. repeat split; reflexivity. Qed.

Print Assumptions C131_names.
Print Assumptions C131_body_names.
Print Assumptions C131_complete_partial.
Print Assumptions C131_body_complete.
Print Assumptions C131_space_partial.
Print Assumptions C131_body_partial.
Print Assumptions C131_caption_refuted.
Print Assumptions C131_text_refuted.
Print Assumptions C131_mixed_refuted.
Print Assumptions C131_digits_refuted.
