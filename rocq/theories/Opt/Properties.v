(** C107, C108, C109: command lines. *)

From Coq Require Import List ZArith Bool String Ascii Lia Reals.
From Flocq Require Import IEEE754.BinarySingleNaN.
From Verif Require Import Base.Num Opt.Getopt Opt.Model Opt.Spec Opt.Proofs Opt.ProofsOrder.
Import ListNotations.
Local Open Scope string_scope.

(** * C107 *)

(** Options of vvflow may stand before, between and behind the other arguments,
    in any spelling; the other arguments are passed to the script in their
    order, the script itself as number 0. *)
Theorem C107_partial : forall items args, says items args ->
  match others items with
  | [] => flow_parse args = Exit 1
  | script :: _ => exists f, flow_parse args = Go (mkFlowLine f script (others items)) /\ obeys items f
  end.
Proof.
  intros items args S. destruct (says_events items args S) as (evs & A & G). specialize (G []). rewrite app_nil_r in G.
  change (getopt flow_letters flow_long []) with (@nil event, @nil string) in G. cbv beta iota in G. rewrite !app_nil_r in G.
  unfold flow_parse. rewrite G, A. destruct (others items) as [|s l] eqn:E; [reflexivity|].
  eexists. split; [reflexivity|apply acts_obeys].
Qed.
Print Assumptions C107_partial.
(** Behind [--] everything is passed as it is, whatever it looks like. *)
Theorem C107_separator : forall items args script rest, says items args -> others items = [] ->
  exists f, flow_parse (app args ("--" :: script :: rest)) = Go (mkFlowLine f script (script :: rest)) /\ obeys items f.
Proof.
  intros items args script rest S O. destruct (says_events items args S) as (evs & A & G). specialize (G ("--" :: script :: rest)).
  rewrite getopt_end in G. cbv beta iota in G. rewrite app_nil_r, O in G. unfold flow_parse. rewrite G, A. eexists. split; [reflexivity|apply acts_obeys].
Qed.
Print Assumptions C107_separator.
Theorem C107_table : forall l i s, nth_error (passed l) i = Some s <-> In (i, s) (arg_table l).
Proof.
  intros l i s. unfold arg_table. enough (H : forall k, nth_error (passed l) i = Some s <-> In ((k + i)%nat, s) (numbered k (passed l))) by exact (H 0%nat).
  generalize (passed l) as t. revert i. induction i as [|i IH]; intros t k.
  - destruct t as [|x t]; cbn [nth_error numbered]; [split; [discriminate|intros []]|]. rewrite Nat.add_0_r. split.
    + intros E. left. congruence.
    + intros [E|HI]; [congruence|]. exfalso. assert (B : forall (t : list string) k j v, In (j, v) (numbered k t) -> k <= j).
      { induction t0 as [|y t0 IHt]; cbn; intros k0 j v J; [destruct J|]. destruct J as [J|J]; [injection J as -> _; lia|]. apply IHt in J. lia. }
      apply B in HI. lia.
  - destruct t as [|x t]; cbn [nth_error numbered]; [split; [discriminate|intros []]|]. rewrite (IH t (S k)). replace (S k + i)%nat with (k + S i)%nat by lia.
    split; [intros HI; now right|]. intros [E|HI]; [|exact HI]. exfalso. assert (k = (k + S i)%nat) by congruence. lia.
Qed.
Print Assumptions C107_table.
(** Without [--] an argument of the script that begins with a dash ends the
    program, or is taken away from the script. *)
Theorem C107_dash_refuted : flow_parse ["flap.lua"; "--amplitude=2"] = Exit 1 /\ flow_parse ["flap.lua"; "-0.5"] = Exit 1 /\
  exists f, flow_parse ["flap.lua"; "-s"; "2"] = Go (mkFlowLine f "flap.lua" ["flap.lua"]) /\ sensors_file f = Some "2".
Proof. split; [reflexivity|]. split; [reflexivity|]. eexists. split; reflexivity. Qed.
Print Assumptions C107_dash_refuted.
Example C107_ex : exists f, flow_parse ["--prog"; "a.lua"; "-sprobes"; "1"; "--no-profile"; "2"; "--profile"] = Go (mkFlowLine f "a.lua" ["a.lua"; "1"; "2"]) /\
  f = mkFlow 1 1 (Some "probes").
Proof. eexists. split; reflexivity. Qed.
Example C107_xtract : xtract_parse ["-il"; "a.h5"] = Go (mkXtractLine (mkXtract 1 1) "a.h5" []) /\
  xtract_parse ["a.h5"; "body00"; "--list"] = Go (mkXtractLine (mkXtract 0 1) "a.h5" ["body00"]) /\ xtract_parse ["--info"] = Exit 1.
Proof. repeat split; reflexivity. Qed.

(** * C108 *)

(** A command line of vvplot that is accepted has values that make sense, and
    at most one field is drawn, however [sscanf] reads numbers. *)
Theorem C108_valid : forall scan_int (scan_num : string -> option (f64 * string)) is_dir is_hdf args l,
  @plot_parse F64 f64_nan scan_int scan_num is_dir is_hdf args = Go l -> valid (plot_opts l).
Proof.
  intros si sn isd ish args l. unfold plot_parse. destruct (getopt plot_letters plot_long args) as [evs o].
  destruct (each (@plot_event F64 si sn) evs (@plot_start F64 f64_nan)) as [n|p] eqn:E; [discriminate|].
  destruct o as [|i [|t [|]]]; try discriminate. intros X. apply go_inj in X. subst l. cbn [plot_opts]. apply (each_valid si sn evs (@plot_start F64 f64_nan)); [apply start_valid|exact E].
Qed.
Print Assumptions C108_valid.

(** Options about different things may be given in any order. *)
Theorem C108_order_partial : forall scan_int (scan_num : string -> option (f64 * string)) is_dir is_hdf args args' before e1 e2 after l,
  getopt plot_letters plot_long args = (app before (e1 :: e2 :: after), snd (getopt plot_letters plot_long args')) ->
  fst (getopt plot_letters plot_long args') = app before (e2 :: e1 :: after) -> topic e1 <> topic e2 ->
  @plot_parse F64 f64_nan scan_int scan_num is_dir is_hdf args = Go l -> @plot_parse F64 f64_nan scan_int scan_num is_dir is_hdf args' = Go l.
Proof.
  intros si sn isd ish args args' before e1 e2 after l G G' T. unfold plot_parse. rewrite G. destruct (getopt plot_letters plot_long args') as [evs o]. cbn [fst snd] in *. subst evs.
  destruct (each (@plot_event F64 si sn) (app before (e1 :: e2 :: after)) (@plot_start F64 f64_nan)) as [n|p] eqn:E; [discriminate|].
  rewrite (swap_in _ _ _ _ _ _ _ _ T E). intros H. exact H.
Qed.
Print Assumptions C108_order_partial.

(** The colour scale can be left out only behind the field: before it the
    option is forgotten. *)
Theorem C108_order_refuted : forall scan_int (scan_num : string -> option (f64 * string)) is_dir is_hdf i t, plain i -> plain t ->
  exists l l', @plot_parse F64 f64_nan scan_int scan_num is_dir is_hdf ["--no-colorbox"; "-G"; i; t] = Go l /\
    @plot_parse F64 f64_nan scan_int scan_num is_dir is_hdf ["-G"; "--no-colorbox"; i; t] = Go l' /\
    colorbox (plot_opts l) = 1%Z /\ colorbox (plot_opts l') = 0%Z.
Proof.
  intros si sn isd ish i t I T.
  assert (G : forall evs args, (forall r, getopt plot_letters plot_long (app args r) = let '(e, o) := getopt plot_letters plot_long r in (app evs e, o)) ->
    getopt plot_letters plot_long (app args [i; t]) = (evs, [i; t])).
  { intros evs args A. rewrite A, (getopt_plain _ _ i _ I), (getopt_plain _ _ t _ T). cbn [getopt]. now rewrite app_nil_r. }
  assert (C1 : forall r, getopt plot_letters plot_long ("--no-colorbox" :: r) = let '(e, o) := getopt plot_letters plot_long r in (Long 6 None :: e, o)) by reflexivity.
  assert (C2 : forall r, getopt plot_letters plot_long ("-G" :: r) = let '(e, o) := getopt plot_letters plot_long r in (Short "G" None :: e, o)) by reflexivity.
  eexists. eexists. unfold plot_parse. change ["--no-colorbox"; "-G"; i; t] with (app ["--no-colorbox"; "-G"] [i; t]). change ["-G"; "--no-colorbox"; i; t] with (app ["-G"; "--no-colorbox"] [i; t]).
  rewrite (G [Long 6 None; Short "G" None]), (G [Short "G" None; Long 6 None]); [repeat split| |]; intros r; cbn [app].
  - rewrite C2, C1. now destruct (getopt plot_letters plot_long r).
  - rewrite C1, C2. now destruct (getopt plot_letters plot_long r).
Qed.
Print Assumptions C108_order_refuted.
(** An abbreviation of two options is accepted: --U is taken for --Ux. *)
Theorem C108_abbreviation_refuted : find_long plot_long "U" = Some (30%nat, arg_opt "Ux" (code "U")) /\ find_long plot_long "no" = None.
Proof. split; reflexivity. Qed.
Print Assumptions C108_abbreviation_refuted.

(** A reader of single digits, for the examples. *)
Definition digit_scan (s : string) : option (Z * string) :=
  match s with String c r => let n := Z.of_nat (nat_of_ascii c) in if Z.leb 48 n && Z.leb n 57 then Some (n - 48, r)%Z else None | "" => None end.
Definition digit_num (s : string) : option (f64 * string) := match digit_scan s with Some (n, r) => Some (f64_ofZ n, r) | None => None end.
Definition try_plot := @plot_parse F64 f64_nan digit_scan digit_num (fun _ => false) (fun _ => true).
Example C108_ex : match try_plot ["-BVUy"; "a.h5"; "--size=8x6"; "--V"; "2 "; "--P"; "1 , 3"; "a.png"] with
  | Go l => let p := plot_opts l in ((bB p, bV p, Vsize p), (bG p, bP p, bU p), (width p, height p), colorbox p, (plot_input l, plot_target l)) =
      ((true, true, 2%Z), (false, true, zero), (8%Z, 6%Z), 1%Z, ("a.h5", "a.png"))
  | Exit _ => False
  end.
Proof. vm_compute. reflexivity. Qed.
Example C108_rejected : try_plot ["--P"; "3,1"; "a"; "b"] = Exit 1 /\ try_plot ["--V"; "2x"; "a"; "b"] = Exit 1 /\ try_plot ["-n"; "a"; "b"] = Exit 1 /\ try_plot ["-G"; "a"] = Exit 1.
Proof. repeat split; vm_compute; reflexivity. Qed.

(** * C109 *)

(** In a directory the picture is called after the input without its extension. *)
Theorem C109_name : forall is_dir input base ext dir fmt, is_dir (dir ++ "/") = true -> names input base ext -> fmt = 1%Z \/ fmt = 2%Z ->
  target_name is_dir fmt input (dir ++ "/") = dir ++ "/" ++ base ++ (if Z.eqb fmt 1 then ".png" else ".tar").
Proof.
  intros isd input base ext dir fmt D N F. unfold target_name. rewrite D, (names_stem _ _ _ N).
  replace (last_char (dir ++ "/")) with (Some "/"%char).
  - assert (A : forall a b c, (a ++ b) ++ c = a ++ (b ++ c)) by (induction a; cbn; intros; congruence). now rewrite A.
  - symmetry. clear. induction dir as [|c dir IH]; [reflexivity|]. cbn [append last_char]. destruct (dir ++ "/") eqn:E; [now destruct dir|exact IH].
Qed.
Print Assumptions C109_name.
Theorem C109_distinct : forall is_dir input base ext input' base' ext' dir fmt, is_dir dir = true -> names input base ext -> names input' base' ext' ->
  target_name is_dir fmt input dir = target_name is_dir fmt input' dir -> base = base'.
Proof.
  intros isd input base ext input' base' ext' dir fmt D N N' E. unfold target_name in E. rewrite D, (names_stem _ _ _ N), (names_stem _ _ _ N') in E.
  apply app_left_s, app_left_s, app_right_s in E. exact E.
Qed.
Print Assumptions C109_distinct.
Theorem C109_file : forall is_dir input target fmt, is_dir target = false -> target_name is_dir fmt input target = target.
Proof. intros isd input target fmt D. unfold target_name. now rewrite D. Qed.
Print Assumptions C109_file.
(** Pictures of two calculations, or of files without extension, overwrite one another. *)
Theorem C109_same_refuted : forall is_dir, is_dir "pics" = true ->
  target_name is_dir 1 "results_a/000100.h5" "pics" = target_name is_dir 1 "results_b/000100.h5" "pics" /\
  target_name is_dir 1 "flow_1.0" "pics" = "pics/flow_1.png" /\ target_name is_dir 1 "flow_1.5" "pics" = "pics/flow_1.png".
Proof. intros isd D. unfold target_name. rewrite D. repeat split; reflexivity. Qed.
Print Assumptions C109_same_refuted.
Example C109_ex : target_name (fun s => String.eqb s "pics/") 2 "out/run.2.h5" "pics/" = "pics/run.2.tar".
Proof. reflexivity. Qed.
