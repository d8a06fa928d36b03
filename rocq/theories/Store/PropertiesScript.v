(** Saving and loading from a script: C111. *)

From Coq Require Import List Arith ZArith Bool String Ascii Permutation Lia.
From Verif.Base Require Import Num F64 F32.
From Verif.Time Require ModelRun.
From Verif.Store Require Import Model Spec Proofs ProofsLoad ProofsSpace ProofsOrder ProofsName ModelScript Properties.
Import ListNotations.
Local Open Scope list_scope.

Lemma append_empty (a : string) : (a ++ "" = a)%string.
Proof. induction a as [|c a IH]; cbn [String.append]; congruence. Qed.
Lemma print_plain name args : no_percent name -> print name args = Ok name.
Proof.
  intros H. rewrite <- (append_empty name) at 1. rewrite print_text by exact H. cbn [print bind]. now rewrite append_empty.
Qed.

(** A save that can write everything writes the file of Store.Model. *)
Lemma written_done n i l bs : write_bodies n i l = Ok bs <-> written n i l = (bs, Done).
Proof.
  revert i bs. induction l as [|b tl IH]; intros i bs; cbn [write_bodies written].
  - split; intros E; [apply ok_inj in E; congruence|congruence].
  - destruct (root_name n (root_body b)) as [r| |]; cbn [bind]; [|split; discriminate..].
    destruct (write_body r b) as [x| |]; cbn [bind]; [|split; discriminate..].
    destruct (written n (S i) tl) as [rest e] eqn:W. destruct (write_bodies n (S i) tl) as [bs'| |] eqn:B; cbn [bind].
    + apply IH in B. rewrite W in B. injection B as -> ->. split; intros E; [apply ok_inj in E; congruence|congruence].
    + split; [discriminate|]. intros E. injection E as <- ->. apply IH in W. congruence.
    + split; [discriminate|]. intros E. injection E as <- ->. apply IH in W. congruence.
Qed.
Lemma save_with meta s f : save meta s = Ok f <->
  existsb invalid (bodies s) = false
  /\ exists bs, written (List.length (bodies s)) 0 (bodies s) = (bs, Done) /\ f = file_with meta s bs.
Proof.
  unfold save. destruct (existsb invalid (bodies s)); [split; [discriminate|intros (E & _); discriminate]|].
  split.
  - intros E. destruct (bind_ok _ _ _ E) as (bs & W & F). apply ok_inj in F. apply written_done in W.
    split; [reflexivity|]. exists bs. auto.
  - intros (_ & bs & W & ->). apply written_done in W. rewrite W. reflexivity.
Qed.

(** The disk of a program before its first failure. *)
Definition closed (d : disk) : Prop := forall n f, d n <> Some (Unfinished f).

(** What a save does that is not refused and whose name has no "%": it writes the first
    63 characters. *)
Lemma save_plain meta name s d f n :
  no_nul name -> no_percent name -> name <> ""%string ->
  save meta s = Ok f -> Time.ModelRun.file_number (time s) (dt s) = Some n ->
  (forall g, d (cut 64 name) <> Some (Unfinished g)) ->
  script_save meta name s d = (put (cut 64 name) (Whole f) d, Returns tt).
Proof.
  intros NN NP NE SV FN C. unfold script_save.
  apply save_with in SV. destruct SV as (INV & bs & W & ->). rewrite INV, FN, (c_str_plain name NN), (print_plain name [n] NP).
  destruct (String.eqb_spec (cut 64 name) "") as [E|_].
  - destruct name as [|c t]; [congruence|]. discriminate E.
  - rewrite W. destruct (d (cut 64 name)) as [[g|g|]|] eqn:D; try reflexivity. exfalso. exact (C g eq_refl).
Qed.

(** * C111 *)

(** A script that saves to a name of at most 63 characters without "%" finds its
    calculation under this name again, and no other file has changed. *)
Theorem C111_partial : forall meta accepts properties name s s0 d f n,
  no_nul name -> no_percent name -> name <> ""%string -> String.length name <= 63 ->
  Time.ModelRun.file_number (time s) (dt s) = Some n ->
  save meta s = Ok f -> only_meta meta -> plain accepts s -> (sources s <> [] \/ sources s0 = []) -> closed d ->
  exists d' p s', script_save meta name s d = (d', Returns tt)
    /\ script_load accepts properties name s0 d' = Returns s' /\ same_space p s s'
    /\ forall other, other <> name -> d' other = d other.
Proof.
  intros meta accepts properties name s s0 d f n NN NP NE LE FN SV OM PL HS CL.
  destruct (load_saved meta accepts properties s s0 f SV OM PL HS) as (p & s' & _ & L & S & _).
  exists (put name (Whole f) d), p, s'. split; [|split; [|split]]; auto.
  - rewrite (save_plain meta name s d f n NN NP NE SV FN (CL _)). rewrite cut_short by lia. reflexivity.
  - unfold script_load, put. rewrite (c_str_plain name NN), String.eqb_refl, L. reflexivity.
  - intros other NO. unfold put. destruct (String.eqb_spec other name); congruence.
Qed.
Print Assumptions C111_partial.

(** A save that the bodies do not pass leaves all files alone. *)
Theorem C111_refused : forall meta name s d, existsb invalid (bodies s) = true ->
  script_save meta name s d = (d, Error).
Proof. intros meta name s d H. unfold script_save. now rewrite H. Qed.
Print Assumptions C111_refused.

(** A save without a name ends the program, which leaves the files alone too. *)
Theorem C111_unnamed : forall meta name s d n, Time.ModelRun.file_number (time s) (dt s) = Some n ->
  existsb invalid (bodies s) = false ->
  (name = ""%string \/ exists t, name = String (ascii_of_nat 0) t) -> script_save meta name s d = (d, Aborts).
Proof. intros meta name s d n FN V [->|[t ->]]; unfold script_save; rewrite FN, V; reflexivity. Qed.
Print Assumptions C111_unnamed.

(** So does a load of a file that is not there. *)
Theorem C111_missing : forall accepts properties name s d, no_nul name -> d name = None ->
  script_load accepts properties name s d = Aborts.
Proof. intros * NN H; unfold script_load; rewrite (c_str_plain name NN), H; reflexivity. Qed.
Print Assumptions C111_missing.

(** A load that returns has read a whole file of that name. *)
Theorem C111_returned : forall accepts properties name s d s', no_nul name ->
  script_load accepts properties name s d = Returns s' -> exists f, d name = Some (Whole f) /\ load accepts properties f s = Ok s'.
Proof.
  intros * NN. unfold script_load. rewrite (c_str_plain name NN). destruct (d name) as [c|]; [|discriminate].
  destruct c as [f| |]; try discriminate. destruct (load accepts properties f s) eqn:E; try discriminate.
  intros H. injection H as <-. exists f. auto.
Qed.
Print Assumptions C111_returned.

(** Every longer name is cut: the file of that name is neither written nor there. *)
Lemma cut_length name : String.length name > 63 -> String.length (cut 64 name) = 63.
Proof.
  unfold cut. change (64 - 1) with 63. generalize 63 as k. intros k. revert name.
  induction k as [|k IH]; intros [|c t] H; cbn [String.length substring] in *; try lia.
  rewrite IH by lia. reflexivity.
Qed.
Theorem C111_long_refuted : forall meta accepts properties name s s0 d f n,
  no_nul name -> no_percent name -> String.length name > 63 ->
  Time.ModelRun.file_number (time s) (dt s) = Some n -> save meta s = Ok f -> d name = None -> closed d ->
  exists d', script_save meta name s d = (d', Returns tt) /\ script_load accepts properties name s0 d' = Aborts
    /\ d' (substring 0 63 name) = Some (Whole f).
Proof.
  intros meta accepts properties name s s0 d f n NN NP L FN SV D CL.
  exists (put (cut 64 name) (Whole f) d). split; [|split].
  - apply (save_plain meta name s d f n NN NP); auto. intros ->. cbn in L. lia.
  - unfold script_load, put. rewrite (c_str_plain name NN).
    destruct (String.eqb_spec name (cut 64 name)) as [E|_]; [|now rewrite D].
    apply (f_equal String.length) in E. rewrite cut_length in E by exact L. lia.
  - unfold put. change (substring 0 63 name) with (cut 64 name). now rewrite String.eqb_refl.
Qed.
Print Assumptions C111_long_refuted.
Definition nothing : disk := fun _ => None.
Example C111_long_ex : let name := string_of_list_ascii (repeat "x"%char 60 ++ ["."; "h"; "5"; "z"]%char) in
  String.length name = 64
  /\ match script_save [] name two nothing with
     | (d', Returns _) => match d' (string_of_list_ascii (repeat "x"%char 60 ++ ["."; "h"; "5"]%char)), d' name with
                          | Some (Whole _), None => true | _, _ => false end
     | _ => false
     end = true.
Proof. vm_compute. auto. Qed.

(** A name with "%" is a format: "%d" becomes the number of the step, other signs are
    undefined behaviour. *)
Theorem C111_percent_refuted : exists s d',
  script_save [] "a%d.h5" s nothing = (d', Returns tt) /\ script_load any no_props "a%d.h5" empty d' = Aborts
  /\ (exists f, d' "a3.h5"%string = Some (Whole f)) /\ script_save [] "50%.h5" s nothing = (nothing, Anything).
Proof.
  destruct (ok_got (save [] two) (fun _ => true)) as (f & E & _); [vm_compute; reflexivity|].
  exists two, (put "a3.h5" (Whole f) nothing). split; [|split; [|split]].
  - apply save_with in E. destruct E as (INV & bs & W & ->). unfold script_save. rewrite INV.
    replace (Time.ModelRun.file_number (time two) (dt two)) with (Some 3%Z) by (vm_compute; reflexivity).
    replace (print (c_str "a%d.h5") [3%Z]) with (Ok "a3.h5"%string) by (vm_compute; reflexivity).
    rewrite W. reflexivity.
  - reflexivity.
  - exists f. reflexivity.
  - vm_compute. reflexivity.
Qed.
Print Assumptions C111_percent_refuted.

(** With a time step of zero the number of the step is 0/0, which does not fit an int. *)
Theorem C111_step_refuted : exists s f, dt s = mkTime 0 1 /\ save [] s = Ok f /\
  forall d, script_save [] "a.h5" s d = (d, Anything).
Proof.
  set (s := mkSpace "" (f 100) (f 1) fzero "" "" vzero vzero (mkTime 0 1) (mkTime 0 1) (mkTime 0 1) (mkTime 0 1) (mkTime 0 1)
    finf [] [] [] [] [] []).
  destruct (ok_got (save [] s) (fun _ => true)) as (fl & E & _); [vm_compute; reflexivity|].
  exists s, fl. split; [reflexivity|]. split; [exact E|]. intros d. unfold script_save.
  replace (existsb invalid (bodies s)) with false by reflexivity.
  replace (Time.ModelRun.file_number (time s) (dt s)) with (@None Z) by (vm_compute; reflexivity). reflexivity.
Qed.
Print Assumptions C111_step_refuted.

(** A refused save can destroy the file saved before: a body whose root is not in the
    space is found only when the file is open for writing. *)
Definition other_root : space := a_space "" [a_body "a" Foreign triangle] [].
Theorem C111_destroyed_refuted : exists s d d' f g,
  d "a.h5"%string = Some (Whole f) /\ script_save [] "a.h5" s d = (d', Error) /\ d' "a.h5"%string = Some (Unfinished g)
  /\ g <> f.
Proof.
  destruct (ok_got (save [] two) (fun _ => true)) as (f & E & _); [vm_compute; reflexivity|].
  exists other_root, (put "a.h5" (Whole f) nothing), (put "a.h5" (Unfinished (file_with [] other_root [])) (put "a.h5" (Whole f) nothing)),
    f, (file_with [] other_root []).
  split; [reflexivity|]. split; [|split; [reflexivity|]].
  - unfold script_save.
    replace (existsb invalid (bodies other_root)) with false by (vm_compute; reflexivity).
    replace (Time.ModelRun.file_number (time other_root) (dt other_root)) with (Some 3%Z) by (vm_compute; reflexivity).
    replace (print (c_str "a.h5") [3%Z]) with (Ok "a.h5"%string) by (vm_compute; reflexivity). reflexivity.
  - intros G. pose proof (saved_names [] two f E) as N. rewrite <- G in N. vm_compute in N. discriminate N.
Qed.
Print Assumptions C111_destroyed_refuted.

(** The first theorem at work. *)
Example C111_ex : match script_save [] "two.h5" two nothing with
  | (d', Returns _) => match script_load any no_props "two.h5" empty d' with
                       | Returns s' => String.eqb (caption s') "two" && Nat.eqb (List.length (bodies s')) 2
                       | _ => false end
  | _ => false end = true.
Proof. vm_compute. reflexivity. Qed.
