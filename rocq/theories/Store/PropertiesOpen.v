(** What a script leaves on the disk when some of its saves fail: C121. *)

From Coq Require Import List Arith ZArith Bool String Ascii Permutation Lia.
From Flocq Require Import IEEE754.BinarySingleNaN.
From Verif.Base Require Import Num F64 F32.
From Verif.Time Require ModelRun.
From Verif.Store Require Import Model Spec Proofs ProofsLoad ProofsSpace ProofsOrder ProofsName ModelScript Properties PropertiesScript.
Import ListNotations.
Local Open Scope list_scope.

(** * Specification *)

(** Every root of the space is one of its bodies. *)
Definition own_roots (s : space) : Prop :=
  Forall (fun b => root_body b = NoRoot \/ exists i, root_body b = RootAt i /\ i < List.length (bodies s)) (bodies s).

(** The first body with another root comes after the bodies [a], which can be written. *)
Definition foreign_after (s : space) (a : list body) : Prop :=
  exists b c, bodies s = a ++ b :: c
    /\ ~ (root_body b = NoRoot \/ exists i, root_body b = RootAt i /\ i < List.length (bodies s))
    /\ Forall (fun x => (root_body x = NoRoot \/ exists i, root_body x = RootAt i /\ i < List.length (bodies s))
                        /\ alist x <> []
                        /\ forall p q, In p (alist x) -> In q (alist x) -> Beqb (heat_const p) (heat_const q) = true) a.

(** * Proofs *)

Lemma written_own n i l : Forall (fun b => root_body b = NoRoot \/ exists k, root_body b = RootAt k /\ k < n) l ->
  snd (written n i l) <> Refused.
Proof.
  intros F. revert i. induction F as [|b tl H F IH]; intros i; cbn [written]; [discriminate|].
  apply root_name_iff in H. destruct H as (r & ->). destruct (write_body r b); try discriminate.
  specialize (IH (S i)). destruct (written n (S i) tl). exact IH.
Qed.

Lemma written_foreign n i a b c :
  ~ (root_body b = NoRoot \/ exists k, root_body b = RootAt k /\ k < n) ->
  Forall (fun x => (root_body x = NoRoot \/ exists k, root_body x = RootAt k /\ k < n)
                   /\ alist x <> []
                   /\ forall p q, In p (alist x) -> In q (alist x) -> Beqb (heat_const p) (heat_const q) = true) a ->
  exists bs, written n i (a ++ b :: c) = (bs, Refused) /\ map fst bs = map body_name (seq i (List.length a)).
Proof.
  intros N F. revert i. induction F as [|x tl (R & NE & H) F IH]; intros i; cbn [app written].
  - exists []. split; [|reflexivity]. destruct (root_name n (root_body b)) as [r| |] eqn:E; auto.
    exfalso. apply N. apply root_name_iff. eauto.
  - apply root_name_iff in R. destruct R as (r & ->).
    destruct (proj2 (write_body_iff r x) (conj NE H)) as (d & ->).
    destruct (IH (S i)) as (bs & -> & M). exists ((body_name i, d) :: bs). split; [reflexivity|].
    cbn [map fst List.length seq]. now rewrite M.
Qed.

Lemma insert_length x l : List.length (insert x l) = S (List.length l).
Proof. induction l as [|y tl IH]; cbn [insert List.length]; auto. destruct (String.leb x y); cbn [List.length]; lia. Qed.
Lemma sort_length l : List.length (sort l) = List.length l.
Proof. induction l as [|x tl IH]; cbn [sort List.length]; auto. rewrite insert_length. lia. Qed.
Lemma read_bodies_length accepts properties f names todo l :
  read_bodies accepts properties f names todo = Ok l -> List.length l = List.length todo.
Proof.
  revert l. induction todo as [|n tl IH]; intros l H; cbn [read_bodies] in H.
  - apply ok_inj in H. now subst l.
  - destruct (bind_ok _ _ _ H) as (b & _ & H1). destruct (bind_ok _ _ _ H1) as (r & H2 & H3). apply ok_inj in H3. subst l.
    cbn [List.length]. now rewrite (IH r H2).
Qed.
Lemma load_bodies accepts properties f s0 s : load accepts properties f s0 = Ok s ->
  List.length (bodies s) = List.length (body_names f).
Proof.
  unfold load. intros H.
  repeat (let x := fresh in let y := fresh in let z := fresh in destruct (bind_ok _ _ _ H) as (x & y & z); clear H; rename z into H).
  apply ok_inj in H. subst s. cbn [bodies]. rewrite map_length.
  match goal with E : read_bodies _ _ _ _ _ = _ |- _ => rewrite (read_bodies_length _ _ _ _ _ _ E) end. apply sort_length.
Qed.

(** * C121 *)

(** A script that comes to its end and all of whose spaces have their own roots leaves
    only files that were there before and complete files of the spaces it saved. *)
Theorem C121_partial : forall meta l d d' r, closed d -> Forall (fun p => own_roots (snd p)) l ->
  script_saves meta l d = (d', r) -> r = Returns tt ->
  forall name, d' name = d name
    \/ exists text s f, In (text, s) l /\ save meta s = Ok f /\ d' name = Some (Whole f).
Proof.
  intros meta l. induction l as [|[text s] tl IH]; intros d d' r CL F H R name; cbn [script_saves] in H.
  - left. injection H as <- _. unfold end_program. specialize (CL name). destruct (d name) as [[f|f|]|]; auto.
    exfalso. exact (CL f eq_refl).
  - pose proof (Forall_inv F) as O. pose proof (Forall_inv_tail F) as F'. cbn [snd] in O.
    assert (Step : forall d1 q, script_save meta text s d = (d1, q) -> q = Returns tt \/ q = Error ->
      closed d1 /\ forall n, d1 n = d n \/ exists f, save meta s = Ok f /\ d1 n = Some (Whole f)).
    { intros d1 q. unfold script_save.
      destruct (existsb invalid (bodies s)) eqn:V; [intros E _; injection E as <- _; auto|].
      destruct (Time.ModelRun.file_number (time s) (dt s)); [|intros E [Q|Q]; congruence].
      destruct (print (c_str text) [z]) as [nm| |]; [|intros E [Q|Q]; congruence..].
      destruct (String.eqb (cut 64 nm) ""); [intros E [Q|Q]; congruence|].
      pose proof (written_own (List.length (bodies s)) 0 (bodies s) O) as W.
      destruct (written (List.length (bodies s)) 0 (bodies s)) as [bs e] eqn:WE. cbn [snd] in W.
      assert (G : forall (X : disk * reply unit), X = match (bs, e) with
          | (bs, Done) => (put (cut 64 nm) (Whole (file_with meta s bs)) d, Returns tt)
          | (bs, Refused) => (put (cut 64 nm) (Unfinished (file_with meta s bs)) d, Error)
          | (_, Fails) => (put (cut 64 nm) Lost d, Aborts)
          | (_, Wild) => (d, Anything)
          end -> X = (d1, q) -> q = Returns tt \/ q = Error ->
          closed d1 /\ forall n, d1 n = d n \/ exists f, save meta s = Ok f /\ d1 n = Some (Whole f)).
      { intros X -> E Q. destruct e; try (destruct Q; congruence).
        injection E as <- _. split.
        - intros n f. unfold put. destruct (String.eqb n (cut 64 nm)); [discriminate|apply CL].
        - intros n. unfold put. destruct (String.eqb n (cut 64 nm)); [|auto]. right. exists (file_with meta s bs). split; [|reflexivity].
          apply save_with. split; [exact V|]. eauto. }
      destruct (d (cut 64 nm)) as [[g|g|]|] eqn:D; try (eapply G; reflexivity).
      intros E Q. destruct Q; congruence. }
    assert (Next : exists d1 q, script_save meta text s d = (d1, q) /\ (q = Returns tt \/ q = Error) /\ script_saves meta tl d1 = (d', r)).
    { destruct (script_save meta text s d) as [d1 [[]| | |]] eqn:E; try (injection H as _ <-; discriminate R); eauto 6. }
    destruct Next as (d1 & q & E & Q & H1). destruct (Step d1 q E Q) as (C1 & K).
    destruct (IH d1 d' r C1 F' H1 R name) as [S|(t & s1 & f & I & SV & S)].
    + destruct (K name) as [K1|(f & SV & K1)]; [left; congruence|]. right. exists text, s, f. split; [left; reflexivity|]. split; [exact SV|congruence].
    + right. exists t, s1, f. split; [right; exact I|auto].
Qed.
Print Assumptions C121_partial.

(** A space with a foreign root is refused, and the script may go on; but afterwards
    there is a file under this name that loads without an error and has just the bodies
    in front of the refused one. *)
Theorem C121_cut_refuted : forall meta accepts properties name s a d n,
  no_nul name -> no_percent name -> name <> ""%string -> String.length name <= 63 ->
  Time.ModelRun.file_number (time s) (dt s) = Some n -> existsb invalid (bodies s) = false -> closed d ->
  foreign_after s a ->
  exists d' f, script_save meta name s d = (d', Error)
    /\ script_saves meta [(name, s)] d = (end_program d', Returns tt)
    /\ end_program d' name = Some (Whole f)
    /\ (forall s0 s', script_load accepts properties name s0 (end_program d') = Returns s' ->
        List.length (bodies s') = List.length a /\ List.length (bodies s') < List.length (bodies s)).
Proof.
  intros meta accepts properties name s a d n NN NP NE LE FN V CL (b & c & B & NR & FA).
  destruct (written_foreign (List.length (bodies s)) 0 a b c NR FA) as (bs & W & M). rewrite <- B in W.
  set (f := file_with meta s bs).
  assert (SV : script_save meta name s d = (put name (Unfinished f) d, Error)).
  { unfold script_save. rewrite V, FN, (c_str_plain name NN), (print_plain name [n] NP), cut_short by lia.
    destruct (String.eqb_spec name ""); [congruence|]. rewrite W.
    destruct (d name) as [[g|g|]|] eqn:D; try reflexivity. exfalso. exact (CL name g D). }
  exists (put name (Unfinished f) d), f. split; [exact SV|]. split; [|split].
  - cbn [script_saves]. rewrite SV. reflexivity.
  - unfold end_program, put. now rewrite String.eqb_refl.
  - intros s0 s'. unfold script_load, end_program, put. rewrite (c_str_plain name NN), String.eqb_refl.
    destruct (load accepts properties f s0) as [x| |] eqn:L; try discriminate. intros E. injection E as <-.
    assert (LB : List.length (bodies x) = List.length a).
    { rewrite (load_bodies _ _ _ _ _ L). unfold body_names, f, file_with. cbn [objects].
      rewrite !app_assoc, map_app, filter_app.
      pose proof (lists_names s) as LN. unfold lists_of in LN. rewrite !app_assoc in LN. rewrite LN, M, filter_names.
      cbn [app]. now rewrite map_length, seq_length. }
    split; [exact LB|]. rewrite LB, B, app_length. cbn [List.length]. lia.
Qed.
Print Assumptions C121_cut_refuted.

(** The witness: of two bodies the second has a foreign root.  The save is refused, the
    file it leaves loads and has one body, and the caption and the vortices of the
    refused space. *)
Definition half : space := a_space "half" [a_body "a" NoRoot triangle; a_body "b" Foreign triangle] [].
Theorem C121_refuted : exists s d' s',
  script_saves [] [("a.h5"%string, s)] nothing = (d', Returns tt) /\
  script_load any no_props "a.h5" empty d' = Returns s' /\
  List.length (bodies s) = 2 /\ List.length (bodies s') = 1 /\ caption s' = caption s.
Proof.
  destruct (written 2 0 (bodies half)) as [bs e] eqn:W.
  assert (E : e = Refused) by (apply (f_equal snd) in W; vm_compute in W; congruence). subst e.
  set (f := file_with [] half bs).
  destruct (ok_got (load any no_props (file_with [] half (fst (written 2 0 (bodies half)))) empty)
              (fun s' => Nat.eqb (List.length (bodies s')) 1 && String.eqb (caption s') "half")) as (s' & L & C).
  { vm_compute. reflexivity. }
  rewrite W in L. cbn [fst] in L. fold f in L. apply andb_true_iff in C. destruct C as (C1 & C2).
  exists half, (end_program (put "a.h5" (Unfinished f) nothing)), s'. split; [|split; [|split; [|split]]].
  - cbn [script_saves]. unfold script_save.
    replace (existsb invalid (bodies half)) with false by (vm_compute; reflexivity).
    replace (Time.ModelRun.file_number (time half) (dt half)) with (Some 3%Z) by (vm_compute; reflexivity).
    replace (print (c_str "a.h5") [3%Z]) with (Ok "a.h5"%string) by (vm_compute; reflexivity).
    change (List.length (bodies half)) with 2. rewrite W. reflexivity.
  - unfold script_load, end_program, put. change (c_str "a.h5") with "a.h5"%string. cbn [String.eqb Ascii.eqb Bool.eqb]. rewrite L. reflexivity.
  - reflexivity.
  - now apply Nat.eqb_eq.
  - apply String.eqb_eq. exact C2.
Qed.
Print Assumptions C121_refuted.

(** Putting the root right and saving again under the same name aborts the program;
    under another name the space is saved. *)
Theorem C121_retry_refuted : forall meta name s d d' g s2 n2,
  no_nul name -> no_percent name -> name <> ""%string -> String.length name <= 63 ->
  d' name = Some (Unfinished g) -> script_save meta name s d = (d', Error) ->
  Time.ModelRun.file_number (time s2) (dt s2) = Some n2 -> existsb invalid (bodies s2) = false ->
  script_save meta name s2 d' = (d', Aborts).
Proof.
  intros meta name s d d' g s2 n2 NN NP NE LE U _ FN V. unfold script_save.
  rewrite V, FN, (c_str_plain name NN), (print_plain name [n2] NP), cut_short by lia.
  destruct (String.eqb_spec name ""); [congruence|]. now rewrite U.
Qed.
Print Assumptions C121_retry_refuted.
Theorem C121_other_name : forall meta name other s d d' s2 n2 f,
  no_nul other -> no_percent other -> other <> ""%string -> String.length other <= 63 -> closed d ->
  no_nul name -> no_percent name -> String.length name <= 63 -> name <> other ->
  script_save meta name s d = (d', Error) ->
  Time.ModelRun.file_number (time s2) (dt s2) = Some n2 -> save meta s2 = Ok f ->
  exists d2, script_save meta other s2 d' = (d2, Returns tt) /\ end_program d2 other = Some (Whole f)
    /\ forall x, x <> other -> d2 x = d' x.
Proof.
  intros meta name other s d d' s2 n2 f NN NP NE LE CL NN' NP' LE' D SVE FN SV.
  assert (O : d' other = d other).
  { revert SVE. unfold script_save. destruct (existsb invalid (bodies s)); [congruence|].
    destruct (Time.ModelRun.file_number (time s) (dt s)) as [z|]; [|congruence].
    rewrite (c_str_plain name NN'), (print_plain name [z] NP'), cut_short by lia.
    destruct (String.eqb name ""); [congruence|].
    assert (P : forall c, put name c d other = d other).
    { intros c. unfold put. destruct (String.eqb_spec other name); congruence. }
    destruct (d name) as [[g|g|]|]; [| congruence | |];
      destruct (written (List.length (bodies s)) 0 (bodies s)) as [bs []]; intros E; injection E; intros; subst; auto; discriminate. }
  exists (put other (Whole f) d'). split; [|split].
  - rewrite (save_plain meta other s2 d' f n2 NN NP NE SV FN).
    + now rewrite cut_short by lia.
    + intros g. rewrite cut_short by lia. rewrite O. apply CL.
  - unfold end_program, put. now rewrite String.eqb_refl.
  - intros x X. unfold put. destruct (String.eqb_spec x other); congruence.
Qed.
Print Assumptions C121_other_name.

(** A load that fails cannot be caught by the script. *)
Theorem C121_load : forall accepts properties name s d, script_load accepts properties name s d <> Error.
Proof.
  intros. unfold script_load. destruct (d (c_str name)) as [[f|f|]|]; try discriminate.
  destruct (load accepts properties f s); discriminate.
Qed.
Print Assumptions C121_load.

(** The script of the witness goes on after the refusal and saves another space under
    another name, and is aborted when it tries the name again. *)
Example C121_ex :
  match script_saves [] [("a.h5"%string, half); ("b.h5"%string, two)] nothing with
  | (d', Returns _) => match d' "a.h5"%string, d' "b.h5"%string with
                       | Some (Whole f), Some (Whole g) => Nat.eqb (List.length (body_names f)) 1 && Nat.eqb (List.length (body_names g)) 2
                       | _, _ => false end
  | _ => false end = true
  /\ match script_saves [] [("a.h5"%string, half); ("a.h5"%string, two)] nothing with (_, Aborts) => true | _ => false end = true.
Proof. vm_compute. auto. Qed.
