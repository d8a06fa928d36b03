(** Properties C94 (plot archives) and C95 (what gnuplot reads). *)

From Coq Require Import List ZArith Bool String Ascii Arith Lia Sorted.
From Verif.Plot Require Import Model Spec Proofs ProofsExec ProofsScript.
Import ListNotations.
Local Open Scope string_scope.

(** * C94: saving and loading a plot *)

(** Whatever was added and written comes back. *)
Theorem C94_roundtrip_partial : forall stack acts,
  archivable stack (does_all acts) -> load stack new_plotter (save (does_all acts)) = Some (does_all acts).
Proof. intros stack acts. apply load_save. apply done_sorted. Qed.

(** So a plot drawn from an archive is the one that was saved. *)
Theorem C94_same_plot_partial : forall stack vcirc vcirc3 data head o bs fd,
  archivable stack (main_hdf vcirc vcirc3 data head o bs) ->
  exists p, load stack new_plotter (save (main_hdf vcirc vcirc3 data head o bs)) = Some p /\
    exec fd p = exec fd (main_hdf vcirc vcirc3 data head o bs) /\
    forall n, get p n = get (main_hdf vcirc vcirc3 data head o bs) n.
Proof.
  intros stack vcirc vcirc3 data head o bs fd A. eexists. split; [|split; [|intros n]; reflexivity].
  apply load_save; [|exact A]. rewrite main_files. apply adds_sorted. constructor.
Qed.

(** A file with the name of the script is lost and becomes part of the script. *)
Theorem C94_name_refuted : forall stack t s, String.length t <= stack -> String.length s <= stack ->
  load stack new_plotter (save (does_all [Add "plot.gp" s; Write t])) = Some (mkPlotter (t ++ s) []).
Proof.
  intros stack t s L1 L2. unfold load, save, does_all. cbn [fold_left does add write insert files script new_plotter append].
  cbn [fold_left load_entry fst snd]. rewrite (proj2 (Nat.leb_le _ _) L1). cbn [String.eqb Ascii.eqb Bool.eqb].
  cbn [fold_left load_entry fst snd]. rewrite (proj2 (Nat.leb_le _ _) L2). cbn [String.eqb Ascii.eqb Bool.eqb]. reflexivity.
Qed.

(** A file larger than the stack cannot be loaded. *)
Theorem C94_size_refuted : forall stack p n s, In (n, s) (files p) -> stack < String.length s ->
  load stack new_plotter (save p) = None.
Proof. intros stack p n s I L. apply (load_big stack new_plotter (save p) n s); [right; exact I|exact L]. Qed.

(** * C95: the script given to gnuplot *)

(** Each name in the plot command becomes the descriptor of its file and the
    rest of the script stays as it is. *)
Theorem C95_script_partial : forall vcirc vcirc3 data fd head o bs,
  quote_free vcirc -> quote_free vcirc3 -> quote_free head ->
  (forall l, In l (shown_labels bs) -> ordinary l) -> NoDup (shown_labels bs) ->
  exec fd (main_hdf vcirc vcirc3 data head o bs)
  = head ++ plot_cmd (parts vcirc vcirc3 (descriptor fd) o (shown_labels bs)) ++ String "010" "".
Proof. intros vcirc vcirc3 data fd head o bs Q1 Q3 QH OL NL. apply exec_main; assumption. Qed.

(** Each file has the content of the object that is drawn. *)
Theorem C95_data_partial : forall vcirc vcirc3 data head o bs,
  (forall l, In l (shown_labels bs) -> ~ In l datasets) -> NoDup (shown_labels bs) ->
  (forall n t, In (n, t) (parts vcirc vcirc3 (fun n => n) o (shown_labels bs)) -> In n datasets ->
     get (main_hdf vcirc vcirc3 data head o bs) n = Some (data n)) /\
  (forall i b, nth_error bs i = Some b ->
     get (main_hdf vcirc vcirc3 data head o bs) (shown_label i b) = Some (outline b)).
Proof.
  intros vcirc vcirc3 data head o bs D N. split.
  - intros n t I DN. apply get_main; try assumption.
    apply (drawn_part vcirc vcirc3 data) in I; [|exact (proj1 (proj2 (dataset_name vcirc data n DN)))|reflexivity].
    apply (drawn_added vcirc vcirc3 data) in I. apply in_map_iff in I. destruct I as ([m s] & E & I). cbn in E. subst m.
    assert (NL : ~ In n (shown_labels bs)) by (intros J; exact (D n J DN)).
    assert (S : s = data n); [|subst s; exact I].
    rewrite <- body_files_names in NL. unfold added in I. rewrite !in_app_iff in I.
    repeat match type of I with _ \/ _ => destruct I as [I|I] end;
      try (match type of I with In _ (match ?b with _ => _ end) => destruct b end; cbn in I; intuition congruence).
    exfalso. apply NL. apply (in_map fst) in I. exact I.
  - intros i b E. apply get_main; try assumption.
    assert (I : In (shown_label i b, outline b) (body_files bs)).
    { unfold body_files. apply (in_map (fun p => (shown_label (fst p) (snd p), outline (snd p))) _ (i, b)).
      clear - E. assert (G : forall k, In (k + i, b) (combine (seq k (List.length bs)) bs)).
      { revert i E. induction bs as [|c bs IH]; intros [|i] E k; try discriminate.
        - cbn in E. injection E as ->. left. rewrite Nat.add_0_r. reflexivity.
        - right. rewrite Nat.add_succ_r. apply (IH i E (S k)). }
      exact (G 0). }
    unfold added. rewrite !in_app_iff. tauto.
Qed.

Definition options0 : options := mkOptions false false None false 0 false true false false false false false.
Definition with_S : options := mkOptions false false None false 0 true true false false false false false.
Definition with_V : options := mkOptions false false None true 0 false true false false false false false.

(** A map of velocity has the direction that was asked for in its name. *)
Theorem C95_velocity_partial : forall vcirc vcirc3 data head o bs d,
  (forall l, In l (shown_labels bs) -> ~ In l datasets) -> NoDup (shown_labels bs) -> o_U o = Some d ->
  let name := "map_velocity_" ++ match d with DirX => "x" | DirY => "y" end in
  In (name, " binary matrix u 1:2:3 with image") (parts vcirc vcirc3 (fun n => n) o (shown_labels bs)) /\
  get (main_hdf vcirc vcirc3 data head o bs) name = Some (data name).
Proof.
  intros vcirc vcirc3 data head o bs d D N U. cbv zeta.
  assert (I : In (("map_velocity_" ++ match d with DirX => "x" | DirY => "y" end)%string, " binary matrix u 1:2:3 with image") (parts vcirc vcirc3 (fun n => n) o (shown_labels bs))).
  { unfold parts. rewrite U. do 2 (apply in_or_app; right). apply in_or_app. left. left. destruct d; reflexivity. }
  split; [exact I|]. eapply (proj1 (C95_data_partial vcirc vcirc3 data head o bs D N)); [exact I|].
  destruct d; vm_compute; tauto.
Qed.

(** A body called black: the colour of the streamlines is replaced instead of the name. *)
Theorem C95_style_refuted : forall s data,
  exec (fun n => if String.eqb n "black" then 3 else 4) (main_hdf "1" "3" data "" with_S [mkPBody "black" s])
  = plot_cmd [("/dev/fd/4", " binary format='%2float' with lines lw 1.5 lc rgb '/dev/fd/3'");
              ("black", " binary format='%2float' with filledcurve lc rgb '#adadad' lw 2 fs solid border -1")]
    ++ String "010" "".
Proof.
  intros s data. unfold exec, main_hdf, with_S, added, body_files, shown_label.
  cbn [o_G o_P o_U o_V o_S o_B o_holder o_spring o_bottom o_near o_find orb app map combine seq List.length label outline fst snd
       fold_left add new_plotter files script insert write].
  repeat match goal with |- context [String.compare ?a ?b] => let c := eval vm_compute in (String.compare a b) in change (String.compare a b) with c end.
  cbn [insert fold_left files].
  repeat match goal with |- context [String.compare ?a ?b] => let c := eval vm_compute in (String.compare a b) in change (String.compare a b) with c end.
  cbn [fold_left]. unfold exec_entry. cbn [fst]. vm_compute. reflexivity.
Qed.

(** Of two bodies with the same label the first has no data. *)
Theorem C95_same_label_refuted : forall vcirc vcirc3 data head o l s1 s2, l <> "" -> ~ In l datasets ->
  get (main_hdf vcirc vcirc3 data head o [mkPBody l s1; mkPBody l s2]) l = Some s2.
Proof.
  intros vcirc vcirc3 data head o l s1 s2 NE ND. unfold main_hdf. rewrite get_write.
  change (get (adds (added data o [mkPBody l s1; mkPBody l s2]) new_plotter) l = Some s2).
  assert (E : forall i s, shown_label i (mkPBody l s) = l) by (intros i s; unfold shown_label; destruct l; [congruence|reflexivity]).
  unfold added. rewrite !adds_app. unfold body_files. cbn [List.length seq combine map fst snd outline]. rewrite !E.
  assert (O : forall fs p, (forall n, In n (map fst fs) -> In n datasets) -> get (adds fs p) l = get p l).
  { intros fs p H. apply adds_get_other. intros I. exact (ND (H l I)). }
  rewrite O by (destruct (o_find o); cbn; tauto). rewrite O by (destruct (o_near o); cbn; tauto).
  rewrite O by (destruct (o_bottom o); cbn; tauto). rewrite O by (destruct (o_holder o || o_spring o); cbn; tauto).
  cbn [adds fold_left fst snd]. rewrite get_add, String.eqb_refl. reflexivity.
Qed.

(** A body with the label of a dataset: its outline is drawn as vortices. *)
Theorem C95_dataset_refuted : forall vcirc vcirc3 data head s,
  get (main_hdf vcirc vcirc3 data head with_V [mkPBody "vortex_list" s]) "vortex_list" = Some s.
Proof. intros. reflexivity. Qed.

(** * Examples *)

Example C94_ex : load 100 new_plotter (save (does_all [Add "b" "2"; Write "set"; Add "a" "1"; Write " x"]))
  = Some (mkPlotter "set x" [("a", "1"); ("b", "2")]).
Proof. reflexivity. Qed.

Example C95_ex :
  let p := main_hdf "1" "3" (fun n => n) "set size" with_V [mkPBody "" "o1"; mkPBody "wing" "o2"] in
  exec (fun n => String.length n) p
  = "set size" ++ plot_cmd (parts "1" "3" (fun n => "/dev/fd/" ++ decimal (String.length n)) with_V ["body00"; "wing"]) ++ String "010" ""
  /\ get p "wing" = Some "o2" /\ get p "body00" = Some "o1" /\ ordinary "wing" /\ ordinary "body00".
Proof.
  split; [|split; [reflexivity|split; [reflexivity|]]].
  - apply (C95_script_partial "1" "3" (fun n => n) (fun n => String.length n) "set size" with_V [mkPBody "" "o1"; mkPBody "wing" "o2"]).
    + apply quote_free_check. reflexivity.
    + apply quote_free_check. reflexivity.
    + apply quote_free_check. reflexivity.
    + intros l I. cbn in I. destruct I as [<-|[<-|[]]]; (split; [apply quote_free_check; reflexivity|]);
        (split; [cbn; intuition discriminate|]); (split; [cbn; intuition discriminate|]);
        intros c J (t & E); cbn in J; repeat (destruct J as [<-|J]; [discriminate E|]); destruct J.
    + repeat constructor; cbn; intuition discriminate.
  - split; (split; [apply quote_free_check; reflexivity|]);
        (split; [cbn; intuition discriminate|]); (split; [cbn; intuition discriminate|]);
        intros c J (t & E); cbn in J; repeat (destruct J as [<-|J]; [discriminate E|]); destruct J.
Qed.

Print Assumptions C94_roundtrip_partial.
Print Assumptions C94_same_plot_partial.
Print Assumptions C94_name_refuted.
Print Assumptions C94_size_refuted.
Print Assumptions C95_script_partial.
Print Assumptions C95_data_partial.
Print Assumptions C95_style_refuted.
Print Assumptions C95_same_label_refuted.
Print Assumptions C95_dataset_refuted.
Print Assumptions C95_velocity_partial.
