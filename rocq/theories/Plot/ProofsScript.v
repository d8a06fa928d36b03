(** Lemmas about the script and the files of main_hdf. *)

From Coq Require Import List ZArith Bool String Ascii Arith Lia Sorted.
From Verif.Plot Require Import Model Spec Proofs ProofsExec.
Import ListNotations.
Local Open Scope string_scope.

(** * The files *)

Lemma insert_names n s l m : In m (map fst (insert n s l)) <-> m = n \/ In m (map fst l).
Proof.
  induction l as [|[k t] l IH]; cbn; [intuition|].
  destruct (String.compare n k) eqn:C; cbn; [apply String.compare_eq_iff in C; subst k| |rewrite IH]; intuition.
Qed.
Definition adds (l : list (string * string)) (p : plotter) : plotter := fold_left (fun p f => add p (fst f) (snd f)) l p.
Lemma adds_names l : forall p m, In m (map fst (files (adds l p))) <-> In m (map fst l) \/ In m (map fst (files p)).
Proof.
  induction l as [|[n s] l IH]; intros p m; [cbn; tauto|]. cbn [adds fold_left fst snd]. change (fold_left _ l ?q) with (adds l q).
  rewrite IH. unfold add. cbn [files]. rewrite insert_names. cbn. intuition.
Qed.
Lemma adds_sorted l : forall p, StronglySorted below (files p) -> StronglySorted below (files (adds l p)).
Proof. induction l as [|[n s] l IH]; intros p H; [exact H|]. apply (IH (add p n s)). apply insert_sorted. exact H. Qed.
Lemma sorted_names l : StronglySorted below l -> NoDup (map fst l).
Proof.
  induction 1 as [|[n s] l S IH F]; cbn; constructor; [|exact IH].
  intros I. apply in_map_iff in I. destruct I as ([m t] & E & I). cbn in E. subst m.
  rewrite Forall_forall in F. specialize (F _ I). unfold below in F. cbn in F. rewrite compare_refl in F. discriminate.
Qed.
Lemma adds_script l : forall p, script (adds l p) = script p.
Proof. induction l as [|f l IH]; intros p; [reflexivity|]. cbn. unfold adds in IH. rewrite IH. reflexivity. Qed.

(** The last content added under a name. *)
Lemma adds_get_other l : forall p n, ~ In n (map fst l) -> get (adds l p) n = get p n.
Proof.
  induction l as [|[m s] l IH]; intros p n H; [reflexivity|]. cbn in H.
  change (get (adds l (add p m s)) n = get p n). rewrite IH by tauto. rewrite get_add.
  destruct (String.eqb_spec n m); [subst; tauto|reflexivity].
Qed.
Lemma adds_app a b p : adds (a ++ b) p = adds b (adds a p).
Proof. unfold adds. apply fold_left_app. Qed.
Lemma adds_get l n s : NoDup (map fst l) -> In (n, s) l -> forall p, get (adds l p) n = Some s.
Proof.
  intros ND I p. apply in_split in I. destruct I as (a & b & ->). rewrite map_app in ND. cbn in ND.
  apply NoDup_remove_2 in ND. rewrite adds_app. change (get (adds b (add (adds a p) n s)) n = Some s).
  rewrite adds_get_other.
  - rewrite get_add, String.eqb_refl. reflexivity.
  - intros J. apply ND. apply in_or_app. right. exact J.
Qed.

(** * Sublists *)

Inductive sub {A} : list A -> list A -> Prop :=
  | sub_nil : sub [] []
  | sub_skip x a b : sub a b -> sub a (x :: b)
  | sub_keep x a b : sub a b -> sub (x :: a) (x :: b).
Lemma sub_none {A} (l : list A) : sub [] l.
Proof. induction l; constructor; assumption. Qed.
Lemma sub_refl {A} (l : list A) : sub l l.
Proof. induction l; [constructor|apply sub_keep; assumption]. Qed.
Lemma sub_app {A} (a b c d : list A) : sub a b -> sub c d -> sub (a ++ c) (b ++ d).
Proof. induction 1; intros H'; cbn; [exact H'|apply sub_skip; auto|apply sub_keep; auto]. Qed.
Lemma sub_in {A} (a b : list A) x : sub a b -> In x a -> In x b.
Proof. induction 1; cbn; intuition. Qed.
Lemma sub_nodup {A} (a b : list A) : sub a b -> NoDup b -> NoDup a.
Proof.
  induction 1 as [|x a b S IH|x a b S IH]; intros N; [constructor| |]; inversion N as [|? ? NI N']; subst; [exact (IH N')|].
  constructor; [|exact (IH N')]. intros I. apply NI. exact (sub_in _ _ _ S I).
Qed.
Lemma sub_if {A} (b : bool) (l m : list A) : sub l m -> sub (if b then l else []) m.
Proof. intros H. destruct b; [exact H|apply sub_none]. Qed.

(** * The plot command in blocks *)

Section Script.
Variable vcirc vcirc3 : string.
Variable data : string -> string.

Definition lit (i a : string) : block := mkBlock false i a.
Definition name (i a : string) : block := mkBlock true i a.
Definition bimage (n : string) : list block := [name n " binary matrix u 1:2:3 with image"].
Definition bparts (o : options) (labels : list string) : list (list block) :=
  ((if o_G o then [bimage "map_vorticity"] else []) ++
   (if o_P o then [bimage "map_pressure";
                   [name "isopressure" " binary format="; lit "%2float" " with lines lw 1 lc rgb "; lit "#9999cc" ""]] else []) ++
   (match o_U o with Some d => [bimage (velocity_name d)] | None => [] end) ++
   (if o_V o then
      [name "vortex_list" " binary format="; lit "%3float" " u 1:2:(color($3)) with dots lc rgb variable"] ::
      (if Nat.ltb 0 (o_Vsize o) then
         [[lit "" " binary format="; lit "%3float" (" u 1:2:(" ++ vcirc ++
               "):(color($3)) with circles lc rgb variable fs transparent solid 0.3 noborder")%string]] else [])
    else []) ++
   (if o_S o then [[name "streamlines" " binary format="; lit "%2float" " with lines lw 1.5 lc rgb "; lit "black" ""]] else []) ++
   (if o_B o then map (fun l => [name l " binary format="; lit "%2float" " with filledcurve lc rgb "; lit "#adadad" " lw 2 fs solid border -1"]) labels
    else []) ++
   (if o_holder o then
      [[name "body_holders" (" u 1:2:(1.5*" ++ vcirc ++ ") w circles lc rgb ")%string; lit "black" " fs solid noborder"]] else []) ++
   (if o_spring o then
      [[name "body_springs" (" u 1:2:(1.5*" ++ vcirc ++ ") w circles lc rgb ")%string; lit "black" " fs solid noborder"];
       [lit "" (" u 1:2:3:4 w vectors head size " ++ vcirc3 ++ ",135 lc rgb ")%string; lit "black" " lw 1.5"]] else []) ++
   (if o_bottom o then
      [[name "ttree_bottom_nodes" " binary format="; lit "%4float" " with boxxy fill empty lc rgb "; lit "black" ""]] else []) ++
   (if o_near o then
      [[name "ttree_near_nodes" " binary format="; lit "%4float" " with vectors nohead lc rgb "; lit "black" ""]] else []) ++
   (if o_find o then
      [[name "ttree_find_node" " binary format="; lit "%4float" " with vectors nohead lc rgb "; lit "black" ""]] else []))%list.

Ltac same := unfold text, rendered, quoted, image, bimage, name, lit;
  cbn [map String.concat mark inner after fst snd append]; repeat rewrite app_assoc_s; cbn [append]; repeat rewrite app_assoc_s; reflexivity.

Lemma bparts_quoted ref o labels : map quoted (parts vcirc vcirc3 ref o labels) = map (text ref) (bparts o labels).
Proof.
  unfold parts, bparts. rewrite !map_app.
  repeat match goal with |- (?a ++ ?b)%list = (?c ++ ?d)%list => apply (f_equal2 (@List.app string)) end.
  - destruct (o_G o); [cbn [map]; (apply (f_equal2 (@List.cons string)); [same|reflexivity])|reflexivity].
  - destruct (o_P o); [cbn [map]; repeat (apply (f_equal2 (@List.cons string)); [same|]); reflexivity|reflexivity].
  - destruct (o_U o); [cbn [map]; (apply (f_equal2 (@List.cons string)); [same|reflexivity])|reflexivity].
  - destruct (o_V o); [|reflexivity]. cbn [map]. apply (f_equal2 (@List.cons string)); [same|]. destruct (Nat.ltb 0 (o_Vsize o)); [|reflexivity].
    cbn [map]. apply (f_equal2 (@List.cons string)); [same|reflexivity].
  - destruct (o_S o); [cbn [map]; (apply (f_equal2 (@List.cons string)); [same|reflexivity])|reflexivity].
  - destruct (o_B o); [|reflexivity]. rewrite !map_map. apply map_ext. intros l. same.
  - destruct (o_holder o); [cbn [map]; (apply (f_equal2 (@List.cons string)); [same|reflexivity])|reflexivity].
  - destruct (o_spring o); [cbn [map]; repeat (apply (f_equal2 (@List.cons string)); [same|]); reflexivity|reflexivity].
  - destruct (o_bottom o); [cbn [map]; (apply (f_equal2 (@List.cons string)); [same|reflexivity])|reflexivity].
  - destruct (o_near o); [cbn [map]; (apply (f_equal2 (@List.cons string)); [same|reflexivity])|reflexivity].
  - destruct (o_find o); [cbn [map]; (apply (f_equal2 (@List.cons string)); [same|reflexivity])|reflexivity].
Qed.

(** Adding a text after the last block. *)
Fixpoint glue (d : string) (bs : list block) : list block :=
  match bs with
  | [] => []
  | b :: r => match r with [] => [mkBlock (mark b) (inner b) (after b ++ d)] | _ :: _ => b :: glue d r end
  end.
Lemma text_glue ref d bs : bs <> [] -> text ref (glue d bs) = text ref bs ++ d.
Proof.
  induction bs as [|b [|c r] IH]; intros H; [congruence| |].
  - unfold text, rendered. cbn [glue map String.concat mark inner after]. rewrite !app_assoc_s. reflexivity.
  - change (glue d (b :: c :: r)) with (b :: glue d (c :: r)).
    rewrite text_cons, IH by discriminate. rewrite (text_cons ref b (c :: r)), app_assoc_s. reflexivity.
Qed.
Lemma marked_glue d bs : marked (glue d bs) = marked bs.
Proof.
  unfold marked. induction bs as [|b [|c r] IH]; [reflexivity| |].
  - cbn. destruct (mark b); reflexivity.
  - change (glue d (b :: c :: r)) with (b :: glue d (c :: r)). cbn [List.filter] in *. destruct (mark b); cbn [map]; rewrite IH; reflexivity.
Qed.

Definition delimiter : string := ", " ++ bs_nl.
Definition end_line : string := String "010" "".
Fixpoint all (ps : list (list block)) : list block :=
  match ps with [] => [] | p :: r => match r with [] => glue end_line p | _ :: _ => glue delimiter p ++ all r end end.

Lemma text_all ref ps : ps <> [] -> Forall (fun p => p <> []) ps -> forall qs, map quoted qs = map (text ref) ps ->
  plot_cmd qs ++ end_line = ("plot " ++ bs_nl) ++ text ref (all ps).
Proof.
  intros NE F qs E. destruct ps as [|p ps]; [congruence|]. destruct qs as [|q qs]; [discriminate|]. clear NE.
  cbn [map] in E. assert (E1 : quoted q = text ref p) by congruence.
  assert (E2 : map quoted qs = map (text ref) ps) by congruence. clear E.
  assert (G : forall p qs, p <> [] -> Forall (fun p => p <> []) ps -> map quoted qs = map (text ref) ps ->
    (text ref p ++ String.concat "" (map (fun p => ", " ++ bs_nl ++ quoted p) qs)) ++ end_line = text ref (all (p :: ps))).
  { clear. induction ps as [|p' ps IH]; intros p qs N F E.
    - destruct qs; [|discriminate]. cbn [map String.concat all]. rewrite text_glue by exact N. rewrite app_nil_s. reflexivity.
    - destruct qs as [|q qs]; [discriminate|]. cbn [map] in E.
      assert (E1 : quoted q = text ref p') by congruence.
      assert (E2 : map quoted qs = map (text ref) ps) by congruence. clear E. inversion F as [|? ? N' F']; subst.
      change (all (p :: p' :: ps)) with (glue delimiter p ++ all (p' :: ps))%list.
      rewrite text_app, text_glue by exact N. rewrite <- (IH p' qs N' F' E2). cbn [map]. rewrite concat_cons, E1.
      unfold delimiter. rewrite !app_assoc_s. reflexivity. }
  inversion F as [|? ? N F']; subst. rewrite <- (G p qs N F' E2). unfold plot_cmd. rewrite E1, !app_assoc_s. reflexivity.
Qed.

Lemma marked_all ps : marked (all ps) = List.concat (map marked ps).
Proof.
  induction ps as [|p [|q r] IH]; [reflexivity| |].
  - cbn [all map List.concat]. rewrite marked_glue, app_nil_r. reflexivity.
  - change (all (p :: q :: r)) with (glue delimiter p ++ all (q :: r))%list.
    rewrite marked_app, marked_glue, IH. reflexivity.
Qed.

(** Texts that no name is equal to. *)
Definition begins (s : string) : Prop := exists c t, s = String c t /\ In c [" "; ","; "010"]%char.
Definition literal (s : string) : Prop := quote_free s /\ (In s styles \/ begins s).
Definition block_ok (b : block) : Prop :=
  quote_free (after b) /\ (after b = "" \/ begins (after b)) /\ (mark b = false -> quote_free (inner b) /\ In (inner b) styles).

Lemma glue_ok d p : quote_free d -> begins d -> Forall block_ok p -> forall b, In b (glue d p) ->
  (quote_free (after b) /\ (In (after b) styles \/ begins (after b))) /\ (mark b = false -> quote_free (inner b) /\ In (inner b) styles).
Proof.
  intros QD BD. induction p as [|c [|e r] IH]; intros F b I; [destruct I| |].
  - inversion F as [|? ? (Q & A & M) _]; subst. destruct I as [<-|[]]. cbn [mark inner after]. split; [|exact M].
    split; [apply quote_free_app; split; assumption|]. right. destruct A as [-> |(x & t & E & J)]; [exact BD|].
    rewrite E. exists x, (t ++ d). split; [reflexivity|exact J].
  - change (glue d (c :: e :: r)) with (c :: glue d (e :: r)) in I. inversion F as [|? ? (Q & A & M) F']; subst.
    destruct I as [<-|I]; [|exact (IH F' b I)]. split; [|exact M]. split; [exact Q|].
    destruct A as [-> |A]; [left; left; reflexivity|right; exact A].
Qed.

Lemma quote_free_check s : (if in_dec ascii_dec quote (list_ascii_of_string s) then false else true) = true -> quote_free s.
Proof. unfold quote_free. destruct (in_dec ascii_dec quote (list_ascii_of_string s)); [discriminate|trivial]. Qed.

Lemma all_ok ps : Forall (Forall block_ok) ps -> forall b, In b (all ps) ->
  (quote_free (after b) /\ (In (after b) styles \/ begins (after b))) /\ (mark b = false -> quote_free (inner b) /\ In (inner b) styles).
Proof.
  induction ps as [|p [|q r] IH]; intros F b I; [destruct I| |]; inversion F as [|? ? FP F']; subst.
  - apply (glue_ok end_line p); [apply quote_free_check; reflexivity| |exact FP|exact I].
    exists "010"%char, "". split; [reflexivity|cbn; tauto].
  - change (all (p :: q :: r)) with (glue delimiter p ++ all (q :: r))%list in I. apply in_app_or in I. destruct I as [I|I].
    + apply (glue_ok delimiter p); [apply quote_free_check; vm_compute; reflexivity| |exact FP|exact I].
      exists ","%char, (" " ++ bs_nl). split; [reflexivity|cbn; tauto].
    + exact (IH F' b I).
Qed.

Hypothesis Q1 : quote_free vcirc.
Hypothesis Q3 : quote_free vcirc3.

Ltac qf := first [apply quote_free_check; vm_compute; reflexivity | exact Q1 | exact Q3 | (apply quote_free_app; split; qf)].
Ltac bl := first [left; reflexivity | right; eexists; eexists; split; [reflexivity|cbn; tauto]].
Ltac ok := split; [cbn [after name lit]; qf|split; [cbn [after name lit]; bl|cbn [mark name lit]; intros M; first [discriminate M | split; [cbn [inner lit]; qf|cbn; tauto]]]].

Ltac each := repeat first [apply Forall_nil | apply Forall_cons]; ok.

Lemma bparts_ok o labels : Forall (Forall block_ok) (bparts o labels).
Proof.
  unfold bparts. repeat (apply Forall_app; split).
  - destruct (o_G o); each.
  - destruct (o_P o); each.
  - destruct (o_U o); each.
  - destruct (o_V o); [|constructor]. apply Forall_cons; [each|]. destruct (Nat.ltb 0 (o_Vsize o)); each.
  - destruct (o_S o); each.
  - destruct (o_B o); [|constructor]. apply Forall_forall. intros p I. apply in_map_iff in I. destruct I as (l & <- & _).
    each.
  - destruct (o_holder o); each.
  - destruct (o_spring o); each.
  - destruct (o_bottom o); each.
  - destruct (o_near o); each.
  - destruct (o_find o); each.
Qed.

(** * The script after the replacements *)

Lemma bparts_full o labels : Forall (fun p => p <> []) (bparts o labels).
Proof.
  unfold bparts. repeat (apply Forall_app; split);
    try (match goal with |- Forall _ (match ?b with _ => _ end) => destruct b end; repeat constructor; discriminate).
  - destruct (o_V o); [|constructor]. constructor; [discriminate|]. destruct (Nat.ltb 0 (o_Vsize o)); repeat constructor; discriminate.
  - destruct (o_B o); [|constructor]. apply Forall_forall. intros p I. apply in_map_iff in I. destruct I as (l & <- & _). discriminate.
Qed.

(** The names that are drawn, and all that may be. *)
Definition drawn (o : options) (labels : list string) : list string := List.concat (map marked (bparts o labels)).
Definition candidates (d : direction) (labels : list string) : list string :=
  (["map_vorticity"; "map_pressure"; "isopressure"; velocity_name d; "vortex_list"; "streamlines"] ++ labels ++
   ["body_holders"; "body_springs"; "ttree_bottom_nodes"; "ttree_near_nodes"; "ttree_find_node"])%list.
Definition dir (o : options) : direction := match o_U o with Some d => d | None => DirX end.

Lemma map_labels (f : string -> list block) labels : (forall l, marked (f l) = [l]) -> List.concat (map marked (map f labels)) = labels.
Proof. intros H. rewrite map_map. induction labels as [|l r IH]; [reflexivity|]. cbn [map List.concat]. rewrite H, IH. reflexivity. Qed.

Lemma drawn_sub o labels : sub (drawn o labels) (candidates (dir o) labels).
Proof.
  unfold drawn, bparts, candidates. rewrite !map_app, !List.concat_app.
  change (["map_vorticity"; "map_pressure"; "isopressure"; velocity_name (dir o); "vortex_list"; "streamlines"] ++ ?r)%list
    with (["map_vorticity"] ++ ["map_pressure"; "isopressure"] ++ [velocity_name (dir o)] ++ ["vortex_list"] ++ ["streamlines"] ++ r)%list.
  change ["body_holders"; "body_springs"; "ttree_bottom_nodes"; "ttree_near_nodes"; "ttree_find_node"]
    with (["body_holders"] ++ ["body_springs"] ++ ["ttree_bottom_nodes"] ++ ["ttree_near_nodes"] ++ ["ttree_find_node"])%list.
  repeat match goal with |- sub (?a ++ ?b)%list (?c ++ ?d)%list => apply sub_app end.
  - destruct (o_G o); [apply sub_refl|apply sub_none].
  - destruct (o_P o); [apply sub_refl|apply sub_none].
  - unfold dir. destruct (o_U o); [apply sub_refl|apply sub_none].
  - destruct (o_V o); [|apply sub_none]. destruct (Nat.ltb 0 (o_Vsize o)); apply sub_refl.
  - destruct (o_S o); [apply sub_refl|apply sub_none].
  - destruct (o_B o); [|apply sub_none]. rewrite map_labels by (intros l; reflexivity). apply sub_refl.
  - destruct (o_holder o); [apply sub_refl|apply sub_none].
  - destruct (o_spring o); [apply sub_refl|apply sub_none].
  - destruct (o_bottom o); [apply sub_refl|apply sub_none].
  - destruct (o_near o); [apply sub_refl|apply sub_none].
  - destruct (o_find o); [apply sub_refl|apply sub_none].
Qed.

Lemma combine_fst {A B C} (g : nat -> A -> B) (h : A -> C) (l : list A) k :
  map fst (map (fun p => (g (fst p) (snd p), h (snd p))) (combine (seq k (List.length l)) l))
  = map (fun p => g (fst p) (snd p)) (combine (seq k (List.length l)) l).
Proof. rewrite map_map. reflexivity. Qed.
Lemma body_files_names bs : map fst (body_files bs) = shown_labels bs.
Proof. unfold body_files, shown_labels. apply combine_fst. Qed.

Definition added_candidates (d : direction) (labels : list string) : list string :=
  (["map_vorticity"; "map_pressure"; "isopressure"; velocity_name d; "vortex_list"; "map_streamfunction"; "streamlines"] ++ labels ++
   ["body_holders"; "body_springs"; "ttree_bottom_nodes"; "ttree_near_nodes"; "ttree_find_node"])%list.
Lemma added_sub o bs : sub (map fst (added data o bs)) (added_candidates (dir o) (shown_labels bs)).
Proof.
  unfold added, added_candidates. rewrite !map_app.
  change (["map_vorticity"; "map_pressure"; "isopressure"; velocity_name (dir o); "vortex_list"; "map_streamfunction"; "streamlines"] ++ ?r)%list
    with (["map_vorticity"] ++ ["map_pressure"; "isopressure"] ++ [velocity_name (dir o)] ++ ["vortex_list"] ++ ["map_streamfunction"; "streamlines"] ++ r)%list.
  change ["body_holders"; "body_springs"; "ttree_bottom_nodes"; "ttree_near_nodes"; "ttree_find_node"]
    with (["body_holders"; "body_springs"] ++ ["ttree_bottom_nodes"] ++ ["ttree_near_nodes"] ++ ["ttree_find_node"])%list.
  repeat match goal with |- sub (?a ++ ?b)%list (?c ++ ?d)%list => apply sub_app end.
  - destruct (o_G o); [apply sub_refl|apply sub_none].
  - destruct (o_P o); [apply sub_refl|apply sub_none].
  - unfold dir. destruct (o_U o); [apply sub_refl|apply sub_none].
  - destruct (o_V o); [apply sub_refl|apply sub_none].
  - destruct (o_S o); [apply sub_refl|apply sub_none].
  - rewrite body_files_names. apply sub_refl.
  - destruct (o_holder o || o_spring o); [apply sub_refl|apply sub_none].
  - destruct (o_bottom o); [apply sub_refl|apply sub_none].
  - destruct (o_near o); [apply sub_refl|apply sub_none].
  - destruct (o_find o); [apply sub_refl|apply sub_none].
Qed.

Lemma candidates_nodup a b labels : NoDup labels -> NoDup (a ++ b) -> (forall l, In l labels -> ~ In l (a ++ b)) ->
  NoDup (a ++ labels ++ b : list string).
Proof.
  intros NL NAB D. induction a as [|x a IH]; cbn [app] in *.
  - clear - NL NAB D. induction NL as [|l r NI N IH]; [exact NAB|]. cbn. constructor.
    + intros I. apply in_app_or in I. destruct I as [I|I]; [contradiction|]. apply (D l); [left; reflexivity|exact I].
    + apply IH. intros m I. apply D. right. exact I.
  - inversion NAB as [|? ? NI N]; subst. constructor.
    + intros I. apply in_app_or in I. destruct I as [I|I]; [apply NI; apply in_or_app; left; exact I|].
      apply in_app_or in I. destruct I as [I|I]; [|apply NI; apply in_or_app; right; exact I].
      apply (D x I). left. reflexivity.
    + apply IH; [exact N|]. intros l I J. apply (D l I). right. exact J.
Qed.

Ltac distinct := repeat constructor; cbn; intuition discriminate.

Lemma drawn_nodup o labels : NoDup labels -> (forall l, In l labels -> ~ In l datasets) -> NoDup (drawn o labels).
Proof.
  intros N D. apply (sub_nodup _ _ (drawn_sub o labels)). unfold candidates. apply candidates_nodup; [exact N| |].
  - destruct (dir o); distinct.
  - intros l I J. apply (D l I). destruct (dir o); cbn in *; tauto.
Qed.
Lemma added_nodup o bs : NoDup (shown_labels bs) -> (forall l, In l (shown_labels bs) -> ~ In l datasets) ->
  NoDup (map fst (added data o bs)).
Proof.
  intros N D. apply (sub_nodup _ _ (added_sub o bs)). unfold added_candidates. apply candidates_nodup; [exact N| |].
  - destruct (dir o); distinct.
  - intros l I J. apply (D l I). destruct (dir o); cbn in *; tauto.
Qed.

Lemma drawn_added o bs n : In n (drawn o (shown_labels bs)) -> In n (map fst (added data o bs)).
Proof.
  unfold drawn, bparts, added. rewrite !map_app, !List.concat_app, !in_app_iff. rewrite body_files_names.
  intros H. repeat match type of H with _ \/ _ => destruct H as [H|H] end.
  - left. destruct (o_G o); exact H.
  - right. left. destruct (o_P o); exact H.
  - right. right. left. destruct (o_U o); exact H.
  - right. right. right. left. destruct (o_V o); [|exact H]. destruct (Nat.ltb 0 (o_Vsize o)); exact H.
  - do 4 right. left. destruct (o_S o); [cbn in *; tauto|exact H].
  - do 5 right. left. destruct (o_B o); [|destruct H]. rewrite map_labels in H by (intros l; reflexivity). exact H.
  - do 6 right. left. destruct (o_holder o); [cbn in *; tauto|destruct H].
  - do 6 right. left. destruct (o_spring o); [rewrite orb_true_r; cbn in *; tauto|destruct H].
  - do 7 right. left. destruct (o_bottom o); exact H.
  - do 8 right. left. destruct (o_near o); exact H.
  - do 9 right. destruct (o_find o); exact H.
Qed.

Lemma added_in o bs n : In n (map fst (added data o bs)) -> In n (shown_labels bs) \/ In n datasets.
Proof.
  intros I. apply (sub_in _ _ _ (added_sub o bs)) in I. unfold added_candidates in I. rewrite !in_app_iff in I.
  destruct I as [I|[I|I]]; [right|left; exact I|right]; destruct (dir o); cbn in *; tauto.
Qed.

Lemma dataset_name n : In n datasets -> quote_free n /\ ~ In n styles /\ ~ starts "/" n /\ ~ begins n.
Proof.
  intros I. repeat (destruct I as [<-|I]; [split; [apply quote_free_check; vm_compute; reflexivity|];
    split; [cbn; intuition discriminate|]; split; [intros (t & E); discriminate E|];
    intros (c & t & E & J); cbn in J; destruct J as [<-|[<-|[<-|[]]]]; discriminate E|]).
  destruct I.
Qed.

Lemma main_files head o bs : files (main_hdf vcirc vcirc3 data head o bs) = files (adds (added data o bs) new_plotter).
Proof. reflexivity. Qed.

Lemma exec_main fd head o bs :
  quote_free head -> (forall l, In l (shown_labels bs) -> ordinary l) -> NoDup (shown_labels bs) ->
  exec fd (main_hdf vcirc vcirc3 data head o bs)
  = head ++ plot_cmd (parts vcirc vcirc3 (descriptor fd) o (shown_labels bs)) ++ end_line.
Proof.
  intros QH OL NL.
  assert (ES : script (main_hdf vcirc vcirc3 data head o bs)
             = head ++ plot_cmd (parts vcirc vcirc3 (fun n => n) o (shown_labels bs)) ++ end_line).
  { unfold main_hdf. change (fold_left _ (added data o bs) new_plotter) with (adds (added data o bs) new_plotter).
    unfold write. cbn [script]. rewrite adds_script. reflexivity. }
  unfold exec. rewrite ES, main_files.
  assert (NM : forall n, In n (map fst (files (adds (added data o bs) new_plotter))) <-> In n (map fst (added data o bs))).
  { intros n. rewrite adds_names. cbn. tauto. }
  assert (ND : NoDup (map fst (files (adds (added data o bs) new_plotter)))).
  { apply sorted_names, adds_sorted. constructor. }
  assert (OK : forall n, In n (map fst (files (adds (added data o bs) new_plotter))) ->
    quote_free n /\ ~ In n styles /\ ~ starts "/" n /\ ~ begins n).
  { intros n I. apply NM in I. apply added_in in I. destruct I as [I|I]; [|exact (dataset_name n I)].
    destruct (OL n I) as (Q & S & _ & C). split; [exact Q|]. split; [exact S|]. split; [apply C; cbn; tauto|].
    intros (c & t & E & J). apply (C c); [cbn in *; tauto|]. exists t. exact E. }
  destruct (bparts o (shown_labels bs)) as [|p ps] eqn:EB.
  - assert (EP : forall ref, parts vcirc vcirc3 ref o (shown_labels bs) = []).
    { intros ref. apply (map_eq_nil quoted). rewrite bparts_quoted, EB. reflexivity. }
    rewrite !EP. cbn [plot_cmd append].
    pose proof (exec_blocks fd (files (adds (added data o bs) new_plotter)) (head ++ end_line) [] ND) as X.
    unfold text in X. cbn [map String.concat] in X. rewrite app_nil_s in X. apply X.
    + intros n I. destruct (OK n I) as (Q & _ & S & _). split; assumption.
    + apply quote_free_app. split; [exact QH|apply quote_free_check; reflexivity].
    + constructor.
    + intros b [].
  - assert (NE : bparts o (shown_labels bs) <> []) by (rewrite EB; discriminate). clear EB p ps.
    rewrite !(text_all _ (bparts o (shown_labels bs)) NE (bparts_full _ _) _ (bparts_quoted _ _ _)).
    rewrite <- !app_assoc_s. apply exec_blocks.
    + exact ND.
    + intros n I. destruct (OK n I) as (Q & _ & S & _). split; assumption.
    + apply quote_free_app. split; [|apply quote_free_check; vm_compute; reflexivity].
      apply quote_free_app. split; [exact QH|apply quote_free_check; vm_compute; reflexivity].
    + rewrite marked_all. apply drawn_nodup; [exact NL|]. intros l I. apply (OL l I).
    + intros b I. destruct (all_ok _ (bparts_ok o (shown_labels bs)) b I) as [[QA A] M]. split.
      * split; [exact QA|]. intros J. destruct (OK _ J) as (_ & S & _ & B). tauto.
      * destruct (mark b) eqn:EM.
        -- apply NM, drawn_added. unfold drawn. rewrite <- marked_all. unfold marked. apply in_map, filter_In. split; assumption.
        -- destruct (M eq_refl) as [Q S]. split; [exact Q|]. intros J. destruct (OK _ J) as (_ & S' & _). contradiction.
Qed.

Lemma get_main head o bs n s : (forall l, In l (shown_labels bs) -> ~ In l datasets) -> NoDup (shown_labels bs) ->
  In (n, s) (added data o bs) -> get (main_hdf vcirc vcirc3 data head o bs) n = Some s.
Proof.
  intros D N I. unfold main_hdf. rewrite get_write. apply adds_get; [|exact I]. apply added_nodup; assumption.
Qed.

Lemma drawn_part ref o labels n t : ~ In n styles -> (forall m, ref m = m) -> In (n, t) (parts vcirc vcirc3 ref o labels) -> In n (drawn o labels).
Proof.
  intros NS R. assert (NE : n <> "") by (intros ->; apply NS; left; reflexivity). clear NS.
  unfold parts, drawn, bparts. rewrite !map_app, !List.concat_app, !in_app_iff. unfold image. rewrite !R.
  intros H. repeat match type of H with _ \/ _ => destruct H as [H|H] end.
  - left. destruct (o_G o); [|exact H]. cbn in *. intuition congruence.
  - right. left. destruct (o_P o); [|exact H]. cbn in *. intuition congruence.
  - do 2 right. left. destruct (o_U o); [|exact H]. cbn in *. rewrite R in H. intuition congruence.
  - do 3 right. left. destruct (o_V o); [|exact H]. destruct (Nat.ltb 0 (o_Vsize o)); cbn in *; intuition congruence.
  - do 4 right. left. destruct (o_S o); [|exact H]. cbn in *. intuition congruence.
  - do 5 right. left. destruct (o_B o); [|exact H]. rewrite map_labels by (intros l; reflexivity).
    apply in_map_iff in H. destruct H as (l & E & I). rewrite R in E. congruence.
  - do 6 right. left. destruct (o_holder o); [|exact H]. cbn in *. intuition congruence.
  - do 7 right. left. destruct (o_spring o); [|exact H]. cbn in *. intuition congruence.
  - do 8 right. left. destruct (o_bottom o); [|exact H]. cbn in *. intuition congruence.
  - do 9 right. left. destruct (o_near o); [|exact H]. cbn in *. intuition congruence.
  - do 10 right. destruct (o_find o); [|exact H]. cbn in *. intuition congruence.
Qed.

End Script.
