(** Proofs about command lines. *)

From Coq Require Import List ZArith Bool String Ascii Lia Reals.
From Flocq Require Import Core.Core IEEE754.BinarySingleNaN.
From Verif Require Import Base.Num Base.F64 Opt.Getopt Opt.Model Opt.Spec.
Import ListNotations.
Local Open Scope string_scope.

Lemma getopt_plain ls ll s rest : plain s -> getopt ls ll (s :: rest) = let '(evs, o) := getopt ls ll rest in (evs, s :: o).
Proof.
  intros [->|P]; [reflexivity|]. destruct s as [|c s]; [reflexivity|].
  destruct c as [[] [] [] [] [] [] [] []]; try reflexivity. now destruct (P s).
Qed.
Lemma getopt_end ls ll rest : getopt ls ll ("--" :: rest) = ([], rest).
Proof. reflexivity. Qed.

(** ** vvflow *)

Definition event_of (w : wish) : event :=
  match w with
  | Progress b => Long (if b then 4 else 3) None
  | Profile b => Long (if b then 6 else 5) None
  | Sensors f => Long 2 (Some f)
  end.
Definition act (w : wish) (f : flow) : flow :=
  match w with
  | Progress b => mkFlow (save_profile f) (num b) (sensors_file f)
  | Profile b => mkFlow (num b) (show_progress f) (sensors_file f)
  | Sensors s => mkFlow (save_profile f) (show_progress f) (Some s)
  end.
Lemma written_event w text : written w text -> exists e, (forall f, flow_event e f = Go (act w f)) /\
  forall rest, getopt flow_letters flow_long (app text rest) = let '(evs, o) := getopt flow_letters flow_long rest in (e :: evs, o).
Proof.
  intros W. destruct W; try (exists (event_of (Progress true)); split; reflexivity); try (exists (event_of (Progress false)); split; reflexivity);
    try (exists (event_of (Profile true)); split; reflexivity); try (exists (event_of (Profile false)); split; reflexivity).
  - exists (Long 2 (Some f)). split; reflexivity.
  - exists (Long 2 (Some f)). split; reflexivity.
  - exists (Short "s" (Some f)). split; reflexivity.
  - exists (Short "s" (Some f)). split; [reflexivity|]. intros rest. destruct f as [|c f]; [contradiction|]. reflexivity.
Qed.
Definition acts (items : list item) (f : flow) : flow := fold_left (fun f i => match i with Other _ => f | Wish w => act w f end) items f.
Lemma says_events items args : says items args -> exists evs, (forall f, each flow_event evs f = Go (acts items f)) /\
  forall rest, getopt flow_letters flow_long (app args rest) = let '(evs', o) := getopt flow_letters flow_long rest in (app evs evs', app (others items) o).
Proof.
  induction 1 as [|s items args P _ (evs & A & G)|w text items args W _ (evs & A & G)].
  - exists []. split; [reflexivity|]. intros rest. cbn [app]. now destruct (getopt flow_letters flow_long rest).
  - exists evs. split; [exact A|]. intros rest. change (app (s :: args) rest) with (s :: app args rest). rewrite getopt_plain by exact P. rewrite G.
    now destruct (getopt flow_letters flow_long rest).
  - destruct (written_event w text W) as (e & E & T). exists (e :: evs). split.
    + intros f. cbn [each]. rewrite E. apply A.
    + intros rest. rewrite <- app_assoc, T, G. now destruct (getopt flow_letters flow_long rest).
Qed.
Lemma last_said_snoc {A} (f : item -> option A) items i d : last_said f (app items [i]) d = match f i with Some a => a | None => last_said f items d end.
Proof. unfold last_said. rewrite rev_app_distr. cbn [rev app flat_map]. now destruct (f i). Qed.
Lemma acts_obeys items : obeys items (acts items flow_start).
Proof.
  induction items as [|i items IH] using rev_ind; [repeat split|]. unfold acts in *. rewrite fold_left_app. cbn [fold_left].
  destruct IH as (A & B & C). unfold obeys. rewrite !last_said_snoc.
  destruct i as [s|[b|b|f]]; cbn; repeat split; assumption.
Qed.

(** ** vvplot *)

Lemma range_ok (a b : f64) : is_finite a && is_finite b && @nleb F64 a b = true -> finite_range a b.
Proof.
  intros H. apply andb_prop in H as [H L]. apply andb_prop in H as [A B]. split; [exact A|]. split; [exact B|]. now apply f64_leb_true.
Qed.
Lemma not_inf (x : f64) : negb (@isinf F64 x) = true -> is_finite x = true \/ x = f64_nan.
Proof. destruct x as [s|s| |s m e]; cbn; intros H; try (now left); now right. Qed.
Lemma positive_ok (x : f64) : @nltb F64 (nofZ 0) x = true -> positive x.
Proof.
  intros H. destruct x as [s|s| |s m e H0]; [now destruct s|destruct s; [discriminate|now left]|discriminate|]. right. split; [reflexivity|].
  apply f64_ltb_true in H; [exact H|reflexivity|reflexivity].
Qed.
Lemma zero_le (x : f64) : is_finite x = true -> @nleb F64 (nofZ 0) x = true -> (0 <= B2R x)%R.
Proof. intros F H. apply f64_leb_true in H; [exact H|reflexivity|exact F]. Qed.

Ltac keep H := constructor;
  first [exact (ok_V _ H)|exact (ok_S _ H)|exact (ok_G _ H)|exact (ok_P _ H)|exact (ok_U _ H)|exact (ok_ref_xy _ H)|exact (ok_ref_S _ H)|exact (ok_ref_P _ H)
        |exact (ok_size _ H)|exact (ok_res _ H)|exact (ok_eps _ H)|exact (ok_rect _ H)|exact (ok_field _ H)|exact (ok_format _ H)|idtac].

Section Steps.
Variable scan_int : string -> option (Z * string).
Variable scan_num : string -> option (F64 * string).
Notation step := (@plot_event F64 scan_int scan_num).

Lemma start_valid : valid (@plot_start F64 f64_nan).
Proof.
  constructor.
  - cbn. lia.
  - left. repeat split.
  - split; [reflexivity|]. apply Rle_refl.
  - apply range_ok. vm_compute. reflexivity.
  - left. split; reflexivity.
  - cbn. tauto.
  - cbn. tauto.
  - cbn. tauto.
  - cbn. lia.
  - cbn. lia.
  - apply positive_ok. vm_compute. reflexivity.
  - intros x [<-|[<-|[<-|[<-|[]]]]]; left; reflexivity.
  - left. reflexivity.
  - left. reflexivity.
Qed.

Lemma check_go {K : Num} ok (p q : @plot K) : check ok p = Go q -> ok = true /\ q = p.
Proof. unfold check. destruct ok; [|discriminate]. intros E. split; [reflexivity|]. congruence. Qed.
Lemma go_inj {A} (a b : A) : Go a = Go b -> a = b.
Proof. congruence. Qed.

Lemma flag_valid v x p : valid p -> v <> "ofmt" \/ x = 1%Z \/ x = 2%Z -> valid (@plot_flag F64 v x p).
Proof.
  intros H X. unfold plot_flag. destruct (String.eqb_spec v "ofmt") as [->|N].
  - destruct X as [X|X]; [contradiction|]. keep H. exact X.
  - repeat match goal with |- valid (if ?b then _ else _) => destruct b end; keep H.
Qed.
Lemma value_valid c t p q : valid p -> @plot_value F64 scan_int scan_num c t p = Go q -> valid q.
Proof.
  intros H. unfold plot_value.
  destruct (Z.eqb c (code "x")).
  { destruct (two_nums scan_num t) as [[a b]|]; [|discriminate]. intros E. apply check_go in E as [E ->]. apply andb_prop in E as [A B].
    keep H. intros x [<-|[<-|I]]; [now apply not_inf|now apply not_inf|apply (ok_rect _ H); right; right; exact I]. }
  destruct (Z.eqb c (code "y")).
  { destruct (two_nums scan_num t) as [[a b]|]; [|discriminate]. intros E. apply check_go in E as [E ->]. apply andb_prop in E as [A B].
    keep H. intros x [<-|[<-|[<-|[<-|[]]]]]; [apply (ok_rect _ H); now left|apply (ok_rect _ H); right; now left|now apply not_inf|now apply not_inf]. }
  destruct (Z.eqb c (code "s")).
  { destruct (dims scan_int t) as [[w h]|]; [|discriminate]. intros E. apply check_go in E as [E ->]. apply andb_prop in E as [A B]. apply Z.leb_le in A, B.
    keep H. now split. }
  destruct (Z.eqb c 0xff00).
  { destruct (one_int scan_int t) as [n|]; [|discriminate]. intros E. apply check_go in E as [E ->]. apply Z.ltb_lt in E. keep H. split; [exact E|apply (ok_res _ H)]. }
  destruct (Z.eqb c 0xff01).
  { destruct (one_int scan_int t) as [n|]; [|discriminate]. intros E. apply check_go in E as [E ->]. apply Z.ltb_lt in E. keep H. split; [apply (ok_res _ H)|exact E]. }
  destruct (Z.eqb c 0xff02).
  { destruct (one_num scan_num t) as [n|]; [|discriminate]. intros E. apply check_go in E as [E ->]. keep H. now apply positive_ok. }
  destruct (Z.eqb c 0xfe10).
  { repeat match goal with |- (if ?b then _ else _) = _ -> _ => destruct b; [intros E; apply go_inj in E; subst q; keep H; cbn; tauto|] end. discriminate. }
  destruct (Z.eqb c 0xfe11).
  { destruct (one_char t) as [r|]; [|discriminate]. intros E. apply check_go in E as [E ->]. keep H. cbn.
    apply orb_prop in E as [E|E]; [apply orb_prop in E as [E|E]|]; apply Ascii.eqb_eq in E; subst r; tauto. }
  destruct (Z.eqb c 0xfe12).
  { destruct (one_char t) as [r|]; [|discriminate]. intros E. apply check_go in E as [E ->]. keep H. cbn.
    apply orb_prop in E as [E|E]; [apply orb_prop in E as [E|E]; [apply orb_prop in E as [E|E]|]|]; apply Ascii.eqb_eq in E; subst r; tauto. }
  destruct (Z.eqb c 0xff10); [|discriminate]. intros E. apply go_inj in E. subst q. keep H.
Qed.
Lemma case_valid c axis a p q : valid p -> (c = code "U" -> axis = None \/ axis = Some "x"%char \/ axis = Some "y"%char) ->
  @plot_case F64 scan_int scan_num c axis a p = Go q -> valid q.
Proof.
  intros H AX. unfold plot_case.
  destruct (Z.eqb c (code "v")); [discriminate|]. destruct (Z.eqb c (code "h")); [discriminate|].
  destruct (Z.eqb c (code "B")); [intros E; apply go_inj in E; subst q; keep H|].
  destruct (Z.eqb c (code "V")).
  { cbv zeta. destruct a as [t|]; [|intros E; apply go_inj in E; subst q; keep H].
    destruct (one_int scan_int t) as [n|]; [|discriminate]. intros E. apply check_go in E as [E ->]. apply Z.leb_le in E. keep H. exact E. }
  destruct (Z.eqb c (code "S")).
  { cbv zeta. destruct a as [t|]; [|intros E; apply go_inj in E; subst q; keep H].
    destruct (three_nums scan_num t) as [[[x y] d]|]; [|discriminate]. intros E. apply check_go in E as [E ->].
    apply andb_prop in E as [E D]. apply andb_prop in E as [E F]. keep H. right. split; [now apply range_ok|]. split; [exact F|].
    apply f64_ltb_true in D; [exact D|reflexivity|exact F]. }
  destruct (Z.eqb c (code "G")).
  { cbv zeta. destruct a as [t|]; [|intros E; apply go_inj in E; subst q; keep H; right; left; reflexivity].
    destruct (one_num scan_num t) as [g|]; [|discriminate]. intros E. apply check_go in E as [E ->]. apply andb_prop in E as [F L].
    keep H; [split; [exact F|now apply zero_le]|right; left; reflexivity]. }
  destruct (Z.eqb c (code "P")).
  { cbv zeta. destruct a as [t|]; [|intros E; apply go_inj in E; subst q; keep H; right; right; left; reflexivity].
    destruct (two_nums scan_num t) as [[x y]|]; [|discriminate]. intros E. apply check_go in E as [E ->].
    keep H; [now apply range_ok|right; right; left; reflexivity]. }
  destruct (Z.eqb_spec c (code "U")) as [EU|_].
  { destruct a as [t|]; [|discriminate]. destruct axis as [u|].
    - destruct (two_nums scan_num t) as [[x y]|]; [|discriminate]. intros E. apply check_go in E as [E ->].
      keep H; [right; now apply range_ok|]. destruct (AX EU) as [A|[A|A]]; [discriminate| |]; injection A as ->; cbn; tauto.
    - destruct (one_char t) as [u|]; [|discriminate]. intros E. apply check_go in E as [E ->]. keep H. apply orb_prop in E as [E|E]; apply Ascii.eqb_eq in E; subst u; cbn; tauto. }
  destruct a as [t|]; [|discriminate]. now apply value_valid.
Qed.
Lemma event_valid e p q : valid p -> step e p = Go q -> valid q.
Proof.
  intros H. destruct e as [c a|i a|]; cbn [plot_event]; [| |discriminate].
  - apply case_valid; [exact H|]. intros _. now left.
  - destruct (nth_error plot_long i) as [o|] eqn:N; [|discriminate].
    assert (X : (flag o = Some "ofmt" -> val o = 1%Z \/ val o = 2%Z) /\ (val o = code "U" -> String.get 1 (lname o) = Some "x"%char \/ String.get 1 (lname o) = Some "y"%char)).
    { apply nth_error_In in N. cbn in N. repeat (destruct N as [<-|N]; [split; cbn; intros E; try discriminate E; auto|]). destruct N. }
    destruct (flag o) as [v|].
    + intros E. apply go_inj in E. subst q. apply flag_valid; [exact H|]. destruct (String.string_dec v "ofmt") as [->|D]; [right; now apply X|now left].
    + apply case_valid; [exact H|]. intros E. right. now apply X.
Qed.
Lemma each_valid evs p q : valid p -> each step evs p = Go q -> valid q.
Proof.
  revert p. induction evs as [|e evs IH]; intros p H; cbn [each]; [intros E; apply go_inj in E; now subst|].
  destruct (step e p) as [n|p'] eqn:E; [discriminate|]. apply IH. now apply (event_valid e p).
Qed.
End Steps.

(** ** Names of pictures *)

Lemma free_cons c x s : free c (String x s) <-> x <> c /\ free c s.
Proof.
  split.
  - intros H. split; [intros ->; now apply (H 0%nat)|]. intros n E. now apply (H (S n)).
  - intros [N H] [|n] E; cbn in E; [congruence|]. now apply (H n).
Qed.
Lemma free_app c a b : free c (a ++ b) <-> free c a /\ free c b.
Proof.
  induction a as [|x a IH]; cbn [append].
  - split; [intros H; split; [intros n; now destruct n|exact H]|now intros [_ H]].
  - rewrite !free_cons, IH. tauto.
Qed.
Lemma base_free s : free "/" s -> basename s = s.
Proof.
  induction s as [|c s IH]; intros H; cbn [basename]; [reflexivity|]. apply free_cons in H as [N H]. rewrite (IH H), String.eqb_refl.
  destruct (Ascii.eqb_spec c "/"); [contradiction|reflexivity].
Qed.
Lemma base_len s : String.length (basename s) <= String.length s.
Proof.
  induction s as [|c s IH]; cbn [basename]; [lia|]. destruct (Ascii.eqb c "/"); [cbn; lia|]. destruct (String.eqb (basename s) s); cbn; lia.
Qed.
Lemma base_dir d s : free "/" s -> basename (d ++ "/" ++ s) = s.
Proof.
  intros H. induction d as [|c d IH]; cbn [append basename].
  - now rewrite base_free.
  - change (basename (d ++ String "/" s)) with (basename (d ++ "/" ++ s)). rewrite IH. destruct (Ascii.eqb c "/"); [reflexivity|].
    destruct (String.eqb_spec s (d ++ String "/" s)) as [E|_]; [|reflexivity]. exfalso. apply (f_equal String.length) in E.
    assert (L : forall a b, String.length (a ++ b) = String.length a + String.length b) by (induction a; cbn; intros; congruence).
    rewrite L in E. cbn in E. lia.
Qed.
Lemma dot_free s : free "." s -> has_dot s = false.
Proof. induction s as [|c s IH]; intros H; cbn; [reflexivity|]. apply free_cons in H as [N H]. rewrite (IH H). destruct (Ascii.eqb_spec c "."); [contradiction|reflexivity]. Qed.
Lemma dot_has a b : has_dot (a ++ String "." b) = true.
Proof. induction a as [|c a IH]; cbn; [reflexivity|]. rewrite IH. apply orb_true_r. Qed.
Lemma stem_ext base ext : free "." ext -> stem (base ++ "." ++ ext) = base.
Proof.
  intros H. induction base as [|c base IH]; cbn [append stem].
  - rewrite (dot_free ext H). reflexivity.
  - change (base ++ String "." ext) with (base ++ "." ++ ext). rewrite IH. replace (has_dot (base ++ "." ++ ext)) with true by (symmetry; apply dot_has). reflexivity.
Qed.
Lemma names_stem input base ext : names input base ext -> stem (basename input) = base.
Proof.
  intros (B & E & D & N). assert (F : free "/" (base ++ "." ++ ext)) by (apply free_app; split; [exact B|]; apply free_cons; split; [discriminate|exact E]).
  destruct N as [->|(dir & ->)]; [rewrite base_free by exact F|rewrite base_dir by exact F]; now apply stem_ext.
Qed.
Lemma app_left_s a b c : a ++ b = a ++ c -> b = c.
Proof. induction a as [|x a IH]; cbn; intros E; [exact E|]. apply IH. congruence. Qed.
Lemma app_right_s a b u : a ++ u = b ++ u -> a = b.
Proof.
  assert (L : forall a b, String.length (a ++ b) = String.length a + String.length b) by (induction a0; cbn; intros; congruence).
  revert b. induction a as [|x a IH]; intros [|y b] H; cbn in H; [reflexivity| | |].
  - apply (f_equal String.length) in H. cbn in H. rewrite L in H. lia.
  - apply (f_equal String.length) in H. cbn in H. rewrite L in H. lia.
  - assert (x = y) as -> by congruence. f_equal. apply IH. congruence.
Qed.
