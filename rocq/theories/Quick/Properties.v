(** C123, C124: gpquick and vvencode. *)

From Coq Require Import List ZArith Bool String Ascii Arith Lia DecimalString DecimalFacts DecimalNat.
From Verif.Store Require Model Proofs.
From Verif.Quick Require Import Model Spec Proofs.
Import ListNotations.
Local Open Scope string_scope.

Section Gpquick.
Context {F : Type} (showf : F -> string) (showi : Z -> string).

(** * C123: gpquick draws what was asked for *)

(** gnuplot gets settings, one plot and the end; the settings are those of the
    options, and what was not asked for is not set. *)
Theorem C123_partial : forall o : options F,
  (forall a, plain (showf a)) -> (forall z, plain (showi z)) -> plain (columns o) -> (forall n, output o = Some n -> no_quote n) ->
  exists cs plot,
    commands (script showf showi o) = Some (cs ++ [plot; "exit"])%list /\
    (forall c, In c cs -> after "plot" c = None /\ after "exit" c = None) /\
    setting "terminal" cs = Some ("pngcairo enhanced size " ++ showi (fst (size o)) ++ ", " ++ showi (snd (size o))) /\
    match output o with
    | Some n => exists t, setting "output" cs = Some t /\ unquote t = Some n
    | None => setting "output" cs = None
    end /\
    setting "xrange" cs = option_map (fun r => "[" ++ showf (fst r) ++ ":" ++ showf (snd r) ++ "]") (xrange o) /\
    setting "yrange" cs = option_map (fun r => "[" ++ showf (fst r) ++ ":" ++ showf (snd r) ++ "]") (yrange o) /\
    setting "size" cs = (if square o then Some "ratio -1" else None) /\
    (In "set grid ytics" cs <-> grid_ o = GX \/ grid_ o = GXY) /\ (In "set grid xtics" cs <-> grid_ o = GY \/ grid_ o = GXY) /\
    exists style, after ("plot '-' using " ++ columns o ++ " with linespoints ") plot = Some style /\
      ((points o = false -> after "lt 1 pt 0 " style <> None) /\
       (points o = true -> lines o = true -> after "lt 1 pt 7 " style <> None) /\
       (points o = true -> lines o = false -> after "lt 0 pt 7 " style <> None)).
Proof.
  intros o PF PI PC PO. exists (before showf showi o), (plot_cmd o). split; [apply commands_script; assumption|].
  assert (A : forall p s, after p (p ++ s) = Some s).
  { induction p as [|c p IH]; intros s; [reflexivity|]. cbn [append after]. rewrite Ascii.eqb_refl. apply IH. }
  split.
  { intros c. unfold before. rewrite !in_app_iff.
    intros [H|[H|[H|[H|[H|[H|[H|H]]]]]]]; [| | |destruct (square o)|destruct (xrange o) as [[a b]|]|destruct (yrange o) as [[a b]|]|destruct (has_x _)|destruct (has_y _)];
      try (destruct (output o)); cbn [In] in H; repeat (destruct H as [<-|H]); try destruct H; split; reflexivity. }
  unfold before. split.
  { destruct (output o), (square o), (xrange o) as [[a b]|], (yrange o) as [[a' b']|], (grid_ o); cbn [app has_x has_y range_cmd setting append after]; cbn; reflexivity. }
  split.
  { destruct (output o) as [n|] eqn:E.
    - exists ("'" ++ n ++ "'"). split; [|apply unquote_lit, PO; reflexivity].
      destruct (square o), (xrange o) as [[a b]|], (yrange o) as [[a' b']|], (grid_ o); reflexivity.
    - destruct (square o), (xrange o) as [[a b]|], (yrange o) as [[a' b']|], (grid_ o); reflexivity. }
  split; [destruct (output o), (square o), (xrange o) as [[a b]|], (yrange o) as [[a' b']|], (grid_ o); reflexivity|].
  split; [destruct (output o), (square o), (xrange o) as [[a b]|], (yrange o) as [[a' b']|], (grid_ o); reflexivity|].
  split; [destruct (output o), (square o), (xrange o) as [[a b]|], (yrange o) as [[a' b']|], (grid_ o); reflexivity|].
  assert (G : forall t, (t = "set grid ytics" \/ t = "set grid xtics") ->
    (In t (before showf showi o) <-> (has_x (grid_ o) = true /\ t = "set grid ytics") \/ (has_y (grid_ o) = true /\ t = "set grid xtics"))).
  { intros t Ht. unfold before. rewrite !in_app_iff. split.
    - intros [H|[H|[H|[H|[H|[H|[H|H]]]]]]].
      + destruct H as [<-|[]]. destruct Ht; discriminate.
      + destruct (output o); [|destruct H]. destruct H as [<-|[]]. destruct Ht; discriminate.
      + destruct H as [<-|[]]. destruct Ht; discriminate.
      + destruct (square o); [|destruct H]. destruct H as [<-|[]]. destruct Ht; discriminate.
      + destruct (xrange o) as [[a b]|]; [|destruct H]. destruct H as [<-|[]]. destruct Ht; discriminate.
      + destruct (yrange o) as [[a b]|]; [|destruct H]. destruct H as [<-|[]]. destruct Ht; discriminate.
      + destruct (has_x _); [|destruct H]. destruct H as [<-|[]]. left; split; reflexivity.
      + destruct (has_y _); [|destruct H]. destruct H as [<-|[]]. right; split; reflexivity.
    - intros [[-> ->]|[-> ->]]; [do 6 right; left; left; reflexivity|do 7 right; left; reflexivity]. }
  split.
  { rewrite (G _ (or_introl eq_refl)). destruct (grid_ o); cbn [has_x has_y]; intuition discriminate. }
  split.
  { rewrite (G _ (or_intror eq_refl)). destruct (grid_ o); cbn [has_x has_y]; intuition discriminate. }
  exists ("lt " ++ style_lt o ++ " pt " ++ style_pt o ++ " lc rgb 'black'"). split.
  { unfold plot_cmd. rewrite <- (A ("plot '-' using " ++ columns o ++ " with linespoints ")). rewrite !app_assoc_s. reflexivity. }
  unfold style_lt, style_pt. destruct (points o), (lines o); cbn; repeat split; intros; discriminate.
Qed.

(** gnuplot runs exactly if a picture was named; the script is printed if it was
    asked for or nothing runs; the exit status is 0 exactly if gnuplot ends well. *)
Theorem C123_run : forall wait (o : options F) printed ran status,
  main showf showi wait o = (printed, ran, status) ->
  (ran = None <-> output o = None) /\ (forall s, ran = Some s -> s = script showf showi o) /\
  (printed = script showf showi o ++ nl <-> dump o = true \/ output o = None) /\
  (printed = "" <-> dump o = false /\ output o <> None) /\
  ((-255 <= wait (script showf showi o) <= 255)%Z -> output o <> None -> (status = 0%Z <-> wait (script showf showi o) = 0%Z)).
Proof.
  intros wait o printed ran status. unfold main.
  assert (N : script showf showi o ++ nl <> "") by (destruct (script showf showi o); discriminate).
  destruct (output o) as [n|]; intros H; injection H as <- <- <-.
  - split; [split; discriminate|]. split; [intros s H; injection H as <-; reflexivity|]. rewrite orb_false_r. destruct (dump o).
    + split; [tauto|]. split; [split; [intros H; destruct (N H)|intros [H _]; discriminate H]|]. intros L _.
      split; intros H; [|rewrite H; reflexivity]. apply Z.mod_divide in H; [|discriminate]. destruct H as [k Hk]. assert (k = 0%Z) by lia. lia.
    + split; [split; [intros H; destruct N; symmetry; exact H|intros [H|H]; discriminate H]|]. split; [split; [split; [reflexivity|discriminate]|reflexivity]|]. intros L _.
      split; intros H; [|rewrite H; reflexivity]. apply Z.mod_divide in H; [|discriminate]. destruct H as [k Hk]. assert (k = 0%Z) by lia. lia.
  - split; [tauto|]. split; [discriminate|]. rewrite orb_true_r. split; [tauto|]. split; [split; [intros H; destruct (N H)|intros [_ H]; destruct H; reflexivity]|].
    intros _ H. destruct H. reflexivity.
Qed.

(** A name with an apostrophe is not that of the picture: gnuplot does not even
    find the end of the script. *)
Theorem C123_quote_refuted : forall size_, (forall z, plain (showi z)) ->
  let o : options F := mkOptions (Some "it's.png") false false "1:2" false None None GNone size_ false in
  commands (script showf showi o) = None.
Proof.
  intros size_ PI o. unfold script, script_lines, o. cbn [output lines points columns square xrange yrange grid_ size dump range_line has_x has_y style_lt style_pt negb app].
  rewrite concat_fold. cbn [fold_right]. unfold commands.
  rewrite (closed_lit "set terminal pngcairo enhanced" eq_refl). rewrite !app_assoc_s.
  rewrite (closed_lit " size " eq_refl), (closed_plain _ (PI _)), (closed_lit ", " eq_refl), (closed_plain _ (PI _)). reflexivity.
Qed.

(** Or gnuplot is given other commands. *)
Theorem C123_command_refuted : forall size_, (forall z, plain (showi z)) ->
  exists (o : options F) cs, size o = size_ /\ commands (script showf showi o) = Some cs /\ In " system('reboot')" cs.
Proof.
  intros size_ PI.
  exists (mkOptions (Some "a'; system('reboot'); set output 'b") false false "1:2" false None None GNone size_ false).
  eexists. split; [reflexivity|]. unfold script, script_lines.
  cbn [output lines points columns square xrange yrange grid_ size dump range_line has_x has_y style_lt style_pt negb app].
  rewrite concat_fold. cbn [fold_right]. unfold commands.
  rewrite (closed_lit "set terminal pngcairo enhanced" eq_refl). rewrite !app_assoc_s.
  rewrite (closed_lit " size " eq_refl), (closed_plain _ (PI _)), (closed_lit ", " eq_refl), (closed_plain _ (PI _)).
  match goal with |- context [split false ?w ?t] =>
    assert (X : forall v, split false v t = Some (v :: "" :: "set output 'a'" :: " system('reboot')" :: " set output 'b'" :: "" :: "unset key" :: "" ::
      "plot '-' using 1:2 with linespoints lt 1 pt 0 lc rgb 'black'" :: "" :: "exit" :: "" :: "" :: nil)%list) by (intros v; vm_compute; reflexivity); rewrite (X w) end.
  cbn [option_map]. split; [reflexivity|]. apply filter_In. split; [do 3 right; left; reflexivity|reflexivity].
Qed.
End Gpquick.

Example C123_ex :
  let o : options nat := mkOptions (Some "a;b.png") false true "2:3" true (Some (1, 2)) None GX (640%Z, 480%Z) false in
  let show n := Store.Model.decimal n in
  commands (script show (fun z => show (Z.to_nat z)) o) = Some
    ["set terminal pngcairo enhanced size 640, 480"; "set output 'a;b.png'"; "unset key"; "set size ratio -1";
     "set xrange [1:2]"; "set grid ytics"; "plot '-' using 2:3 with linespoints lt 0 pt 7 lc rgb 'black'"; "exit"].
Proof. reflexivity. Qed.

(** * C124: vvencode shows its usage if arguments are missing *)

Lemma less2 s : text_less s "2" = true <-> s = "" \/ exists c t, s = String c t /\ (nat_of_ascii c < 50)%nat.
Proof.
  destruct s as [|c t]; [cbn; tauto|]. cbn [text_less]. destruct (Ascii.eqb_spec c "2") as [->|N].
  - split; [destruct t; discriminate|]. intros [H|(c & u & H & L)]; [discriminate|]. injection H as <- _. cbn in L. lia.
  - change (nat_of_ascii "2") with 50%nat. rewrite Nat.ltb_lt. split; [intros H; right; exists c, t; tauto|].
    intros [H|(c' & u & H & L)]; [discriminate|]. injection H as <- _. exact L.
Qed.

(** The number with these digits. *)
Fixpoint number (d : Decimal.uint) : nat :=
  match d with
  | Decimal.Nil => 0
  | Decimal.D0 d => 0 * 10 ^ Decimal.nb_digits d + number d
  | Decimal.D1 d => 1 * 10 ^ Decimal.nb_digits d + number d
  | Decimal.D2 d => 2 * 10 ^ Decimal.nb_digits d + number d
  | Decimal.D3 d => 3 * 10 ^ Decimal.nb_digits d + number d
  | Decimal.D4 d => 4 * 10 ^ Decimal.nb_digits d + number d
  | Decimal.D5 d => 5 * 10 ^ Decimal.nb_digits d + number d
  | Decimal.D6 d => 6 * 10 ^ Decimal.nb_digits d + number d
  | Decimal.D7 d => 7 * 10 ^ Decimal.nb_digits d + number d
  | Decimal.D8 d => 8 * 10 ^ Decimal.nb_digits d + number d
  | Decimal.D9 d => 9 * 10 ^ Decimal.nb_digits d + number d
  end.
Lemma of_uint_acc d : forall a, Nat.of_uint_acc d a = (a * 10 ^ Decimal.nb_digits d + number d)%nat.
Proof.
  induction d; intros a; cbn [Nat.of_uint_acc Decimal.nb_digits number]; [cbn; lia|..];
    rewrite Nat.pow_succ_r', IHd, Nat.tail_mul_spec; generalize (10 ^ Decimal.nb_digits d)%nat; intros p; ring.
Qed.
Lemma number_lt d : (number d < 10 ^ Decimal.nb_digits d)%nat.
Proof. induction d; cbn [number Decimal.nb_digits]; rewrite ?Nat.pow_succ_r'; cbn [Nat.pow]; lia. Qed.

(** The usage is shown exactly for the numbers that begin with the digit 1, and 0. *)
Theorem C124_usage : forall n, shows_usage n = true <-> n = 0%nat \/ exists k, (10 ^ k <= n < 2 * 10 ^ k)%nat.
Proof.
  intros n. unfold shows_usage. rewrite less2. unfold Store.Model.decimal.
  pose proof (Unsigned.of_to n) as E. unfold Nat.of_uint in E. rewrite of_uint_acc in E. cbn [Nat.mul Nat.add] in E.
  pose proof (Unsigned.to_of (Nat.to_uint n)) as U. rewrite Unsigned.of_to in U.
  assert (T : forall d m, (m < 10)%nat -> (m * 10 ^ Decimal.nb_digits d + number d = n)%nat -> (2 <= m)%nat ->
    ~ (n = 0%nat \/ exists k, (10 ^ k <= n < 2 * 10 ^ k)%nat)).
  { intros d m Hm Hn H2. pose proof (number_lt d) as D. set (j := Decimal.nb_digits d) in *.
    pose proof (Nat.pow_nonzero 10 j ltac:(lia)) as J. intros [Z|(k & L & H)]; [nia|].
    destruct (Nat.le_gt_cases k j) as [K|K].
    - pose proof (Nat.pow_le_mono_r 10 k j ltac:(lia) K). nia.
    - assert (Q : (10 ^ Datatypes.S j <= 10 ^ k)%nat) by (apply Nat.pow_le_mono_r; lia). rewrite Nat.pow_succ_r' in Q. nia. }
  assert (B : forall d m c, Nat.to_uint n = d -> (exists t, NilEmpty.string_of_uint d = String c t) -> (50 <= nat_of_ascii c)%nat ->
    (exists d', (m * 10 ^ Decimal.nb_digits d' + number d' = n)%nat) -> (2 <= m < 10)%nat ->
    (NilEmpty.string_of_uint d = "" \/ (exists c t, NilEmpty.string_of_uint d = String c t /\ (nat_of_ascii c < 50)%nat)) <-> n = 0%nat \/ (exists k, (10 ^ k <= n < 2 * 10 ^ k)%nat)).
  { intros d m c _ (t & Ht) Hc (d' & Hd) Hm. rewrite Ht. split.
    - intros [H|(c' & t' & H & L)]; [discriminate|]. injection H as <- _. lia.
    - intros H. destruct (T d' m (proj2 Hm) Hd (proj1 Hm) H). }
  destruct (Nat.to_uint n) as [|d|d|d|d|d|d|d|d|d|d] eqn:X; cbn [number] in E.
  - split; intros _; left; [symmetry; exact E|reflexivity].
  - split; intros _; [|right; eexists _, _; split; [reflexivity|cbn; lia]]. left.
    rewrite DecimalFacts.unorm_D0 in U. destruct (Decimal.nzhead d) eqn:N; try (unfold Decimal.unorm in U; rewrite N in U; discriminate U).
    + assert (Z : Decimal.unorm d = Decimal.zero) by (apply DecimalFacts.unorm_0, N). rewrite Z in U. injection U as ->. cbn in E. lia.
    + destruct (DecimalFacts.nzhead_nonzero d u N).
  - split; intros _; [|right; eexists _, _; split; [reflexivity|cbn; lia]]. right. exists (Decimal.nb_digits d). pose proof (number_lt d). lia.
  - eapply (B _ 2%nat); [reflexivity|eexists; reflexivity|cbn; lia|exists d; exact E|lia].
  - eapply (B _ 3%nat); [reflexivity|eexists; reflexivity|cbn; lia|exists d; exact E|lia].
  - eapply (B _ 4%nat); [reflexivity|eexists; reflexivity|cbn; lia|exists d; exact E|lia].
  - eapply (B _ 5%nat); [reflexivity|eexists; reflexivity|cbn; lia|exists d; exact E|lia].
  - eapply (B _ 6%nat); [reflexivity|eexists; reflexivity|cbn; lia|exists d; exact E|lia].
  - eapply (B _ 7%nat); [reflexivity|eexists; reflexivity|cbn; lia|exists d; exact E|lia].
  - eapply (B _ 8%nat); [reflexivity|eexists; reflexivity|cbn; lia|exists d; exact E|lia].
  - eapply (B _ 9%nat); [reflexivity|eexists; reflexivity|cbn; lia|exists d; exact E|lia].
Qed.

(** With less than two arguments it is shown, as it says. *)
Theorem C124_partial : forall n, (n < 2)%nat -> shows_usage n = true.
Proof. intros n H. apply C124_usage. destruct n; [left; reflexivity|]. right. exists 0%nat. cbn. lia. Qed.

(** But with ten arguments, and with infinitely many other numbers, although
    nothing is missing. *)
Theorem C124_refuted : shows_usage 10 = true /\ forall n, exists m, (n < m)%nat /\ shows_usage m = true.
Proof.
  split; [reflexivity|]. intros n. exists (10 ^ n)%nat. split; [apply Nat.pow_gt_lin_r; lia|]. apply C124_usage. right. exists n.
  pose proof (Nat.pow_nonzero 10 n ltac:(lia)). lia.
Qed.

Example C124_ex : map shows_usage [0; 1; 2; 3; 9; 10; 19; 20]%nat = [true; true; false; false; false; true; true; false].
Proof. reflexivity. Qed.

Print Assumptions C123_partial.
Print Assumptions C123_run.
Print Assumptions C123_quote_refuted.
Print Assumptions C123_command_refuted.
Print Assumptions C124_usage.
Print Assumptions C124_partial.
Print Assumptions C124_refuted.
