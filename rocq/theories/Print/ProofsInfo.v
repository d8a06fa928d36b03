From Coq Require Import ZArith Bool List String Ascii Reals Lia Lra.
From Verif.Base Require Import Num.
From Verif.Lua Require Import ModelMembers.
From Verif.Store Require Model.
From Verif.Print Require Import Model Spec Proofs ModelInfo SpecInfo.
Import ListNotations.
Local Open Scope string_scope.

Lemma drop_app p s : drop p (p ++ s) = Some s.
Proof. induction p as [|c p IH]; [reflexivity|]. cbn [append drop]. rewrite Ascii.eqb_refl. exact IH. Qed.

Lemma upto_app c a s : ~ In c (list_ascii_of_string a) -> upto c (a ++ String c s) = (a, Some s).
Proof.
  induction a as [|d a IH]; intros H; cbn [append upto].
  - rewrite Ascii.eqb_refl. reflexivity.
  - cbn in H. destruct (Ascii.eqb_spec c d) as [->|]; [tauto|]. rewrite IH by tauto. reflexivity.
Qed.
Lemma upto_none c a : ~ In c (list_ascii_of_string a) -> upto c a = (a, None).
Proof.
  induction a as [|d a IH]; intros H; cbn [upto]; [reflexivity|].
  cbn in H. destruct (Ascii.eqb_spec c d) as [->|]; [tauto|]. rewrite IH by tauto. reflexivity.
Qed.

Lemma word_free c a : ~ word_char c -> word a -> ~ In c (list_ascii_of_string a).
Proof. intros H W I. unfold word in W. rewrite Forall_forall in W. exact (H (W c I)). Qed.
Ltac no_char := unfold word_char; cbn; let H := fresh in intros H; repeat (destruct H as [H|H]; [discriminate H|]); exact H.
Lemma no_comma : ~ word_char ",". Proof. no_char. Qed.
Lemma no_brace : ~ word_char "}". Proof. no_char. Qed.
Lemma no_blank : ~ word_char " ". Proof. no_char. Qed.
Lemma no_quote : ~ word_char "'". Proof. no_char. Qed.
Lemma no_slash : ~ word_char "\". Proof. no_char. Qed.
Lemma no_newline : ~ word_char "010". Proof. no_char. Qed.

Lemma num_word x : word (num x).
Proof. apply show_g_word. Qed.
Lemma num_read x : exists v, read (num x) = Some v /\ near x v.
Proof.
  unfold num, near. set (y := of_double x).
  destruct y as [s|s|s|s m d] eqn:E.
  - exists (VNaN s). destruct s; split; try reflexivity; exact I.
  - exists (VInf s). destruct s; split; reflexivity.
  - exists (Dec s 0 0). split; [destruct s; reflexivity|]. cbn [real].
    replace (signed s (IZR 0 * powerRZ 10 0) - 0)%R with 0%R by (destruct s; simpl; ring). rewrite Rabs_R0. lra.
  - destruct (show_g_printed 6 (Fin s m d) ltac:(lia) I) as (b & n & e & R & V).
    exists (Dec b n e). split; [exact R|]. rewrite <- V. pose proof (printed_near 6 (Fin s m d) ltac:(lia)) as N.
    replace 200000%R with (2 * 10 ^ (6 - 1))%R by (simpl; lra). exact N.
Qed.

Lemma int_read z : read (int z) = Some (Dec (z <? 0)%Z (Z.abs z) 0).
Proof.
  unfold int. set (k := S _). set (l := digits k (Z.abs z)).
  assert (H : (0 <= Z.abs z < 10 ^ Z.of_nat k)%Z).
  { split; [lia|]. unfold k. destruct (Z.eq_dec z 0) as [->|N]; [apply Z.pow_pos_nonneg; lia|].
    destruct (size10_spec (Z.to_nat (Z.log2 (Z.abs z) + 1)) (Z.abs z)) as (S0 & _ & U); [lia| |].
    - pose proof (Z.log2_nonneg (Z.abs z)). rewrite Z2Nat.id by lia. apply Z.log2_spec. lia.
    - rewrite Nat2Z.inj_succ, Z2Nat.id by lia. exact U. }
  assert (Hl : Forall decimal_digit l) by apply digits_ok.
  assert (Ne : l <> []) by (intros C; apply (f_equal (@List.length Z)) in C; unfold l in C; rewrite digits_length in C; discriminate).
  pose proof (read_number (z <? 0)%Z (minus (z <? 0)%Z) l [] "" 0 (or_introl eq_refl) Ne Hl (Forall_nil _) (or_introl (conj eq_refl eq_refl))) as R.
  unfold mantissa in R. rewrite !append_nil, app_nil_r in R. rewrite R. unfold l. rewrite val_digits by exact H.
  do 2 f_equal; lia.
Qed.
Lemma int_spells z : spells (int z) z.
Proof. exists (z <? 0)%Z, (Z.abs z). split; [apply int_read|]. destruct (Z.ltb_spec z 0); lia. Qed.
Lemma int_word z : word (int z).
Proof. apply word_app; [apply word_minus|apply word_text, digits_ok]. Qed.
Lemma text_some a v : read a = Some v -> a <> "".
Proof. intros H ->. discriminate H. Qed.

Lemma literal_word a : word a -> a <> "" -> literal a = option_map LitNum (read a).
Proof.
  intros W N. pose proof (upto_none " " a (word_free _ _ no_blank W)) as U.
  destruct a as [|c a]; [congruence|]. inversion W as [|? ? Hc _]; subst.
  assert (X : literal (String c a) = let '(b, r) := upto " " (String c a) in
    match r with Some r => if String.prefix "--" r then option_map LitNum (read b) else None | None => option_map LitNum (read b) end).
  { clear - Hc. unfold word_char in Hc. cbn in Hc. repeat (destruct Hc as [<-|Hc]; [reflexivity|]). contradiction. }
  rewrite X, U. reflexivity.
Qed.

Lemma items_one n a v : word a -> read a = Some v -> items (S n) a = Some [v].
Proof. intros W R. cbn [items]. rewrite (upto_none "," a) by (apply word_free; [exact no_comma|exact W]). rewrite R. reflexivity. Qed.
Lemma items_more n a v t l : word a -> read a = Some v -> items n t = Some l -> items (S n) (a ++ ", " ++ t) = Some (v :: l).
Proof.
  intros W R T. cbn [items append]. rewrite (upto_app "," a) by (apply word_free; [exact no_comma|exact W]).
  rewrite R. change (drop " " (String " " t)) with (Some t). cbn match. rewrite T. reflexivity.
Qed.
Lemma items_mono n a l : items n a = Some l -> forall k, items (n + k) a = Some l.
Proof.
  revert a l. induction n as [|n IH]; intros a l H k; [discriminate|]. change (S n + k)%nat with (S (n + k)). cbn [items] in *.
  destruct (upto "," a) as [b [r|]]; [|exact H]. destruct (read b); [|discriminate]. destruct (drop " " r) as [u|]; [|discriminate].
  destruct (items n u) eqn:E; [|discriminate]. rewrite (IH _ _ E k). exact H.
Qed.

Lemma literal_table n a r l : ~ In "}"%char (list_ascii_of_string a) -> remark r = true -> items n a = Some l ->
  (n <= S (String.length a))%nat -> literal ("{" ++ a ++ "}" ++ r) = Some (LitTab l).
Proof.
  intros F R I L. cbn [append literal]. rewrite (upto_app "}" a) by exact F. rewrite R.
  replace (String.length (String "{" (a ++ String "}" r))) with (n + (String.length (String "{" (a ++ String "}" r)) - n))%nat.
  - rewrite (items_mono _ _ _ I). reflexivity.
  - assert (String.length (String "{" (a ++ String "}" r)) = S (String.length a + S (String.length r)))%nat.
    { cbn [String.length]. f_equal. clear. induction a as [|c a IH]; [reflexivity|]. cbn [append String.length]. lia. }
    lia.
Qed.

Lemma literal_text a r : plain a -> remark r = true -> literal ("'" ++ a ++ "'" ++ r) = Some (LitStr a).
Proof.
  intros P R. cbn [append literal]. rewrite (upto_app "'" a).
  - rewrite R. assert (E : forall c, (c = "\"%char \/ c = "010"%char) -> existsb (Ascii.eqb c) (list_ascii_of_string a) = false).
    { intros c Hc. apply Bool.not_true_iff_false. intros C. apply existsb_exists in C. destruct C as (x & I & Q).
      apply Ascii.eqb_eq in Q. subst x. destruct (P c I) as (_ & P2 & P3 & _). destruct Hc; contradiction. }
    rewrite !E by auto. reflexivity.
  - intros I. destruct (P _ I). congruence.
Qed.

Lemma c_str_plain s : plain s -> c_str s = s.
Proof.
  intros P. unfold c_str. induction s as [|c s IH]; [reflexivity|]. cbn [Store.Model.c_str].
  destruct (Ascii.eqb_spec c Ascii.zero) as [->|].
  - exfalso. destruct (P "000"%char (or_introl eq_refl)) as (_ & _ & _ & C). apply C. reflexivity.
  - rewrite IH; [reflexivity|]. intros d Hd. apply P. now right.
Qed.

Lemma remark_comment k m : (forall x, m <> MDbl x) -> remark (comment k m) = true.
Proof. intros _. destruct k, m; reflexivity. Qed.

Lemma word_plain a : word a -> plain a.
Proof.
  intros W c Hc. unfold word in W. rewrite Forall_forall in W. specialize (W c Hc).
  repeat split; intros ->; revert W; no_char.
Qed.
Lemma plain_app a b : plain a -> plain b -> plain (a ++ b).
Proof.
  intros Pa Pb c. induction a as [|d a IH]; [apply Pb|]. cbn. intros [<-|H]; [apply Pa; now left|].
  apply IH; [|exact H]. intros e He. apply Pa. now right.
Qed.
Lemma app_free c a b : ~ In c (list_ascii_of_string a) -> ~ In c (list_ascii_of_string b) -> ~ In c (list_ascii_of_string (a ++ b)).
Proof. intros Ha Hb. induction a as [|d a IH]; [exact Hb|]. cbn in *. intros [H|H]; [tauto|]. apply IH; tauto. Qed.
Lemma length_app a b : String.length (a ++ b) = (String.length a + String.length b)%nat.
Proof. induction a as [|c a IH]; [reflexivity|]. cbn [append String.length]. lia. Qed.

Definition printable (m : mem) : Prop := match m with MSlips _ | MRoot _ | MList => False | _ => True end.

Lemma literal_shown k m : printable m -> plain_mem m ->
  exists l, literal (shown m ++ comment k m) = Some l /\ stands m l.
Proof.
  intros Pr Pl.
  assert (NB : forall x, ~ In "}"%char (list_ascii_of_string (num x))) by (intros x; apply word_free; [exact no_brace|apply num_word]).
  assert (CB : ~ In "}"%char (list_ascii_of_string ", ")) by (cbn; intros [H|[H|H]]; [discriminate H|discriminate H|exact H]).
  destruct m as [s|x|z|x y|x y o|s|t|l|r| ]; cbn [printable plain_mem shown] in *; try contradiction.
  - exists (LitStr s). split; [|reflexivity]. rewrite c_str_plain by exact Pl.
    replace (comment k (MStr s)) with "" by (destruct k; reflexivity).
    rewrite !append_assoc. apply literal_text; [exact Pl|reflexivity].
  - destruct (num_read x) as (v & R & N). exists (LitNum v). split; [|exact N].
    replace (comment k (MDbl x)) with "" by (destruct k; reflexivity). rewrite append_nil.
    rewrite literal_word by (try apply num_word; apply (text_some _ _ R)). rewrite R. reflexivity.
  - exists (LitNum (Dec (z <? 0)%Z (Z.abs z) 0)). split.
    + replace (comment k (MInt z)) with "" by (destruct k; reflexivity). rewrite append_nil.
      rewrite literal_word by (try apply int_word; apply (text_some _ _ (int_read z))). rewrite int_read. reflexivity.
    + cbn [stands]. split; [reflexivity|]. destruct (Z.ltb_spec z 0); lia.
  - destruct (num_read x) as (v & R & N). destruct (num_read y) as (w & R' & N').
    exists (LitTab [v; w]). split; [|split; assumption].
    replace ((("{" ++ num x ++ ", " ++ num y ++ "}") ++ comment k (MVec x y)))
      with ("{" ++ (num x ++ ", " ++ num y) ++ "}" ++ comment k (MVec x y)) by (rewrite !append_assoc; reflexivity).
    apply (literal_table 2).
    + repeat apply app_free; auto.
    + apply remark_comment. congruence.
    + apply items_more; [apply num_word|exact R|]. apply items_one; [apply num_word|exact R'].
    + rewrite !length_app. cbn [String.length]. lia.
  - destruct (num_read x) as (v & R & N). destruct (num_read y) as (w & R' & N'). destruct (num_read o) as (u & R'' & N'').
    exists (LitTab [v; w; u]). split; [|repeat split; assumption].
    replace ((("{" ++ num x ++ ", " ++ num y ++ ", " ++ num o ++ "}") ++ comment k (MVec3 x y o)))
      with ("{" ++ (num x ++ ", " ++ num y ++ ", " ++ num o) ++ "}" ++ comment k (MVec3 x y o)) by (rewrite !append_assoc; reflexivity).
    apply (literal_table 3).
    + repeat apply app_free; auto.
    + apply remark_comment. congruence.
    + apply items_more; [apply num_word|exact R|]. apply items_more; [apply num_word|exact R'|]. apply items_one; [apply num_word|exact R''].
    + rewrite !length_app. cbn [String.length]. lia.
  - exists (LitStr s). split; [|reflexivity]. rewrite c_str_plain by exact Pl.
    replace (comment k (MExpr s)) with "" by (destruct k; reflexivity).
    rewrite !append_assoc. apply literal_text; [exact Pl|reflexivity].
  - exists (LitStr (int (Time.Model.value t) ++ "/" ++ int (Time.Model.timescale t))). split.
    + replace (("'" ++ int (Time.Model.value t) ++ "/" ++ int (Time.Model.timescale t) ++ "'") ++ comment k (MTime t))
        with ("'" ++ (int (Time.Model.value t) ++ "/" ++ int (Time.Model.timescale t)) ++ "'" ++ comment k (MTime t))
        by (rewrite !append_assoc; reflexivity).
      apply literal_text; [|apply remark_comment; congruence].
      apply plain_app; [apply word_plain, int_word|]. apply plain_app; [|apply word_plain, int_word].
      intros c [<-|[]]. repeat split; discriminate.
    + cbn [stands]. eexists _, _. split; [reflexivity|]. split; apply int_spells.
Qed.

Lemma statement_line owner n r : statement owner n (owner ++ "." ++ n ++ " = " ++ r) = literal r.
Proof.
  unfold statement. replace (owner ++ "." ++ n ++ " = " ++ r) with ((owner ++ "." ++ n ++ " = ") ++ r) by (rewrite !append_assoc; reflexivity).
  rewrite drop_app. reflexivity.
Qed.
