(** Names of result files. *)

From Coq Require Import List Arith ZArith Bool String Ascii Lia DecimalString DecimalNat.
From Verif.Time Require ModelRun.
From Verif.Store Require Import Model Spec Proofs ProofsLoad.
Import ListNotations.
Local Open Scope string_scope.

Lemma append_assoc (a b c : string) : ((a ++ b) ++ c = a ++ (b ++ c))%string.
Proof. induction a as [|x a IH]; cbn [String.append]; congruence. Qed.
Lemma append_length (a b : string) : String.length (a ++ b) = String.length a + String.length b.
Proof. induction a as [|x a IH]; cbn [String.append String.length]; lia. Qed.
Lemma append_inj_l (a b c : string) : (a ++ b = a ++ c)%string -> b = c.
Proof. induction a as [|x a IH]; cbn [String.append]; intros H; auto. apply IH. congruence. Qed.
Lemma append_inj_r (a b c : string) : (a ++ c = b ++ c)%string -> a = b.
Proof.
  intros H.
  assert (L : String.length a = String.length b).
  { apply (f_equal String.length) in H. rewrite !append_length in H. lia. }
  revert b L H. induction a as [|x a IH]; intros [|y b] L H; cbn [String.length] in L; try discriminate; auto.
  cbn [String.append] in H. f_equal; [congruence|]. apply IH; [lia|congruence].
Qed.

Lemma substring_all n s : String.length s <= n -> substring 0 n s = s.
Proof.
  revert n. induction s as [|c s IH]; intros n H; cbn [String.length] in H.
  - destruct n; reflexivity.
  - destruct n as [|n]; [lia|]. cbn [substring]. rewrite IH by lia. reflexivity.
Qed.
Lemma substring_app n a b : String.length a = n -> substring 0 n (a ++ b) = a.
Proof.
  revert n. induction a as [|c a IH]; intros n H; cbn [String.length] in H; subst n.
  - destruct b; reflexivity.
  - cbn [String.append substring]. rewrite IH by reflexivity. reflexivity.
Qed.
Lemma substring_0 b : substring 0 0 b = "".
Proof. destruct b; reflexivity. Qed.
Lemma substring_app_short n a b : n <= String.length a -> substring 0 n (a ++ b) = substring 0 n a.
Proof.
  revert n. induction a as [|c a IH]; intros n H; cbn [String.length] in H.
  - replace n with 0 by lia. rewrite !substring_0. reflexivity.
  - destruct n as [|n]; [rewrite !substring_0; reflexivity|]. cbn [String.append substring]. rewrite IH by lia. reflexivity.
Qed.
Lemma cut_short n s : String.length s < n -> cut n s = s.
Proof. intros H. unfold cut. apply substring_all. lia. Qed.

(** A text without "%" is printed as it is. *)
Definition no_percent (s : string) : Prop := forall n, String.get n s <> Some "%"%char.
Lemma print_text a b args : no_percent a -> print (a ++ b) args = bind (print b args) (fun r => Ok (a ++ r)).
Proof.
  induction a as [|c a IH]; intros H; cbn [String.append].
  - destruct (print b args); reflexivity.
  - cbn [print]. destruct (Ascii.eqb_spec c "%"%char) as [->|N].
    + exfalso. apply (H 0). reflexivity.
    + rewrite IH by (intros n E; apply (H (S n)); exact E).
      destruct (print b args); reflexivity.
Qed.

Lemma no_percent_results s : no_percent s -> no_percent ("results_" ++ s).
Proof.
  intros H n E. do 8 (destruct n as [|n]; [cbn in E; discriminate|]). cbn [String.append String.get] in E.
  exact (H n E).
Qed.

Definition long_name (cap : string) (n : Z) : string := ("results_" ++ cap ++ "/" ++ int_text 6 n ++ ".h5")%string.

Lemma print_number n : print "/%06d.h5" [n] = Ok ("/" ++ int_text 6 n ++ ".h5")%string.
Proof. reflexivity. Qed.

Lemma print_format cap n : no_nul cap -> no_percent cap -> String.length cap < 232 ->
  print (save_format cap) [n] = Ok (long_name cap n).
Proof.
  intros NN NP L. unfold save_format. rewrite c_str_plain by assumption.
  assert (L1 : String.length ("results_" ++ cap) < 240) by (rewrite append_length; cbn [String.length]; lia).
  rewrite (cut_short 240) by assumption.
  rewrite (cut_short 256) by (rewrite append_length; cbn [String.length]; lia).
  rewrite print_text by (apply no_percent_results; assumption).
  rewrite print_number. cbn [bind]. rewrite append_assoc. reflexivity.
Qed.

Lemma zeros_uint k d :
  NilEmpty.uint_of_string (string_of_list_ascii (repeat "0"%char k) ++ NilEmpty.string_of_uint d)%string
  = Some (Nat.iter k Decimal.D0 d).
Proof.
  induction k as [|k IH].
  - apply NilEmpty.usu.
  - cbn [repeat string_of_list_ascii String.append NilEmpty.uint_of_string Nat.iter].
    rewrite IH. reflexivity.
Qed.
Lemma zeros_nat k d : Nat.of_uint (Nat.iter k Decimal.D0 d) = Nat.of_uint d.
Proof. induction k as [|k IH]; [reflexivity|]. cbn [Nat.iter]. exact IH. Qed.

Lemma pad_inj w v i j : pad w (decimal i) = pad v (decimal j) -> i = j.
Proof.
  unfold pad, decimal. intros E.
  assert (X : Some (Nat.iter (w - String.length (NilEmpty.string_of_uint (Nat.to_uint i))) Decimal.D0 (Nat.to_uint i))
            = Some (Nat.iter (v - String.length (NilEmpty.string_of_uint (Nat.to_uint j))) Decimal.D0 (Nat.to_uint j))).
  { rewrite <- !zeros_uint. f_equal. exact E. }
  assert (Y := f_equal (fun o => match o with Some u => Nat.of_uint u | None => 0 end) X).
  cbv beta iota in Y. rewrite !zeros_nat, !Unsigned.of_to in Y. exact Y.
Qed.

Lemma int_text_inj n m : (0 <= n)%Z -> (0 <= m)%Z -> int_text 6 n = int_text 6 m -> n = m.
Proof.
  intros Hn Hm. unfold int_text.
  destruct (Z.ltb_spec n 0); [lia|]. destruct (Z.ltb_spec m 0); [lia|].
  intros E. apply pad_inj in E. lia.
Qed.

Lemma long_name_inj cap n m : (0 <= n)%Z -> (0 <= m)%Z -> long_name cap n = long_name cap m -> n = m.
Proof.
  intros Hn Hm E. unfold long_name in E. apply append_inj_l, append_inj_l, append_inj_l, append_inj_r in E.
  apply int_text_inj; auto.
Qed.

(** * The number of digits *)

Lemma acc_add d acc :
  Nat.of_uint_acc d acc = acc * 10 ^ Decimal.nb_digits d + Nat.of_uint_acc d 0.
Proof.
  revert acc. induction d; intros acc; cbn [Nat.of_uint_acc Decimal.nb_digits Nat.pow]; [lia|..];
    rewrite !Nat.tail_mul_spec; rewrite (IHd (_ + _)) || rewrite (IHd (S _)) || rewrite (IHd (10 * acc));
    match goal with |- _ = _ + Nat.of_uint_acc d ?x => rewrite (IHd x) end; nia.
Qed.

Lemma digits k n : n < 10 ^ k -> exists u, Decimal.nb_digits u = k /\ Nat.of_uint u = n.
Proof.
  revert n. induction k as [|k IH]; intros n H.
  - exists Decimal.Nil. split; auto. cbn in H. cbn. lia.
  - set (q := n / 10 ^ k). assert (P : 10 ^ k <> 0) by (apply Nat.pow_nonzero; lia).
    destruct (IH (n mod 10 ^ k)) as (u & L & E); [apply Nat.mod_upper_bound; exact P|].
    assert (Q : q < 10) by (apply Nat.div_lt_upper_bound; [exact P|]; rewrite Nat.mul_comm; exact H).
    assert (D : n = q * 10 ^ k + n mod 10 ^ k) by (unfold q; rewrite Nat.mul_comm; apply Nat.div_mod; exact P).
    assert (X : forall c : Decimal.uint -> Decimal.uint,
      Decimal.nb_digits (c u) = S k -> Nat.of_uint (c u) = Nat.of_uint_acc u q ->
      exists v, Decimal.nb_digits v = S k /\ Nat.of_uint v = n).
    { intros c C1 C2. exists (c u). split; auto. rewrite C2, acc_add, L.
      unfold Nat.of_uint in E. rewrite E. symmetry. exact D. }
    clearbody q.
    do 10 (destruct q as [|q]; [first
      [ apply (X Decimal.D0); [cbn; congruence|reflexivity] | apply (X Decimal.D1); [cbn; congruence|reflexivity]
      | apply (X Decimal.D2); [cbn; congruence|reflexivity] | apply (X Decimal.D3); [cbn; congruence|reflexivity]
      | apply (X Decimal.D4); [cbn; congruence|reflexivity] | apply (X Decimal.D5); [cbn; congruence|reflexivity]
      | apply (X Decimal.D6); [cbn; congruence|reflexivity] | apply (X Decimal.D7); [cbn; congruence|reflexivity]
      | apply (X Decimal.D8); [cbn; congruence|reflexivity] | apply (X Decimal.D9); [cbn; congruence|reflexivity] ]|]).
    lia.
Qed.

Lemma string_length d : String.length (NilEmpty.string_of_uint d) = Decimal.nb_digits d.
Proof. induction d; cbn [NilEmpty.string_of_uint String.length Decimal.nb_digits]; congruence. Qed.

Lemma decimal_length n k : n < 10 ^ k -> 0 < k -> String.length (decimal n) <= k.
Proof.
  intros H K. destruct (digits k n H) as (u & L & E).
  unfold decimal. rewrite string_length, <- E, Unsigned.to_of, <- L.
  apply DecimalFacts.nb_digits_unorm. intros ->. cbn in L. lia.
Qed.

Lemma zeros_length k : String.length (string_of_list_ascii (repeat "0"%char k)) = k.
Proof. induction k as [|k IH]; cbn [repeat string_of_list_ascii String.length]; congruence. Qed.

Lemma int_text_length n : (0 <= n < 10 ^ 6)%Z -> String.length (int_text 6 n) = 6.
Proof.
  intros H. unfold int_text. destruct (Z.ltb_spec n 0); [lia|]. unfold pad.
  rewrite append_length, zeros_length.
  assert (L : String.length (decimal (Z.to_nat n)) <= 6).
  { apply decimal_length; [|lia].
    assert (Z.of_nat (Z.to_nat n) < Z.of_nat (10 ^ 6))%Z; [|lia].
    rewrite Nat2Z.inj_pow, Z2Nat.id by lia. exact (proj2 H). }
  lia.
Qed.

(** The name when it fits into the buffer, and when it does not. *)
Lemma result_name_fits s n : no_nul (caption s) -> no_percent (caption s) ->
  Verif.Time.ModelRun.file_number (time s) (dt s) = Some n -> (0 <= n < 10 ^ 6)%Z ->
  String.length (caption s) <= 45 -> result_name s = Ok (long_name (caption s) n).
Proof.
  intros NN NP F H L. unfold result_name. rewrite F, print_format by (auto; lia). cbn [bind].
  rewrite cut_short; auto. unfold long_name. rewrite !append_length, int_text_length by assumption.
  cbn [String.length]. lia.
Qed.
Lemma result_name_cut s n : no_nul (caption s) -> no_percent (caption s) ->
  Verif.Time.ModelRun.file_number (time s) (dt s) = Some n ->
  55 <= String.length (caption s) < 232 -> result_name s = Ok ("results_" ++ substring 0 55 (caption s))%string.
Proof.
  intros NN NP F L. unfold result_name. rewrite F, print_format by (auto; lia). cbn [bind].
  unfold long_name, cut. change (64 - 1) with 63. f_equal.
  cbn [String.append substring]. rewrite substring_app_short by lia. reflexivity.
Qed.
