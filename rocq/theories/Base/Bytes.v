(** Little-endian 32-bit words and the bit patterns of floats. *)
From Coq Require Import ZArith List Lia.
From Flocq Require Import Core.Core IEEE754.BinarySingleNaN IEEE754.Binary IEEE754.Bits.
From Verif.Base Require Import Num.
Import ListNotations.
Local Open Scope Z_scope.

Definition bytes_of_word (w : Z) : list Z :=
  [w mod 256; w / 256 mod 256; w / 256 ^ 2 mod 256; w / 256 ^ 3 mod 256].
Definition word_of_bytes (a b c d : Z) : Z := a + 256 * (b + 256 * (c + 256 * d)).

Lemma word_bytes w : 0 <= w < 2 ^ 32 ->
  word_of_bytes (w mod 256) (w / 256 mod 256) (w / 256 ^ 2 mod 256) (w / 256 ^ 3 mod 256) = w.
Proof. unfold word_of_bytes. intros H. Ltac Zify.zify_post_hook ::= Z.div_mod_to_equations. lia. Qed.

(** [reinterpret_cast] between [float] and its bit pattern. Every NaN result of
    an operation is written as the default NaN. *)
Definition f32_of_word (w : Z) : f32 := B2BSN 24 128 (b32_of_bits w).
Definition word_of_f32 (x : f32) : Z := bits_of_b32 (BSN2B 24 128 default_nan_pl32 x).

Lemma word_of_f32_range x : 0 <= word_of_f32 x < 2 ^ 32.
Proof. apply (bits_of_binary_float_range 23 8); reflexivity. Qed.

Lemma f32_of_word_of_f32 x : f32_of_word (word_of_f32 x) = x.
Proof.
  unfold f32_of_word, word_of_f32, b32_of_bits, bits_of_b32.
  rewrite (binary_float_of_bits_of_binary_float 23 8). apply B2BSN_BSN2B.
Qed.
