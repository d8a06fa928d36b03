(** Fixed-width integers of the C++ code, as wrap-around on [Z]. *)

From Coq Require Import ZArith Lia.
Local Open Scope Z_scope.

(** Conversion to [uint32_t]: reduction modulo 2^32. *)
Definition u32 (z : Z) : Z := z mod 2^32.

(** Conversion to [int32_t] (two's complement, as all supported compilers do). *)
Definition i32 (z : Z) : Z :=
  let r := z mod 2^32 in if r <? 2^31 then r else r - 2^32.

Definition is_u32 (z : Z) : Prop := 0 <= z < 2^32.
Definition is_i32 (z : Z) : Prop := - 2^31 <= z < 2^31.

Lemma u32_id z : is_u32 z -> u32 z = z.
Proof. unfold is_u32, u32; intros; apply Z.mod_small; assumption. Qed.

Lemma u32_range z : is_u32 (u32 z).
Proof. unfold is_u32, u32; apply Z.mod_pos_bound; lia. Qed.

Lemma i32_range z : is_i32 (i32 z).
Proof.
  unfold is_i32, i32. pose proof (Z.mod_pos_bound z (2^32) ltac:(lia)).
  destruct (Z.ltb_spec (z mod 2^32) (2^31)); lia.
Qed.

Lemma i32_id z : is_i32 z -> i32 z = z.
Proof.
  unfold is_i32, i32; intros H.
  destruct (Z.le_gt_cases 0 z).
  - rewrite Z.mod_small by lia. destruct (Z.ltb_spec z (2^31)); lia.
  - replace (z mod 2^32) with (z + 2^32).
    + destruct (Z.ltb_spec (z + 2^32) (2^31)); lia.
    + apply Z.mod_unique_pos with (q := -1); lia.
Qed.

(** Signed reinterpretation only depends on the residue. *)
Lemma i32_mod z : i32 (z mod 2^32) = i32 z.
Proof. unfold i32. rewrite Z.mod_mod by lia. reflexivity. Qed.

Lemma i32_u32 z : i32 (u32 z) = i32 z.
Proof. apply i32_mod. Qed.

Lemma i32_congr a b : a mod 2^32 = b mod 2^32 -> i32 a = i32 b.
Proof. unfold i32. intros ->. reflexivity. Qed.
