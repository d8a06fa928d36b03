(** Attributes, names and datasets of a saved file. *)

From Coq Require Import List Arith ZArith Bool String Ascii Permutation Lia Sorted DecimalString DecimalNat Reals.
From Flocq Require Import Core.Core IEEE754.BinarySingleNaN.
From Verif.Base Require Import Num F64 F32.
From Verif.Store Require Import Model Spec.
Import ListNotations.
Local Open Scope string_scope.
Local Open Scope list_scope.

(** * Texts *)

Lemma c_str_plain s : no_nul s -> c_str s = s.
Proof.
  induction s as [|c tl IH]; intros H; cbn [c_str]; auto.
  destruct (Ascii.eqb_spec c Ascii.zero) as [->|N].
  - exfalso. apply (H 0). reflexivity.
  - rewrite IH; auto. intros n E. apply (H (S n)). exact E.
Qed.

Lemma eqb_empty s : s <> "" -> String.eqb s "" = false.
Proof. intros H. apply String.eqb_neq. exact H. Qed.

(** * Looking up attributes *)

Section Assoc.
Context {A : Type}.
Lemma assoc_hit name (a : A) tl : assoc name ((name, a) :: tl) = Some a.
Proof. cbn [assoc]. rewrite String.eqb_refl. reflexivity. Qed.
Lemma assoc_skip n name (a : A) tl : String.eqb n name = false -> assoc name ((n, a) :: tl) = assoc name tl.
Proof. intros E. cbn [assoc]. rewrite E. reflexivity. Qed.
Lemma assoc_app name (l m : list (string * A)) :
  assoc name (l ++ m) = match assoc name l with Some a => Some a | None => assoc name m end.
Proof.
  induction l as [|[n a] tl IH]; [reflexivity|].
  cbn [app assoc]. destruct (String.eqb n name); auto.
Qed.
Lemma assoc_none name (l : list (string * A)) : (forall a, ~ In (name, a) l) -> assoc name l = None.
Proof.
  induction l as [|[n a] tl IH]; intros H; [reflexivity|].
  cbn [assoc]. destruct (String.eqb_spec n name) as [->|N].
  - exfalso. apply (H a). left. reflexivity.
  - apply IH. intros b B. apply (H b). right. exact B.
Qed.
End Assoc.

Lemma str_skip n name s tl : String.eqb n name = false -> assoc name (w_str n s ++ tl) = assoc name tl.
Proof.
  intros E. unfold w_str. destruct (String.eqb s ""); [reflexivity|]. apply assoc_skip. exact E.
Qed.
Lemma str_hit name s tl : no_nul s ->
  assoc name (w_str name s ++ tl) = if String.eqb s "" then assoc name tl else Some (AStr s).
Proof.
  intros H. unfold w_str. destruct (String.eqb s ""); [reflexivity|].
  cbn [app]. rewrite assoc_hit, c_str_plain; auto.
Qed.
Lemma meta_none meta name : only_meta meta -> ~ In name ["git_rev"; "git_info"; "git_diff"; "time_local"] ->
  assoc name meta = None.
Proof. intros M N. apply assoc_none. intros a I. apply N. exact (M _ _ I). Qed.

(** * Names of bodies *)

Lemma decimal_inj i j : decimal i = decimal j -> i = j.
Proof.
  unfold decimal. intros E. apply Unsigned.to_uint_inj.
  assert (X : Some (Nat.to_uint i) = Some (Nat.to_uint j)).
  { rewrite <- (NilEmpty.usu (Nat.to_uint i)), <- (NilEmpty.usu (Nat.to_uint j)), E. reflexivity. }
  congruence.
Qed.
Lemma decimal_pad i j : String "0" (decimal i) = decimal j -> i = j.
Proof.
  unfold decimal. intros E.
  assert (X : Some (Decimal.D0 (Nat.to_uint i)) = Some (Nat.to_uint j)).
  { rewrite <- (NilEmpty.usu (Nat.to_uint j)), <- E.
    change (String "0" (NilEmpty.string_of_uint (Nat.to_uint i)))
      with (NilEmpty.string_of_uint (Decimal.D0 (Nat.to_uint i))).
    rewrite NilEmpty.usu. reflexivity. }
  assert (Y : Decimal.D0 (Nat.to_uint i) = Nat.to_uint j) by congruence.
  rewrite <- (Unsigned.of_to i), <- (Unsigned.of_to j), <- Y. reflexivity.
Qed.
Lemma body_name_inj i j : body_name i = body_name j -> i = j.
Proof.
  unfold body_name. intros E.
  assert (E' : ((if Nat.ltb i 10 then "0" else "") ++ decimal i)%string
             = ((if Nat.ltb j 10 then "0" else "") ++ decimal j)%string).
  { cbn [String.append] in E. congruence. }
  destruct (Nat.ltb i 10), (Nat.ltb j 10); cbn [String.append] in E'.
  - apply decimal_inj. congruence.
  - apply decimal_pad. exact E'.
  - symmetry. apply decimal_pad. symmetry. exact E'.
  - apply decimal_inj. exact E'.
Qed.
Lemma body_name_prefix i : String.prefix "body" (body_name i) = true.
Proof.
  unfold body_name. generalize ((if Nat.ltb i 10 then "0" else "") ++ decimal i)%string.
  intros s. destruct s; reflexivity.
Qed.
Lemma body_name_not_empty i : String.eqb (body_name i) "" = false.
Proof. reflexivity. Qed.

(** * The order of names *)

Lemma insert_perm x l : Permutation (insert x l) (x :: l).
Proof.
  induction l as [|y tl IH]; cbn [insert]; [reflexivity|].
  destruct (String.leb x y); [reflexivity|].
  rewrite IH. apply perm_swap.
Qed.
Lemma sort_perm l : Permutation (sort l) l.
Proof.
  induction l as [|x tl IH]; cbn [sort]; [reflexivity|].
  rewrite insert_perm, IH. reflexivity.
Qed.

Lemma sort_names_small n : n <= 100 -> sort (map body_name (seq 0 n)) = map body_name (seq 0 n).
Proof.
  assert (X : forallb (fun n => if list_eq_dec string_dec (sort (map body_name (seq 0 n))) (map body_name (seq 0 n))
                                then true else false) (seq 0 101) = true) by (vm_compute; reflexivity).
  intros H. rewrite forallb_forall in X.
  assert (I : In n (seq 0 101)) by (apply in_seq; lia).
  specialize (X n I). cbv beta in X.
  destruct (list_eq_dec string_dec (sort (map body_name (seq 0 n))) (map body_name (seq 0 n))); [assumption|discriminate].
Qed.

(** The order [std::map] gives to the names. *)
Lemma sort_names n : exists p, sort (map body_name (seq 0 n)) = map body_name p /\ Permutation p (seq 0 n).
Proof.
  destruct (Permutation_map_inv body_name _ (sort_perm (map body_name (seq 0 n)))) as (p & E & P).
  exists p. split; auto. symmetry. exact P.
Qed.

Lemma map_name_inj l m : map body_name l = map body_name m -> l = m.
Proof.
  revert m. induction l as [|x tl IH]; destruct m as [|y m]; cbn [map]; intros E; try discriminate; auto.
  assert (E1 : body_name x = body_name y) by congruence.
  assert (E2 : map body_name tl = map body_name m) by congruence.
  f_equal; auto using body_name_inj.
Qed.

Lemma index_name i p : NoDup p -> In i p ->
  exists k, index (body_name i) (map body_name p) = Some k /\ nth_error p k = Some i.
Proof.
  induction p as [|x tl IH]; intros D I; [destruct I|].
  cbn [map index]. destruct (String.eqb_spec (body_name x) (body_name i)) as [E|N].
  - apply body_name_inj in E. subst x. exists 0. split; reflexivity.
  - destruct I as [->|I]; [congruence|].
    inversion D as [|? ? ? D']; subst.
    destruct (IH D' I) as (k & E & G). exists (S k). rewrite E. split; auto.
Qed.

(** * Objects *)

Lemma assoc_list_skip n name l tl : String.eqb n name = false -> assoc name (write_list n l ++ tl) = assoc name tl.
Proof. intros E. destruct l; [reflexivity|]. apply assoc_skip. exact E. Qed.
Lemma assoc_list_hit name l tl :
  assoc name (write_list name l ++ tl)
  = match l with [] => assoc name tl | _ => Some (DList (map (fun o => (ox o, oy o, og o)) l)) end.
Proof. destruct l; [reflexivity|]. apply assoc_hit. Qed.

Lemma fill_same l m : Forall2 same_obj l (fill (map (fun o => (ox o, oy o, og o)) l) m).
Proof.
  revert m. induction l as [|o tl IH]; intros m; cbn [map fill]; constructor; auto.
  repeat split.
Qed.

(** * Temperatures *)

Lemma f64_to_f32_R (y : f64) : is_finite y = true -> (Rabs (rnd32 (B2R y)) < bpow radix2 128)%R ->
  B2R (f64_to_f32 y) = rnd32 (B2R y) /\ is_finite (f64_to_f32 y) = true.
Proof.
  intros F H. destruct y as [s|s| |s m e Hm]; try discriminate.
  - split; [|reflexivity]. cbn [f64_to_f32 B2R]. unfold rnd32. rewrite round_0; auto with typeclass_instances.
  - cbn [f64_to_f32].
    pose proof (binary_normalize_correct 24 128 Hprec32 Hmax32 mode_NE (cond_Zopp s (Z.pos m)) e s) as K.
    cbv zeta in K. change (F2R (Float radix2 (cond_Zopp s (Z.pos m)) e)) with (B2R (@B754_finite 53 1024 s m e Hm)) in K.
    rewrite Rlt_bool_true in K by exact H.
    destruct K as (K1 & K2 & _). split; assumption.
Qed.

(** A float written as a double and read as a float. *)
Lemma heat_kept (x : f32) : Beqb x x = true -> Beqb x (f64_to_f32 (f32_to_f64 x)) = true.
Proof.
  intros N. destruct (is_finite x) eqn:F.
  - destruct (f32_to_f64_R x F) as (R1 & F1).
    assert (H : (Rabs (rnd32 (B2R (f32_to_f64 x))) < bpow radix2 128)%R).
    { rewrite R1, rnd32_B2R. apply (abs_B2R_lt_emax 24 128). }
    destruct (f64_to_f32_R _ F1 H) as (R2 & F2).
    apply eqb32; auto. rewrite R2, R1, rnd32_B2R. reflexivity.
  - destruct x as [s|s| |s m e Hm]; try discriminate. exact N.
Qed.

Lemma heat_exact (x : f32) : f64_to_f32 (f32_to_f64 x) = x.
Proof.
  destruct x as [s|s| |s m e Hm] eqn:X; try reflexivity. rewrite <- X in *. assert (F : is_finite x = true) by (rewrite X; reflexivity).
  destruct (f32_to_f64_R x F) as (R1 & F1).
  assert (H : (Rabs (rnd32 (B2R (f32_to_f64 x))) < bpow radix2 128)%R).
  { rewrite R1, rnd32_B2R. apply (abs_B2R_lt_emax 24 128). }
  destruct (f64_to_f32_R _ F1 H) as (R2 & F2). rewrite R1, rnd32_B2R in R2.
  assert (N : (B2R x <> 0)%R). { rewrite X. cbn [B2R]. apply F2R_neq_0. destruct s; discriminate. }
  apply B2R_inj; [|rewrite X; reflexivity|exact R2].
  destruct (f64_to_f32 (f32_to_f64 x)) as [s'|s'| |s' m' e' Hm'] eqn:Y; try discriminate F2; [|reflexivity]. exfalso. apply N. rewrite <- R2. reflexivity.
Qed.

Lemma beq_cases (x y : f32) : Beqb x y = true <->
  (is_finite x = true /\ is_finite y = true /\ B2R x = B2R y)
  \/ (exists s, x = B754_infinity s /\ y = B754_infinity s).
Proof.
  split.
  - intros H. destruct (is_finite x) eqn:Fx, (is_finite y) eqn:Fy.
    + left. repeat split; auto. apply eqb32; auto.
    + destruct x as [s|s| |s m e Hm], y as [t|t| |t n k Hn]; try discriminate; try (destruct t; discriminate);
        destruct s, t; discriminate.
    + destruct x as [s|s| |s m e Hm], y as [t|t| |t n k Hn]; try discriminate; try (destruct s; discriminate);
        destruct s, t; discriminate.
    + destruct x as [s|s| |s m e Hm], y as [t|t| |t n k Hn]; try discriminate; try (destruct s; discriminate).
      right. exists s. destruct s, t; try discriminate; split; reflexivity.
  - intros [(Fx & Fy & E)|(s & -> & ->)].
    + apply eqb32; auto.
    + destruct s; reflexivity.
Qed.
Lemma beq_sym (x y : f32) : Beqb x y = true -> Beqb y x = true.
Proof.
  rewrite !beq_cases. intros [(A & B & C)|(s & A & B)]; [left; auto|right; eauto].
Qed.
Lemma beq_trans (x y z : f32) : Beqb x y = true -> Beqb y z = true -> Beqb x z = true.
Proof.
  rewrite !beq_cases. intros [(A & B & C)|(s & A & B)] [(A' & B' & C')|(s' & A' & B')].
  - left. repeat split; auto. congruence.
  - subst. discriminate.
  - subst. discriminate.
  - right. exists s. split; auto. congruence.
Qed.
