(** Heat of the step in which a calculation is resumed: C110. *)

From Coq Require Import List Arith ZArith Bool String Permutation Lia.
From Flocq Require Import IEEE754.BinarySingleNaN.
From Verif.Base Require Import Num F64 F32.
From Verif.Body Require Model.
From Verif.Flow Require Model.
From Verif.Store Require Import Model Spec Proofs ProofsLoad ProofsSpace ModelHeat SpecHeat ProofsHeat Properties.
Import ListNotations.
Local Open Scope list_scope.

(** * C110 *)

(** The step in which a calculation is resumed goes on with the heat particles of the
    file if no body has a given temperature or a given flux of heat. *)
Theorem C110_partial : forall meta accepts properties s s0 file,
  save meta s = Ok file -> only_meta meta -> plain accepts s -> (sources s <> [] \/ sources s0 = []) ->
  Forall (fun b => hot b = false) (bodies s) ->
  exists s' l, load accepts properties file s0 = Ok s' /\ heat_resumed s' = Some l
    /\ map seen l = map stored (heat s) /\ map seen (heat_going_on s) = map stored (heat s).
Proof.
  intros meta accepts properties s s0 file SV OM PL HS C.
  destruct (resumed_gen meta accepts properties s s0 file SV OM PL HS) as (p & s' & bs & l & L & SB & E & -> & M).
  exists s', l. split; auto. split; auto. split; [|apply seen_stored].
  assert (Z : hot_segments (bodies s) = 0).
  { unfold hot_segments. clear - C. induction C as [|b t B C IH]; [reflexivity|].
    cbn [map list_sum fold_right]. rewrite B. exact IH. }
  rewrite M. rewrite <- (same_hot_segments p _ _ SB), <- added_length in Z. apply length_zero_iff_nil in Z.
  rewrite Z. apply app_nil_r.
Qed.
Print Assumptions C110_partial.

(** In general every segment of a body with a given temperature or a given flux adds
    one particle to those of the file, with the heat of one step, although the file
    already holds the heat of this step. *)
Theorem C110_twice : forall meta accepts properties s s0 file,
  save meta s = Ok file -> only_meta meta -> plain accepts s -> (sources s <> [] \/ sources s0 = []) ->
  exists s' l more, load accepts properties file s0 = Ok s' /\ heat_resumed s' = Some l
    /\ map seen l = map stored (heat s) ++ more
    /\ map snd more = flat_map heats (filter hot (bodies s'))
    /\ List.length more = hot_segments (bodies s).
Proof.
  intros meta accepts properties s s0 file SV OM PL HS.
  destruct (resumed_gen meta accepts properties s s0 file SV OM PL HS) as (p & s' & bs & l & L & SB & E & -> & M).
  exists s', l, (map seen (flat_map added1 (bodies s'))). split; auto. split; auto. split; auto. split.
  - rewrite map_map, <- added_all. reflexivity.
  - rewrite map_length, added_length. exact (same_hot_segments p _ _ SB).
Qed.
Print Assumptions C110_twice.

(** So every calculation with such a body goes on differently. *)
Theorem C110_refuted : forall meta accepts properties s s0 file,
  save meta s = Ok file -> only_meta meta -> plain accepts s -> (sources s <> [] \/ sources s0 = []) ->
  (exists b, In b (bodies s) /\ hot b = true) ->
  exists s' l, load accepts properties file s0 = Ok s' /\ heat_resumed s' = Some l
    /\ List.length l > List.length (heat_going_on s).
Proof.
  intros meta accepts properties s s0 file SV OM PL HS (b & I & B).
  destruct (C110_twice meta accepts properties s s0 file SV OM PL HS) as (s' & l & more & L & E & M & _ & N).
  exists s', l. split; auto. split; auto.
  apply (f_equal (@List.length _)) in M. rewrite map_length, app_length, map_length, N in M.
  unfold heat_going_on. rewrite map_length, M.
  assert (SA : savable s) by (apply (C26_when meta); eauto).
  unfold savable in SA. rewrite Forall_forall in SA. destruct (SA b I) as (NE & _).
  enough (0 < hot_segments (bodies s)) by lia.
  unfold hot_segments. revert I. generalize (bodies s) as l0. clear - B NE.
  induction l0 as [|c t IH]; [intros []|]. intros [-> | I]; cbn [map list_sum fold_right].
  - rewrite B. destruct (alist b); [congruence|cbn; lia].
  - specialize (IH I). unfold list_sum in IH. lia.
Qed.
Print Assumptions C110_refuted.

(** A square of temperature 7 and one particle: after resuming there are five, the four
    new ones with heat 7. *)
Definition hot_square := [one_att 0 0 0 0; one_att 0 1 0 0; one_att 1 1 0 0; one_att 1 0 0 0].
Definition one_hot := mkSpace "" (f 100) (f 1) fzero "1" "" vzero vzero (mkTime 3 10) (mkTime 1 10) (mkTime 1 1) (mkTime 0 1) (mkTime 0 1)
    finf [a_body "" NoRoot hot_square] [] [mkObj (f 5) (f 5) (f 2) fzero fzero fzero] [] [] [].
Example C110_ex : got (reload one_hot empty) (fun s' =>
    match heat_resumed s' with
    | Some l => forallb (fun p => neqb (n:=F64) (Flow.Model.og (fst p)) (snd p))
                  (combine l [f 2; f 7; f 7; f 7; f 7]) && Nat.eqb (List.length l) 5
    | None => false
    end) = true.
Proof. vm_compute. reflexivity. Qed.

(** The conditions of the first theorem hold for a body that neglects heat. *)
Definition with_cond (c : hc) (b : body) : body :=
  mkBody (label b) (alist b) (root_body b) (holder b) (dpos b) (kspring b) (damping b) (speed_slae b) (speed_slae_prev b)
    (collision_min b) (collision_max b) (bounce b) (density b) (special_segment_no b) (boundary_condition b) c
    (friction b) (friction_prev b) (force_hydro b) (force_holder b) (nusselt b) (fdt_dead b) (g_dead b)
    (speed_x b) (speed_y b) (speed_o b) (force_o b) (area b) (cofm b) (moi b).
Definition one_cold := mkSpace "" (f 100) (f 1) fzero "1" "" vzero vzero (mkTime 3 10) (mkTime 1 10) (mkTime 1 1) (mkTime 0 1) (mkTime 0 1)
    finf [with_cond Isolate (a_body "" NoRoot hot_square)] [] [mkObj (f 5) (f 5) (f 2) fzero fzero fzero] [] [] [].
Example C110_cold_ex : got (reload one_cold empty) (fun s' =>
    match heat_resumed s' with
    | Some [o] => neqb (n:=F64) (Flow.Model.og o) (f 2)
    | _ => false
    end) = true /\ Forall (fun b => hot b = false) (bodies one_cold) /\ plain any one_cold.
Proof.
  split; [vm_compute; reflexivity|]. split; [repeat constructor|].
  assert (NN : forall e, In e [""; "1"; "sin(t)"]%string -> no_nul e).
  { intros e [<- | [<- | [<- | []]]] n; do 8 (destruct n as [|n]; [discriminate|]); destruct n; discriminate. }
  split; [apply NN; cbn; auto|]. split.
  - intros e [<- | [<- | []]]; split; auto; apply NN; cbn; auto.
  - constructor; [|constructor]. split; [apply NN; cbn; auto|]. intros e I. cbn in I.
    split; auto. apply NN. cbn. intuition.
Qed.
