(** C106: saving what was loaded. *)

From Coq Require Import List Arith ZArith Bool String Ascii Permutation Lia.
From Flocq Require Import IEEE754.BinarySingleNaN.
From Verif.Base Require Import Num F64 F32.
From Verif.Body Require Model.
From Verif.Store Require Import Model Spec Proofs ProofsLoad ProofsSpace ProofsOrder Properties.
Import ListNotations.
Local Open Scope string_scope.
Local Open Scope list_scope.

Lemma same_maps l l' : Forall2 same_att l l' -> map slip l' = map slip l /\ map (fun a => (corner a, ag a, agsum a)) l' = map (fun a => (corner a, ag a, agsum a)) l.
Proof. induction 1 as [|a b l l' (E1 & E2 & E3 & E4 & _) _ [I1 I2]]; cbn [map]; [now split|]. rewrite I1, I2, E1, E2, E3, E4. now split. Qed.
Lemma forallb_map {A B} (f : B -> bool) (g : A -> B) l : forallb (fun a => f (g a)) l = forallb f (map g l).
Proof. induction l as [|a l IH]; cbn; [reflexivity|]. now rewrite IH. Qed.

Lemma write_again r b b' d : same_body b b' -> (area b', cofm b', moi b') = (area b, cofm b, moi b) -> write_body r b = Ok d -> write_body r b' = Ok d.
Proof.
  intros S A. unfold write_body. pose proof (kept_alist _ _ S) as L. pose proof (kept_temperature _ _ S) as T.
  assert (Ea : area b' = area b /\ cofm b' = cofm b /\ moi b' = moi b) by (repeat split; congruence). destruct Ea as (Ea & Ec & Em).
  destruct (same_maps _ _ L) as [Ms Mr].
  destruct (alist b) as [|x l] eqn:EL; [discriminate|]. rewrite <- EL in *. destruct (alist b') as [|x' l'] eqn:EL'; [rewrite EL in L; inversion L|].
  rewrite <- EL' in *. rewrite EL, EL' in T. cbn [hd_error option_map] in T. assert (Hx : heat_const x = heat_const x') by congruence.
  assert (Sx : slip x' = slip x) by (rewrite EL, EL' in Ms; cbn [map] in Ms; congruence).
  assert (Es : forallb (fun a => Z.eqb (slip a) (slip x')) (alist b') = forallb (fun a => Z.eqb (slip a) (slip x)) (alist b)).
  { rewrite Sx, !(forallb_map (fun z => Z.eqb z (slip x)) slip), Ms. reflexivity. }
  intros W. destruct (forallb (fun a => Beqb (heat_const a) (heat_const x)) (alist b)) eqn:HT; cbn [negb] in W; [|discriminate].
  assert (HT' : forallb (fun a => Beqb (heat_const a) (heat_const x')) (alist b') = true).
  { rewrite <- Hx. apply forallb_forall. intros a' I. rewrite forallb_forall in HT. clear - L HT I.
    induction L as [|y0 y1 k k' (_ & _ & _ & _ & E) _ IH]; [destruct I|]. destruct I as [<-|I].
    - apply beq_trans with (heat_const y0); [apply beq_sym, E|]. apply HT. now left.
    - apply IH; [|exact I]. intros y Iy. apply HT. now right. }
  rewrite Es, HT'. cbn [negb].
  rewrite Mr, Ms, Sx, <- Hx, <- (kept_label _ _ S), <- (kept_holder _ _ S), <- (kept_dpos _ _ S), <- (kept_kspring _ _ S), <- (kept_damping _ _ S),
    <- (kept_speed _ _ S), <- (kept_speed_prev _ _ S), <- (kept_min _ _ S), <- (kept_max _ _ S), <- (kept_bounce _ _ S), <- (kept_density _ _ S),
    <- (kept_special _ _ S), <- (kept_bc _ _ S), <- (kept_hc _ _ S), <- (kept_friction_prev _ _ S), <- (kept_hydro _ _ S), <- (kept_force_holder _ _ S),
    <- (kept_fdt _ _ S), <- (kept_g_dead _ _ S), <- (kept_sx _ _ S), <- (kept_sy _ _ S), <- (kept_so _ _ S), <- (kept_fo _ _ S), Ea, Ec, Em.
  replace (moi_axis b') with (moi_axis b); [exact W|]. unfold moi_axis. now rewrite <- (kept_holder _ _ S), <- (kept_dpos _ _ S), Ea, Ec, Em.
Qed.
Lemma lists_again n l l' : Forall2 same_obj l l' -> write_list n l' = write_list n l.
Proof.
  intros F. destruct F as [|a b l l' (A & B & C) F]; [reflexivity|]. unfold write_list. do 3 f_equal. cbn [map]. rewrite A, B, C. f_equal.
  clear - F. induction F as [|a b l l' (A & B & C) _ IH]; cbn [map]; [reflexivity|]. now rewrite A, B, C, IH.
Qed.
Lemma invalid_again b b' : same_body b b' -> invalid b' = invalid b.
Proof. intros S. unfold invalid, params. now rewrite (kept_damping _ _ S), (kept_kspring _ _ S), (kept_min _ _ S), (kept_max _ _ S). Qed.
Lemma bodies_again n i l l' bs : Forall2 (fun b b' => (same_body b b' /\ root_body b' = root_body b) /\ (area b', cofm b', moi b') = (area b, cofm b, moi b)) l l' ->
  write_bodies n i l = Ok bs -> write_bodies n i l' = Ok bs.
Proof.
  intros F. revert i bs. induction F as [|b b' l l' ((S & R) & A) _ IH]; intros i bs; cbn [write_bodies]; [auto|]. intros W.
  apply bind_ok in W as (r & Er & W). apply bind_ok in W as (d & Ed & W). apply bind_ok in W as (rest & Ew & W).
  rewrite R, (bind_eq _ _ _ Er), (bind_eq _ _ _ (write_again r b b' d S A Ed)), (bind_eq _ _ _ (IH _ _ Ew)). exact W.
Qed.

(** Up to one hundred bodies, loading a saved file and saving again gives the same
    file, byte for byte of every quantity, whatever was loaded before. *)
Theorem C106_partial : forall meta accepts properties s s0 file s',
  save meta s = Ok file -> only_meta meta -> plain accepts s -> (sources s <> [] \/ sources s0 = []) -> List.length (bodies s) <= 100 ->
  Forall (fun b => (area b, cofm b, moi b) = properties (map corner (alist b))) (bodies s) ->
  load accepts properties file s0 = Ok s' -> save meta s' = Ok file.
Proof.
  intros meta accepts properties s s0 file s' SV OM PL HS HL PR LD.
  destruct (C26_partial meta accepts properties s s0 file SV OM PL HS) as (p & s'' & L & S & P & N). rewrite LD in L. apply ok_inj in L. subst s''.
  specialize (P HL). subst p. pose proof (in_order _ _ (kept_bodies _ _ _ S)) as X.
  assert (F : Forall2 (fun b b' => (same_body b b' /\ root_body b' = root_body b) /\ (area b', cofm b', moi b') = (area b, cofm b, moi b)) (bodies s) (bodies s')).
  { clear - X N PR. induction X as [|b b' l l' SR _ IH]; constructor.
    - split; [exact SR|]. inversion N as [|? ? N1 N2]; subst. inversion PR as [|? ? P1 P2]; subst. rewrite N1, P1. f_equal. apply same_corners, kept_alist, SR.
    - apply IH; [now inversion PR|now inversion N]. }
  unfold save in *. assert (EI : existsb invalid (bodies s') = existsb invalid (bodies s)).
  { clear - F. induction F as [|b b' l l' ((S & _) & _) _ IH]; cbn [existsb]; [reflexivity|]. now rewrite (invalid_again _ _ S), IH. }
  assert (EL : List.length (bodies s') = List.length (bodies s)) by (clear - F; induction F; cbn; congruence).
  rewrite EI, EL. destruct (existsb invalid (bodies s)); [discriminate|]. apply bind_ok in SV as (bs & W & SV).
  rewrite (bind_eq _ _ _ (bodies_again _ _ _ _ _ F W)).
  rewrite <- (kept_caption _ _ _ S), <- (kept_time _ _ _ S), <- (kept_dt _ _ _ S), <- (kept_dt_save _ _ _ S), <- (kept_dt_streak _ _ _ S), <- (kept_dt_profile _ _ _ S),
    <- (kept_re _ _ _ S), <- (kept_pr _ _ _ S), <- (kept_marker _ _ _ S), <- (kept_vx _ _ _ S), <- (kept_vy _ _ _ S), <- (kept_inf_g _ _ _ S), <- (kept_gravity _ _ _ S), <- (kept_finish _ _ _ S).
  rewrite (lists_again "vort" _ _ (kept_vortices _ _ _ S)), (lists_again "heat" _ _ (kept_heat _ _ _ S)), (lists_again "ink" _ _ (kept_streak _ _ _ S)),
    (lists_again "ink_source" _ _ (kept_streak_sources _ _ _ S)), (lists_again "source" _ _ (kept_sources _ _ _ S)). exact SV.
Qed.
Print Assumptions C106_partial.

Definition again (s : space) : outcome (file * file) :=
  file <- save [] s; s' <- load any no_props file empty; file' <- save [] s'; Ok (file, file').
Definition label_of (name : string) (f : file) : option attr :=
  match assoc name (objects f) with Some (DBody _ a) => assoc "label" a | _ => None end.
Definition reads (name v : string) (f : file) : bool := match label_of name f with Some (AStr a) => String.eqb a v | _ => false end.
Lemma reads_label name v f : reads name v f = true -> label_of name f = Some (AStr v).
Proof. unfold reads. destruct (label_of name f) as [[]|]; try discriminate. intros E. apply String.eqb_eq in E. now subst. Qed.
Lemma again_label s name a b : got (again s) (fun p => reads name a (fst p) && reads name b (snd p)) = true ->
  exists file s' file', save [] s = Ok file /\ load any no_props file empty = Ok s' /\ save [] s' = Ok file' /\
    label_of name file = Some (AStr a) /\ label_of name file' = Some (AStr b).
Proof.
  intros G. apply ok_got in G as ((file & file') & E & T). unfold again in E. apply bind_ok in E as (f1 & E1 & E). apply bind_ok in E as (s' & E2 & E).
  apply bind_ok in E as (f2 & E3 & E). apply ok_inj in E. assert (f1 = file /\ f2 = file') as [-> ->] by (split; congruence). exists file, s', file'.
  cbn [fst snd] in T. apply andb_prop in T as [T1 T2]. repeat split; try assumption; now apply reads_label.
Qed.
(** With more the tables change places. *)
Theorem C106_refuted : exists s file s' file', save [] s = Ok file /\ load any no_props file empty = Ok s' /\ save [] s' = Ok file' /\
  label_of "body100" file = Some (AStr "100") /\ label_of "body100" file' = Some (AStr "99").
Proof. exists many. apply again_label. vm_compute. reflexivity. Qed.
Print Assumptions C106_refuted.

(** A text with the character NUL is the same after the first time: files stay as they are. *)
Example C106_ex : got (again two) (fun p => match objects (fst p), objects (snd p) with
  | [("vort", DList [_]); ("body00", DBody r _); (_, _)], [("vort", DList [_]); ("body00", DBody r' _); ("body01", _)] => Nat.eqb (List.length r) 3 && Nat.eqb (List.length r') 3
  | _, _ => false end) = true.
Proof. vm_compute. reflexivity. Qed.
