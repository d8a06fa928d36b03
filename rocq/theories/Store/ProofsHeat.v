(** Proofs about the heat shed by a resumed calculation. *)

From Coq Require Import List Arith ZArith Bool String Permutation Lia.
From Flocq Require Import IEEE754.BinarySingleNaN.
From Verif.Base Require Import Num F64 F32.
From Verif.Body Require Model.
From Verif.Flow Require Model.
From Verif.Store Require Import Model Spec Proofs ProofsLoad ProofsSpace ModelHeat SpecHeat.
Import ListNotations.
Local Open Scope list_scope.

(** * Shedding from bodies as they are after loading *)

Lemma cold_segs al l : Forall (fun a => hsum a = fzero) l -> forall h,
  @Flow.Model.heat_segs F64 Flow.Model.Isolate al (map flow_seg l) h = Some (map flow_seg l, h).
Proof.
  intros F. revert al. induction F as [|a t E F IH]; intros [|x al] h; cbn [map Flow.Model.heat_segs]; try reflexivity.
  unfold Flow.Model.heat_seg. change (Flow.Model.hsum (flow_seg a)) with (hsum a). rewrite E.
  change (@neqb F64 fzero (nofZ 0)) with true. cbv iota. rewrite IH. reflexivity.
Qed.
Lemma neglect_segs al l : forall h,
  @Flow.Model.heat_segs F64 Flow.Model.Neglect al l h = Some (l, h).
Proof.
  revert al. induction l as [|a t IH]; intros [|x al] h; cbn [Flow.Model.heat_segs]; try reflexivity.
  cbn [Flow.Model.heat_seg]. now rewrite IH.
Qed.

(** One particle per segment. *)
Definition fresh (a : Body.Model.att F64) (s : att) : Flow.Model.obj F64 :=
  @Flow.Model.mkObj F64
    (@Body.Model.vadd F64 (Body.Model.r a) (@Body.Model.vscale F64 (@Body.Model.rotl F64 (Body.Model.dl a)) (@Body.Model.half F64)))
    (@nmul F64 (@Body.Model.abs2 F64 (Body.Model.dl a)) (f32_to_f64 (heat_const s))) (@Body.Model.vzero F64).

Lemma hot_segs c al l : c = Flow.Model.ConstT \/ c = Flow.Model.ConstW ->
  Forall (fun a => layer a = (-1)%Z) l -> forall h, exists l',
  @Flow.Model.heat_segs F64 c al (map flow_seg l) h
  = Some (l', h ++ map (fun p => fresh (fst p) (snd p)) (combine al l)).
Proof.
  intros C F. revert al. induction F as [|a t E F IH]; intros [|x al] h; cbn [map Flow.Model.heat_segs combine].
  1-3: rewrite app_nil_r; eauto.
  assert (S : exists s', @Flow.Model.heat_seg F64 c x (flow_seg a) h = Some (s', h ++ [fresh x a])).
  { destruct C as [-> | ->]; unfold Flow.Model.heat_seg.
    - unfold flow_seg at 1. cbn [Flow.Model.obj_no]. rewrite E. cbn [Z.ltb Z.compare]. eauto.
    - eauto. }
  destruct S as (s' & ->). destruct (IH al (h ++ [fresh x a])) as (l' & ->).
  rewrite <- app_assoc. cbn [map fst snd app]. eauto.
Qed.

Definition added1 (b : body) : list (Flow.Model.obj F64) :=
  if hot b then map (fun p => fresh (fst p) (snd p)) (combine (flow_atts (alist b)) (alist b)) else [].

Lemma shed_bodies bs : Forall (fun b => Forall (fun a => hsum a = fzero /\ layer a = (-1)%Z) (alist b)) bs ->
  forall h, exists bs', @Flow.Model.heat_bodies F64 (map flow_body bs) h = Some (bs', h ++ flat_map added1 bs).
Proof.
  intros F. induction F as [|b t E F IH]; intros h; cbn [map Flow.Model.heat_bodies flat_map].
  - rewrite app_nil_r. eauto.
  - assert (S : exists l', @Flow.Model.heat_segs F64 (flow_cond (heat_condition b)) (flow_atts (alist b)) (map flow_seg (alist b)) h
             = Some (l', h ++ added1 b)).
    { unfold added1, hot. destruct (heat_condition b); cbn [flow_cond].
      - rewrite neglect_segs, app_nil_r. eauto.
      - rewrite cold_segs, app_nil_r; [eauto|]. eapply Forall_impl; [|exact E]. intros a (A & _). exact A.
      - apply hot_segs; auto. eapply Forall_impl; [|exact E]. intros a (_ & A). exact A.
      - apply hot_segs; auto. eapply Forall_impl; [|exact E]. intros a (_ & A). exact A. }
    destruct S as (l' & S).
    change (Flow.Model.cond (flow_body b)) with (flow_cond (heat_condition b)).
    change (Body.Model.alist (Flow.Model.geo (flow_body b))) with (flow_atts (alist b)).
    change (Flow.Model.segs (flow_body b)) with (map flow_seg (alist b)).
    rewrite S. destruct (IH (h ++ added1 b)) as (bs' & ->). rewrite <- app_assoc. eauto.
Qed.

Lemma combine_map2 {A B C} (g : A -> B) (u : A -> C) (l : list A) : combine (map g l) (map u l) = map (fun a => (g a, u a)) l.
Proof. induction l; cbn; congruence. Qed.
Lemma fst_combine {A B} (l : list A) (m : list B) : List.length l = List.length m -> map fst (combine l m) = l.
Proof. revert m. induction l; intros [|x m] E; cbn in *; try discriminate; auto. f_equal. apply IHl. lia. Qed.

Lemma sides_fst b : map fst (sides b) = alist b.
Proof.
  unfold sides. destruct (alist b) as [|a t]; [reflexivity|]. apply fst_combine. rewrite app_length. cbn. lia.
Qed.

Definition bare (a : att) : Body.Model.att F64 :=
  @Body.Model.mkAtt F64 (bvec (corner a)) (negb (Z.eqb (slip a) 0)) (@Body.Model.vzero F64) (@Body.Model.vzero F64) fzero.
Lemma combine_both {A B} (g : A -> B) (l m : list A) :
  combine (map g l) (map g m) = map (fun p => (g (fst p), g (snd p))) (combine l m).
Proof. revert m. induction l as [|x l IH]; intros [|y m]; cbn; try reflexivity. f_equal. apply IH. Qed.
Lemma nexts_map {A B} (g : A -> B) (l : list A) :
  Body.Model.nexts (map g l) = map (fun p => (g (fst p), g (snd p))) (Body.Model.nexts l).
Proof.
  destruct l as [|a t]; [reflexivity|]. unfold Body.Model.nexts. cbn [map].
  change (g a :: map g t) with (map g (a :: t)). change [g a] with (map g [a]). rewrite <- map_app.
  apply combine_both.
Qed.
Lemma atts_sides b : combine (flow_atts (alist b)) (alist b)
  = map (fun p => (@Body.Model.segment F64 (bare (fst p), bare (snd p)), fst p)) (sides b).
Proof.
  rewrite <- (sides_fst b) at 2. unfold flow_atts, Body.Model.update_segments.
  change (fun a => @Body.Model.mkAtt F64 (bvec (corner a)) (negb (Z.eqb (slip a) 0)) (@Body.Model.vzero F64) (@Body.Model.vzero F64) fzero) with bare.
  rewrite nexts_map, map_map. change (Body.Model.nexts (alist b)) with (sides b).
  apply combine_map2.
Qed.

Lemma added_heats b : map (fun o => Flow.Model.og o) (added1 b) = if hot b then heats b else [].
Proof.
  unfold added1. destruct (hot b); [|reflexivity]. rewrite atts_sides, !map_map. reflexivity.
Qed.

Lemma seen_stored l : map seen (map flow_obj l) = map stored l.
Proof. rewrite map_map. reflexivity. Qed.
Lemma same_stored l l' : Forall2 same_obj l l' -> map stored l = map stored l'.
Proof.
  induction 1 as [|a b l l' (A & B & C) F IH]; [reflexivity|]. cbn [map]. rewrite IH. f_equal.
  unfold stored. now rewrite A, B, C.
Qed.

Lemma resumed_gen meta accepts properties s s0 file :
  save meta s = Ok file -> only_meta meta -> plain accepts s -> (sources s <> [] \/ sources s0 = []) ->
  exists p s' bs l, load accepts properties file s0 = Ok s' /\ same_bodies p (bodies s) (bodies s')
    /\ heat_resumed s' = Some l /\ bs = bodies s'
    /\ map seen l = map stored (heat s) ++ map seen (flat_map added1 bs).
Proof.
  intros SV OM PL HS.
  destruct (load_saved meta accepts properties s s0 file SV OM PL HS) as (p & s' & SN & L & S & N).
  destruct (shed_bodies (bodies s')) with (h := map flow_obj (heat s')) as (bs' & SH).
  { eapply Forall_impl; [|exact N]. intros b (_ & _ & X & _).
    eapply Forall_impl; [|exact X]. intros a X'. cbv beta in X'. intuition. }
  exists p, s', (bodies s'), (map flow_obj (heat s') ++ flat_map added1 (bodies s')).
  split; auto. split; [apply (kept_bodies p s s' S)|]. split; [|split; auto].
  - unfold heat_resumed, Flow.Model.heat_shed.
    change (Flow.Model.bodies (flow_space s')) with (map flow_body (bodies s')).
    change (Flow.Model.heat (flow_space s')) with (map flow_obj (heat s')). rewrite SH. reflexivity.
  - rewrite map_app, seen_stored. f_equal. symmetry. apply same_stored, (kept_heat p s s' S).
Qed.

Lemma same_hot a b : same_body a b -> hot a = hot b.
Proof. intros S. unfold hot. now rewrite (kept_hc a b S). Qed.
Lemma same_length a b : same_body a b -> List.length (alist a) = List.length (alist b).
Proof. intros S. induction (kept_alist a b S); cbn; congruence. Qed.
Lemma sides_length b : List.length (sides b) = List.length (alist b).
Proof. rewrite <- (sides_fst b). now rewrite map_length. Qed.

Lemma nth_sum (g : body -> nat) p l l' : List.length l' = List.length p ->
  (forall k i, nth_error p k = Some i -> exists b b', nth_error l i = Some b /\ nth_error l' k = Some b' /\ g b' = g b) ->
  map g l' = map (fun i => match nth_error l i with Some b => g b | None => 0 end) p.
Proof.
  revert l'. induction p as [|i p IH]; intros [|b' l'] L Q; try discriminate L; [reflexivity|].
  cbn [map]. f_equal.
  - destruct (Q 0 i eq_refl) as (b & b0 & A & B & E). injection B as <-. now rewrite A.
  - apply IH; [cbn in L; lia|]. intros k j N. exact (Q (S k) j N).
Qed.
Lemma seq_sum (g : body -> nat) l n : map (fun i => match nth_error l (i - n) with Some b => g b | None => 0 end) (seq n (List.length l)) = map g l.
Proof.
  revert n. induction l as [|b l IH]; intros n; [reflexivity|]. cbn [List.length seq map]. rewrite Nat.sub_diag. f_equal.
  rewrite <- (IH (S n)). apply map_ext_in. intros i I. apply in_seq in I.
  replace (i - n) with (S (i - S n)) by lia. reflexivity.
Qed.
Lemma perm_sum (l m : list nat) : Permutation l m -> list_sum l = list_sum m.
Proof. induction 1; cbn [list_sum fold_right] in *; try (unfold list_sum in *; lia). Qed.

Lemma same_hot_segments p l l' : same_bodies p l l' -> hot_segments l' = hot_segments l.
Proof.
  intros (P & L & Q). unfold hot_segments. set (g := fun b => if hot b then List.length (alist b) else 0).
  rewrite (nth_sum g p l l').
  - rewrite <- (seq_sum g l 0). apply perm_sum. rewrite <- P.
    erewrite map_ext; [apply Permutation_refl|]. intros i. cbv beta. now rewrite Nat.sub_0_r.
  - rewrite L, (Permutation_length P), seq_length. reflexivity.
  - intros k i N. destruct (Q k i N) as (b & b' & A & B & S & _). exists b, b'. split; auto. split; auto.
    unfold g. now rewrite (same_hot b b' S), (same_length b b' S).
Qed.

Lemma added_length l : List.length (flat_map added1 l) = hot_segments l.
Proof.
  unfold hot_segments. induction l as [|b l IH]; [reflexivity|]. cbn [flat_map map list_sum fold_right].
  rewrite app_length, IH. f_equal.
  rewrite <- (map_length (fun o : Flow.Model.obj F64 => Flow.Model.og o)), added_heats. destruct (hot b); [|reflexivity].
  unfold heats. now rewrite map_length, sides_length.
Qed.
Lemma added_all l : map (fun o => Flow.Model.og o) (flat_map added1 l) = flat_map heats (filter hot l).
Proof.
  induction l as [|b l IH]; [reflexivity|]. cbn [flat_map filter]. rewrite map_app, added_heats, IH.
  destruct (hot b); reflexivity.
Qed.
