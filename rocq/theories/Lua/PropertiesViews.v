(** Property C112: a vector taken out of a body is the member itself, as long as
    somebody holds the body. *)

From Coq Require Import List ZArith Bool Arith String Lia.
From Verif Require Import Base.Num.
From Verif Require Import Lua.Model Lua.Spec Lua.Proofs.
From Verif Require Import Lua.ModelMembers Lua.SpecMembers Lua.ProofsMembers Lua.PropertiesMembers Lua.ModelViews Lua.ProofsViews.
From Verif Require Time.ModelRun.
Import ListNotations.
Local Open Scope string_scope.
Local Open Scope nat_scope.

Section Views.
Variable str2num : string -> option f64.
Variable accepts : string -> bool.
Variable scan : string -> Time.ModelRun.scan.
Variable fresh : object.

(** In the world [w], reached by a script, the vector number [i] was taken from
    the body [b] along the names [p]. *)
Inductive taken : vworld -> nat -> nat -> list string -> Prop :=
| taken_member cs w h b n w' a i : vrun str2num accepts scan fresh cs (vstart fresh) = Some w ->
    check (base w) h = Some b -> body_get h n w = (w', Seen a (Some i)) -> taken w' i b [n]
| taken_inside w i b p n w' a j : taken w i b p -> view_get i n w = (w', Seen a (Some j)) -> taken w' j b (p ++ [n])
| taken_before w i b p cs w' : taken w i b p -> vrun str2num accepts scan fresh cs w = Some w' -> taken w' i b p.

Lemma taken_leads w i b p : typed_object tbody_members fresh -> taken w i b p ->
  vgood w /\ exists v, nth_error (views w) i = Some v /\ vbody v = b /\ leads v p.
Proof.
  intros TF. induction 1 as [cs w h b n w' a i R C E|w i b p n w' a j _ (G & v & N & B & L) E|w i b p cs w' _ (G & v & N & B & L) R].
  - pose proof (vgood_run str2num accepts scan fresh cs _ _ TF (vgood_start fresh TF) R) as G.
    split; [|exact (taken_get h b n w w' a i G C E)]. pose proof (vgood_step str2num accepts scan fresh (Get h n) w G TF) as G'. cbn [vstep] in G'. now rewrite E in G'.
  - split; [|subst b; exact (taken_place i v p n w w' a j G N L E)]. pose proof (vgood_step str2num accepts scan fresh (VGet i n) w G TF) as G'. cbn [vstep] in G'. now rewrite E in G'.
  - split; [exact (vgood_run _ _ _ _ _ _ _ TF G R)|]. exists v. split; [exact (kept_run _ _ _ _ _ _ _ _ _ R N)|now split].
Qed.

(** While the body is held: reading through the vector, giving it as a value and
    assigning through it are reading and assigning the member, and nothing else
    changes. *)
Theorem C112_partial : typed_object tbody_members fresh -> forall w i b p, taken w i b p -> 0 < holders (base w) b ->
  (forall n, exists k, snd (view_get i n w) = Seen (look tbody_members tbody_methods (objs w b) (p ++ [n])) k) /\
  (exists u, through w (Taken i) = Some u /\ look tbody_members tbody_methods (objs w b) p = Value u) /\
  (forall n a x, through w a = Some x ->
     let r := assign str2num accepts scan tbody_members (objs w b) (p ++ [n]) x in
     let w' := fst (view_set str2num accepts scan i n a w) in
     snd (view_set str2num accepts scan i n a w) = Seen (snd r) None /\ (forall f, objs w' b f = fst r f) /\
     (forall c, c <> b -> objs w' c = objs w c) /\ base w' = base w /\ views w' = views w).
Proof.
  intros TF w i b p T H. destruct (taken_leads w i b p TF T) as (G & v & N & <- & L).
  assert (U : uses (base w) (vbody v) <> 0) by (rewrite (g_uses _ (v_good _ G)); lia).
  split; [intros n; now apply get_through|]. split; [now apply value_through|]. intros n a x X. now apply set_through.
Qed.

(** Once nobody holds it, using the vector is reading or writing freed memory,
    and stays so whatever else the script does. *)
Theorem C112_freed : typed_object tbody_members fresh -> forall w i b p, taken w i b p -> holders (base w) b = 0 ->
  forall cs w', vrun str2num accepts scan fresh cs w = Some w' -> forall n a,
    view_get i n w' = (w', Freed) /\ through w' (Taken i) = None /\ view_set str2num accepts scan i n a w' = (w', Freed).
Proof.
  intros TF w i b p T H cs w' R n a. destruct (taken_leads w i b p TF T) as (G & v & N & <- & L).
  assert (U : uses (base w') (vbody v) = 0).
  { apply (dead_run _ _ _ _ cs w w' _ TF G R); [exact (proj1 (v_views _ G v (nth_error_In _ _ N)))|now rewrite (g_uses _ (v_good _ G))]. }
  pose proof (kept_run _ _ _ _ _ _ _ _ _ R N) as N'. unfold view_get, view_set, through. rewrite N', U. now repeat split.
Qed.

End Views.
Print Assumptions C112_partial.
Print Assumptions C112_freed.

(** [local p = load_body("wing").holder_pos]: nothing refers to the body any
    more, and once Lua has collected it [p] leads to freed memory. *)
Definition dangling : list vcall := [VCall New; Get 0 "holder_pos"; VCall (Collect 0)].
Theorem C112_refuted : ~ forall str2num accepts scan fresh, typed_object tbody_members fresh -> forall w i b p, taken str2num accepts scan fresh w i b p ->
  forall n, snd (view_get i n w) <> Freed.
Proof.
  intros H. pose (n := fun _ : string => @None f64). pose (y := fun _ : string => true). pose (e := fun _ : string => Time.ModelRun.mkScan 0 0 0 false).
  pose (o := ex_body (f64_ofZ 1) (f64_ofZ 2) (f64_ofZ 3)).
  assert (T : typed_object tbody_members o) by (intros r I; cbn in I; repeat (destruct I as [<-|I]; [exact Logic.I|]); destruct I).
  refine (H n y e o T _ 0 0 ["holder_pos"] (taken_before n y e o _ _ _ _ [VCall (Collect 0)] _ (taken_member n y e o [VCall New] _ 0 0 "holder_pos" _ _ 0 eq_refl eq_refl eq_refl) eq_refl) "o" _).
  reflexivity.
Qed.
Print Assumptions C112_refuted.

(** [local p = b.holder_pos; local q = p.r; b.delta_pos = p; q.x = 7]: the body has
    moved to 7, the copy has not; in the list, the body may be collected. *)
Example C112_ex :
  let n := fun _ : string => @None f64 in
  let y := fun _ : string => true in
  let e := fun _ : string => Time.ModelRun.mkScan 0 0 0 false in
  let o := ex_body (f64_ofZ 1) (f64_ofZ 2) (f64_ofZ 3) in
  let cs := [VCall New; Get 0 "holder_pos"; VGet 0 "r"; Set_ 0 "delta_pos" (Taken 0); VSet 1 "x" (Val (LNum (f64_ofZ 7))); VCall (Insert 0); VCall (Collect 0)] in
  exists w, vrun n y e o cs (vstart o) = Some w /\ holders (base w) 0 = 1 /\
    look tbody_members tbody_methods (objs w 0) ["holder_pos"] = Value (LVec3 (f64_ofZ 7) (f64_ofZ 2) (f64_ofZ 3)) /\
    look tbody_members tbody_methods (objs w 0) ["delta_pos"] = Value (LVec3 (f64_ofZ 1) (f64_ofZ 2) (f64_ofZ 3)) /\
    snd (view_get 0 "o" w) = Seen (Value (LNum (f64_ofZ 3))) None /\ snd (view_get 1 "x" w) = Seen (Value (LNum (f64_ofZ 7))) None.
Proof. eexists. repeat (split; [reflexivity|]). reflexivity. Qed.
