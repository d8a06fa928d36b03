(** Proofs about vectors taken out of bodies. *)

From Coq Require Import List ZArith Bool Arith String Lia.
From Verif Require Import Base.Num.
From Verif Require Import Lua.Model Lua.Spec Lua.Proofs.
From Verif Require Import Lua.ModelMembers Lua.SpecMembers Lua.ProofsMembers Lua.ModelViews.
From Verif Require Time.ModelRun.
Import ListNotations.
Local Open Scope string_scope.
Local Open Scope nat_scope.

(** * A freed body stays freed *)

Lemma check_uses w h b : good w -> check w h = Some b -> 0 < uses w b.
Proof.
  intros G E. rewrite (g_uses _ G). unfold holders. destruct (check_split _ _ _ E) as (h1 & h2 & -> & _).
  rewrite filter_app, app_length. cbn. rewrite Nat.eqb_refl. cbn. lia.
Qed.
Lemma list_uses w b : good w -> In b (blist w) -> 0 < uses w b.
Proof.
  intros G I. rewrite (g_uses _ G). unfold holders. apply in_split in I as (l1 & l2 & ->).
  rewrite filter_app, app_length. cbn. rewrite Nat.eqb_refl. cbn. lia.
Qed.
Lemma uses_push w b c : uses (push_body b w) c = (if c =? b then 1 else 0) + uses w c.
Proof. unfold push_body, take, inc; cbn. destruct (c =? b); reflexivity. Qed.
Lemma push_dead w b c : good w -> 0 < uses w b -> uses w c = 0 -> uses (push_body b w) c = 0.
Proof. intros _ U D. rewrite uses_push. destruct (Nat.eqb_spec c b); [subst; lia|exact D]. Qed.
Lemma same_uses w w' b : same w w' -> uses w' b = uses w b.
Proof. intros (_ & _ & _ & U & _). apply U. Qed.

Lemma dead_step c w b : good w -> b < made w -> uses w b = 0 -> uses (fst (step c w)) b = 0.
Proof.
  intros G M D. destruct c; cbn [step].
  - unfold new_body, drop, push_body, take, with_uses, dec, inc; cbn. destruct (Nat.eqb_spec b (made w)); [lia|exact D].
  - destruct (insert_cases h w) as [(_ & ->)|[(a & _ & _ & S & _)|(a & C & _ & _ & _ & _ & _ & _ & U)]]; [exact D|now rewrite (same_uses _ _ _ S)|].
    rewrite U. pose proof (check_uses _ _ _ G C). destruct (Nat.eqb_spec b a); [subst; lia|exact D].
  - destruct (erase_cases h w (g_nodup _ G)) as [(_ & ->)|[(a & _ & _ & S & _)|(a & _ & _ & _ & _ & _ & _ & U)]]; [exact D|now rewrite (same_uses _ _ _ S)|].
    rewrite U, D. now destruct (b =? a).
  - unfold clear; cbn [fst]. destruct (fold_drop (blist w) w) as (_ & _ & _ & _ & E). cbn [with_blist uses]. rewrite E, D. reflexivity.
  - exact D.
  - unfold Model.getindex. destruct (k =? - 2 ^ 63)%Z; [exact D|]. cbv zeta. destruct (_ && _); [|exact D].
    destruct (nth_error (blist w) _) as [a|] eqn:E; [|exact D]. apply push_dead; [exact G|apply (list_uses _ _ G (nth_error_In _ _ E))|exact D].
  - unfold getnext. cbv zeta. destruct (_ <=? _)%Z; [exact D|]. destruct (_ =? _)%Z; [exact D|].
    destruct (nth_error (blist w) _) as [a|] eqn:E; [|exact D]. apply push_dead; [exact G|apply (list_uses _ _ G (nth_error_In _ _ E))|exact D].
  - unfold set_root. destruct (check w h) as [a|]; [|exact D]. pose proof (same_uses _ _ b (take_drop a w)) as U. set (w' := drop a (take a w)) in *.
    clearbody w'.
    destruct r as [|h'|]; cbv zeta; cbn [fst uses].
    + now rewrite U.
    + destruct (check w' h') as [a'|]; [|cbn [fst]; now rewrite U]. cbn. unfold dec, inc. destruct (b =? a'); cbn [pred]; now rewrite U, D.
    + now rewrite U.
  - destruct (get_root_cases h w) as [(_ & ->)|[(a & _ & S & _)|(a & r & _ & _ & U & _ & S)]]; [exact D|now rewrite (same_uses _ _ _ S)|].
    rewrite (same_uses _ _ _ S). now apply push_dead.
  - unfold eq_body. destruct (check w h), (check w h'); exact D.
  - unfold touch. destruct (check w h) as [a|]; [|exact D]. cbn [fst]. now rewrite (same_uses _ _ _ (take_drop a w)).
  - unfold collect. destruct (check w h) as [a|]; [|exact D]. cbn. unfold dec. rewrite D. now destruct (b =? a).
Qed.
Lemma made_step c w : made w <= made (fst (step c w)).
Proof.
  destruct c; cbn [step].
  - cbn. lia.
  - destruct (insert_cases h w) as [(_ & ->)|[(a & _ & _ & (_ & _ & -> & _) & _)|(a & C & _ & _ & _ & _ & -> & _)]]; cbn; lia.
  - unfold erase. destruct (check w h); [|cbn; lia]. destruct (without _ _); cbn; lia.
  - unfold clear; cbn [fst with_blist made]. destruct (fold_drop (blist w) w) as (_ & _ & E & _). rewrite E. lia.
  - cbn; lia.
  - unfold Model.getindex. destruct (k =? - 2 ^ 63)%Z; [cbn; lia|]. cbv zeta. destruct (_ && _); [|cbn; lia]. destruct (nth_error (blist w) _); cbn; lia.
  - unfold getnext. cbv zeta. destruct (_ <=? _)%Z; [cbn; lia|]. destruct (_ =? _)%Z; [cbn; lia|]. destruct (nth_error (blist w) _); cbn; lia.
  - unfold set_root. destruct (check w h); [|cbn; lia]. cbv zeta. destruct r as [|h'|]; [cbn; lia| |cbn; lia]. destruct (check _ h'); cbn; lia.
  - destruct (get_root_cases h w) as [(_ & ->)|[(a & _ & (_ & _ & -> & _) & _)|(a & r & _ & _ & U & _ & (_ & _ & -> & _))]]; cbn; lia.
  - unfold eq_body. destruct (check w h), (check w h'); cbn; lia.
  - unfold touch. destruct (check w h); cbn; lia.
  - unfold collect. destruct (check w h); cbn; lia.
Qed.

(** * Where a vector leads *)

(** The path of names to the place. *)
Inductive leads (v : view) : list string -> Prop :=
| leads_member r : In r tbody_members -> rkind r = KVec3 -> vfield v = rfield r -> vsub v = false -> leads v [rname r]
| leads_place r : In r tbody_members -> rkind r = KVec3 -> vfield v = rfield r -> vsub v = true -> leads v [rname r; "r"].

Section Views.
Variable str2num : string -> option f64.
Variable accepts : string -> bool.
Variable scan : string -> Time.ModelRun.scan.
Variable fresh : object.
Notation newindex := (newindex str2num accepts scan).
Notation assign := (assign str2num accepts scan).
Notation vstep := (vstep str2num accepts scan fresh).
Notation vrun := (vrun str2num accepts scan fresh).
Notation view_set := (view_set str2num accepts scan).
Notation body_set := (body_set str2num accepts scan).
Notation looks := (look tbody_members tbody_methods).

Record vgood (w : vworld) : Prop := {
  v_good : good (base w);
  v_typed : forall b, typed_object tbody_members (objs w b);
  v_views : forall v, In v (views w) -> vbody v < made (base w) /\ exists p, leads v p }.

Lemma leads_at v p o : leads v p -> typed_object tbody_members o ->
  exists r x y a, In r tbody_members /\ rkind r = KVec3 /\ vfield v = rfield r /\ o (rfield r) = MVec3 x y a /\
    (vsub v = false /\ p = [rname r] /\ deref o v = Some (MVec3 x y a) \/ vsub v = true /\ p = [rname r; "r"] /\ deref o v = Some (MVec x y)).
Proof.
  intros [r I K F S|r I K F S] T; pose proof (T r I) as Y; rewrite K in Y; destruct (o (rfield r)) as [| | | |x y a| | | | |] eqn:E; try contradiction; exists r, x, y, a;
    repeat (split; [assumption|]); unfold deref; rewrite S, F, E; [left|right]; auto.
Qed.
Lemma found r : In r tbody_members -> find (fun q => String.eqb (rname q) (rname r)) tbody_members = Some r.
Proof. apply find_in, (a_names _ _ body_agrees). Qed.

(** Reading at the end of a path is reading the vector. *)
Lemma look_vec o v p m : leads v p -> typed_object tbody_members o -> deref o v = Some m ->
  exists t o', open_vec m = Some (t, o') /\ forall n, looks o (p ++ [n]) = getindex t (methods_of m) o' n.
Proof.
  intros L T D. destruct (leads_at v p o L T) as (r & x & y & a & I & K & F & E & [(S & -> & D')|(S & -> & D')]); rewrite D' in D; injection D as <-.
  - do 2 eexists. split; [reflexivity|]. intros n. cbn [app]. rewrite look_more, (found r I), K, E. reflexivity.
  - do 2 eexists. split; [reflexivity|]. intros n. cbn [app]. rewrite look_more, (found r I), K, E. reflexivity.
Qed.
Lemma assign_vec o v p m x n : leads v p -> typed_object tbody_members o -> deref o v = Some m ->
  exists t o', open_vec m = Some (t, o') /\ snd (assign tbody_members o (p ++ [n]) x) = snd (newindex t o' n x) /\
    forall f, fst (assign tbody_members o (p ++ [n]) x) f = restore o v (close_vec m (fst (newindex t o' n x))) f.
Proof.
  intros L T D. destruct (leads_at v p o L T) as (r & x0 & y & a & I & K & F & E & [(S & -> & D')|(S & -> & D')]); rewrite D' in D; injection D as <-.
  - do 2 eexists. split; [reflexivity|]. cbn [app]. rewrite assign_more, (found r I), K, E. cbn [open_vec]. rewrite assign_one.
    unfold restore. rewrite S, F. destruct (newindex _ _ n x) as [o2 an]. now split.
  - do 2 eexists. split; [reflexivity|]. cbn [app]. rewrite assign_more, (found r I), K, E. cbn [open_vec]. rewrite assign_more.
    change (find (fun r0 => String.eqb (rname r0) "r") tvec3d_members) with (Some (mkRow "r" KVec true "r")). cbn [rkind rfield String.eqb Ascii.eqb Bool.eqb open_vec].
    rewrite assign_one. destruct (newindex tvec_members _ n x) as [o2 an]. cbn [fst snd]. split; [reflexivity|]. intros f.
    unfold restore. rewrite S, F, E. unfold close_vec at 1. cbn [put String.eqb Ascii.eqb Bool.eqb]. unfold put at 1 2. cbn [String.eqb Ascii.eqb Bool.eqb].
    unfold close_vec. destruct (o2 "x"), (o2 "y"); reflexivity.
Qed.

(** * Steps *)

Lemma typed_put o r m t : agrees t doc_body -> typed_object t o -> In r t -> typed (rkind r) m -> typed_object t (put o (rfield r) m).
Proof.
  intros A T I Y q Iq. destruct (String.eqb_spec (rfield q) (rfield r)) as [E|N].
  - rewrite E, put_same. apply (a_fields _ _ A r q I Iq (eq_sym E)), Y.
  - rewrite put_other by exact N. now apply T.
Qed.
Lemma newindex_typed o n x : typed_object tbody_members o -> typed_object tbody_members (fst (newindex tbody_members o n x)).
Proof.
  intros T. unfold ModelMembers.newindex. destruct (find _ tbody_members) as [r|] eqn:F; [|exact T]. apply find_row in F as [I _]. destruct (rset r); [|exact T].
  destruct (set _ _ _ _ _ x) as [m|e|] eqn:S; [|exact T|exact T]. cbn [fst]. apply typed_put; [exact body_agrees|exact T|exact I|].
  exact (proj1 (set_stored _ _ _ _ _ _ _ (T r I) S)).
Qed.
Lemma vec_typed k m t o n x : vec_kind k -> typed k m -> open_vec m = Some (t, o) -> typed k (close_vec m (fst (newindex t o n x))).
Proof.
  intros V T O. destruct (open_ok k m V T) as (t' & o' & O' & A & T' & C). rewrite O in O'. assert (t' = t /\ o' = o) as [-> ->] by (split; congruence).
  apply C. unfold ModelMembers.newindex. destruct (find _ t) as [r|] eqn:F; [|exact T']. apply find_row in F as [I _]. destruct (rset r); [|exact T'].
  destruct (set _ _ _ _ _ x) as [z|e|] eqn:S; [|exact T'|exact T']. cbn [fst]. intros q Iq.
  pose proof (proj1 (set_stored _ _ _ _ _ _ _ (T' r I) S)) as Y. destruct (String.eqb_spec (rfield q) (rfield r)) as [E|N].
  - rewrite E, put_same. apply (a_fields _ _ A r q I Iq (eq_sym E)), Y.
  - rewrite put_other by exact N. now apply T'.
Qed.
Lemma restore_typed o v p m : leads v p -> typed_object tbody_members o -> (if vsub v then typed KVec m else typed KVec3 m) -> typed_object tbody_members (restore o v m).
Proof.
  intros L T Y. destruct (leads_at v p o L T) as (r & x & y & a & I & K & F & E & [(S & _)|(S & _)]); unfold restore; rewrite S, F in *.
  - apply typed_put; [exact body_agrees|exact T|exact I|]. now rewrite K.
  - rewrite E. destruct m; try contradiction. apply typed_put; [exact body_agrees|exact T|exact I|]. now rewrite K.
Qed.

Lemma good_put_body w b o : vgood w -> typed_object tbody_members o -> vgood (put_body b o w).
Proof. intros [G T V] Y. constructor; cbn; [exact G| |exact V]. intros c. destruct (c =? b); auto. Qed.
Lemma good_push_view w v p : vgood w -> vbody v < made (base w) -> leads v p -> vgood (push_view v w).
Proof. intros [G T V] M L. constructor; cbn; [exact G|exact T|]. intros u I. apply in_app_or in I as [I|[<-|[]]]; eauto. Qed.

Lemma vgood_step c w : vgood w -> typed_object tbody_members fresh -> vgood (fst (vstep c w)).
Proof.
  intros GW TF. pose proof GW as [G T V]. destruct c as [c|h n|h n a|i n|i n a]; cbn [ModelViews.vstep].
  - pose proof (good_step c (base w) G) as G'. pose proof (made_step c (base w)) as M'. destruct (step c (base w)) as [b r]. cbn [fst] in *. constructor; cbn.
    + exact G'.
    + intros k. destruct (made (base w) <=? k); auto.
    + intros v I. destruct (V v I) as [M P]. split; [lia|exact P].
  - unfold body_get. destruct (check (base w) h) as [b|] eqn:E; [|exact GW]. pose proof (handle_made _ _ _ G E) as M.
    destruct (find _ tbody_members) as [r|] eqn:F; [|exact GW]. apply find_row in F as [I _]. destruct (rkind r) eqn:K; try exact GW.
    apply good_push_view with (p := [rname r]); [exact GW|exact M|]. now apply leads_member.
  - unfold ModelViews.body_set. destruct (check (base w) h) as [b|] eqn:E; [|exact GW]. destruct (String.eqb n "root"); [exact GW|].
    destruct (through w a) as [x|]; [|exact GW]. pose proof (newindex_typed (objs w b) n x (T b)) as Y. destruct (newindex tbody_members (objs w b) n x) as [o r].
    now apply good_put_body.
  - unfold view_get. destruct (nth_error (views w) i) as [v|] eqn:E; [|exact GW]. destruct (_ =? 0); [exact GW|].
    destruct (V v (nth_error_In _ _ E)) as [M (p & L)].
    destruct (deref (objs w (vbody v)) v) as [m|] eqn:D; [|exact GW]. destruct (open_vec m) as [[t o]|]; [|exact GW]. cbv zeta.
    destruct (getindex t (methods_of m) o n) as [[]| | |]; try exact GW.
    destruct L as [r I K F S|r I K F S]; (apply good_push_view with (p := [rname r; "r"]); [exact GW|exact M|now apply leads_place]).
  - unfold ModelViews.view_set. destruct (nth_error (views w) i) as [v|] eqn:E; [|exact GW]. destruct (_ =? 0); [exact GW|].
    destruct (V v (nth_error_In _ _ E)) as [M (p & L)].
    destruct (deref (objs w (vbody v)) v) as [m|] eqn:D; [|exact GW]. destruct (through w a) as [x|]; [|exact GW].
    destruct (open_vec m) as [[t o]|] eqn:O; [|exact GW].
    assert (Y : if vsub v then typed KVec (close_vec m (fst (newindex t o n x))) else typed KVec3 (close_vec m (fst (newindex t o n x)))).
    { destruct (leads_at v p _ L (T (vbody v))) as (r & x0 & y & a0 & _ & _ & _ & _ & [(S & _ & D')|(S & _ & D')]); rewrite S; rewrite D in D';
        (apply vec_typed; [unfold vec_kind; auto| |exact O]); injection D' as ->; exact I. }
    destruct (newindex t o n x) as [o2 an]. cbn [fst] in *. apply good_put_body; [exact GW|]. now apply restore_typed with (p := p).
Qed.
Lemma vgood_run cs w w' : typed_object tbody_members fresh -> vgood w -> vrun cs w = Some w' -> vgood w'.
Proof.
  intros TF. revert w. induction cs as [|c cs IH]; intros w G; cbn [ModelViews.vrun]; [congruence|]. intros R.
  pose proof (vgood_step c w G TF) as G'. destruct (vstep c w) as [w1 r]. destruct (lost r); [discriminate|]. exact (IH w1 G' R).
Qed.
Lemma vgood_start : typed_object tbody_members fresh -> vgood (vstart fresh).
Proof. intros T. constructor; cbn; [exact good_start|auto|intros v []]. Qed.

(** Vectors once taken stay where they lead. *)
Lemma kept_step c w i v : nth_error (views w) i = Some v -> nth_error (views (fst (vstep c w))) i = Some v.
Proof.
  intros N. assert (P : forall u, nth_error (views (push_view u w)) i = Some v).
  { intros u. cbn. rewrite nth_error_app1; [exact N|]. apply nth_error_Some. congruence. }
  destruct c as [c|h n|h n a|j n|j n a]; cbn [ModelViews.vstep].
  - destruct (step c (base w)). exact N.
  - unfold body_get. destruct (check (base w) h) as [b|]; [|exact N]. destruct (find _ tbody_members) as [r|]; [|exact N]. destruct (rkind r); try exact N. apply P.
  - unfold ModelViews.body_set. destruct (check (base w) h) as [b|]; [|exact N]. destruct (String.eqb n "root"); [exact N|].
    destruct (through w a) as [x|]; [|exact N]. destruct (newindex tbody_members (objs w b) n x). exact N.
  - unfold view_get. destruct (nth_error (views w) j) as [u|]; [|exact N]. destruct (_ =? 0); [exact N|].
    destruct (deref _ u) as [m|]; [|exact N]. destruct (open_vec m) as [[t o]|]; [|exact N]. cbv zeta.
    destruct (getindex t (methods_of m) o n) as [[]| | |]; try exact N. apply P.
  - unfold ModelViews.view_set. destruct (nth_error (views w) j) as [u|]; [|exact N]. destruct (_ =? 0); [exact N|].
    destruct (deref _ u) as [m|]; [|exact N]. destruct (through w a) as [x|]; [|exact N].
    destruct (open_vec m) as [[t o]|]; [|exact N]. destruct (newindex t o n x). exact N.
Qed.
Lemma kept_run cs w w' i v : vrun cs w = Some w' -> nth_error (views w) i = Some v -> nth_error (views w') i = Some v.
Proof.
  revert w. induction cs as [|c cs IH]; intros w; cbn [ModelViews.vrun]; [congruence|]. intros R N.
  pose proof (kept_step c w i v N) as N'. destruct (vstep c w) as [w1 r]. destruct (lost r); [discriminate|]. exact (IH w1 R N').
Qed.

(** Only calls change owners. *)
Lemma base_step c w : base (fst (vstep c w)) = match c with VCall c => fst (step c (base w)) | _ => base w end.
Proof.
  destruct c as [c|h n|h n a|j n|j n a]; cbn [ModelViews.vstep].
  - now destruct (step c (base w)).
  - unfold body_get. destruct (check (base w) h) as [b|]; [|reflexivity]. destruct (find _ tbody_members) as [r|]; [|reflexivity]. now destruct (rkind r).
  - unfold ModelViews.body_set. destruct (check (base w) h) as [b|]; [|reflexivity]. destruct (String.eqb n "root"); [reflexivity|].
    destruct (through w a) as [x|]; [|reflexivity]. now destruct (newindex tbody_members (objs w b) n x).
  - unfold view_get. destruct (nth_error (views w) j) as [u|]; [|reflexivity]. destruct (_ =? 0); [reflexivity|].
    destruct (deref _ u) as [m|]; [|reflexivity]. destruct (open_vec m) as [[t o]|]; [|reflexivity]. cbv zeta.
    now destruct (getindex t (methods_of m) o n) as [[]| | |].
  - unfold ModelViews.view_set. destruct (nth_error (views w) j) as [u|]; [|reflexivity]. destruct (_ =? 0); [reflexivity|].
    destruct (deref _ u) as [m|]; [|reflexivity]. destruct (through w a) as [x|]; [|reflexivity].
    destruct (open_vec m) as [[t o]|]; [|reflexivity]. now destruct (newindex t o n x).
Qed.
Lemma dead_run cs w w' b : typed_object tbody_members fresh -> vgood w -> vrun cs w = Some w' -> b < made (base w) -> uses (base w) b = 0 -> uses (base w') b = 0.
Proof.
  intros TF. revert w. induction cs as [|c cs IH]; intros w G; cbn [ModelViews.vrun]; [congruence|]. intros R M D.
  pose proof (vgood_step c w G TF) as G'. pose proof (base_step c w) as B. destruct (vstep c w) as [w1 r]. cbn [fst] in *. destruct (lost r); [discriminate|].
  apply (IH w1 G' R); rewrite B; destruct c; auto.
  - pose proof (made_step c (base w)). lia.
  - apply dead_step; auto. exact (v_good _ G).
Qed.

(** * Through a vector *)

Lemma get_through w i v p n : vgood w -> nth_error (views w) i = Some v -> leads v p -> uses (base w) (vbody v) <> 0 ->
  exists k, snd (view_get i n w) = Seen (looks (objs w (vbody v)) (p ++ [n])) k.
Proof.
  intros G N L U. unfold view_get. rewrite N. apply Nat.eqb_neq in U. rewrite U.
  destruct (leads_at v p _ L (v_typed _ G (vbody v))) as (r & x & y & a & _ & _ & _ & _ & D).
  assert (exists m, deref (objs w (vbody v)) v = Some m) as (m & Dm) by (destruct D as [(_ & _ & ->)|(_ & _ & ->)]; eauto). clear D. rewrite Dm.
  destruct (look_vec _ v p m L (v_typed _ G _) Dm) as (t & o & -> & E). rewrite E. cbv zeta.
  destruct (getindex t (methods_of m) o n) as [[]| | |]; eexists; reflexivity.
Qed.
Lemma set_through w i v p n a x : vgood w -> nth_error (views w) i = Some v -> leads v p -> uses (base w) (vbody v) <> 0 -> through w a = Some x ->
  let w' := fst (view_set i n a w) in
  snd (view_set i n a w) = Seen (snd (assign tbody_members (objs w (vbody v)) (p ++ [n]) x)) None /\
  (forall f, objs w' (vbody v) f = fst (assign tbody_members (objs w (vbody v)) (p ++ [n]) x) f) /\
  (forall b, b <> vbody v -> objs w' b = objs w b) /\ base w' = base w /\ views w' = views w.
Proof.
  intros G N L U X. cbv zeta. unfold ModelViews.view_set. rewrite N. apply Nat.eqb_neq in U. rewrite U.
  destruct (leads_at v p _ L (v_typed _ G (vbody v))) as (r & x0 & y & a0 & _ & _ & _ & _ & D).
  assert (exists m, deref (objs w (vbody v)) v = Some m) as (m & Dm) by (destruct D as [(_ & _ & ->)|(_ & _ & ->)]; eauto). clear D. rewrite Dm, X.
  destruct (assign_vec _ v p m x n L (v_typed _ G _) Dm) as (t & o & -> & E1 & E2). rewrite E1.
  destruct (newindex t o n x) as [o2 an] eqn:NI. cbn [fst snd] in *. split; [reflexivity|]. split; [|split; [|split; reflexivity]].
  - intros f. cbn. rewrite Nat.eqb_refl. symmetry. apply E2.
  - intros b Nb. cbn. apply Nat.eqb_neq in Nb. now rewrite Nb.
Qed.
Lemma value_through w i v p : vgood w -> nth_error (views w) i = Some v -> leads v p -> uses (base w) (vbody v) <> 0 ->
  exists u, through w (Taken i) = Some u /\ looks (objs w (vbody v)) p = Value u.
Proof.
  intros G N L U. unfold through. rewrite N. apply Nat.eqb_neq in U. rewrite U.
  destruct (leads_at v p _ L (v_typed _ G (vbody v))) as (r & x & y & a & I & K & F & E & [(S & -> & ->)|(S & -> & ->)]).
  - exists (LVec3 x y a). split; [reflexivity|]. rewrite look_one. unfold getindex. rewrite (found r I), K, E. reflexivity.
  - exists (LVec x y). split; [reflexivity|]. rewrite look_more, (found r I), K, E. reflexivity.
Qed.
(** Which path a vector has when it is taken. *)
Lemma taken_get h b n w w' a i : vgood w -> check (base w) h = Some b -> body_get h n w = (w', Seen a (Some i)) ->
  exists v, nth_error (views w') i = Some v /\ vbody v = b /\ leads v [n].
Proof.
  intros G C. unfold body_get. rewrite C. destruct (find _ tbody_members) as [r|] eqn:F; [|congruence]. pose proof F as F'. apply find_row in F' as [I <-].
  destruct (rkind r) eqn:K; try congruence. intros E. assert (i = List.length (views w)) as -> by congruence. assert (w' = push_view (mkView b (rfield r) false) w) as -> by congruence.
  exists (mkView b (rfield r) false). cbn. rewrite nth_error_app2, Nat.sub_diag by lia. split; [reflexivity|]. split; [reflexivity|]. now apply leads_member.
Qed.
Lemma taken_place i v p n w w' a j : vgood w -> nth_error (views w) i = Some v -> leads v p -> view_get i n w = (w', Seen a (Some j)) ->
  exists u, nth_error (views w') j = Some u /\ vbody u = vbody v /\ leads u (p ++ [n]).
Proof.
  intros G N L. unfold view_get. rewrite N. destruct (_ =? 0); [congruence|].
  destruct (leads_at v p _ L (v_typed _ G (vbody v))) as (r & x & y & o & I & K & F & E & [(S & -> & ->)|(S & -> & ->)]); cbn [open_vec].
  - unfold getindex. destruct (find _ tvec3d_members) as [q|] eqn:Fq.
    + apply find_row in Fq as [Iq <-]. destruct Iq as [<-|[<-|[<-|[]]]]; cbn [rkind rfield rname get String.eqb Ascii.eqb Bool.eqb]; try congruence.
      intros H. assert (j = List.length (views w)) as -> by congruence. assert (w' = push_view (mkView (vbody v) (vfield v) true) w) as -> by congruence.
      exists (mkView (vbody v) (vfield v) true). cbn. rewrite nth_error_app2, Nat.sub_diag by lia. split; [reflexivity|]. split; [reflexivity|]. now apply leads_place.
    + cbv zeta. destruct (existsb _ _); congruence.
  - unfold getindex. destruct (find _ tvec_members) as [q|] eqn:Fq.
    + apply find_row in Fq as [Iq <-]. destruct Iq as [<-|[<-|[]]]; cbn [rkind rfield rname get String.eqb Ascii.eqb Bool.eqb]; congruence.
    + cbv zeta. destruct (existsb _ _); congruence.
Qed.

End Views.
