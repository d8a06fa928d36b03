(** C105: files of any origin. *)

From Coq Require Import List Arith ZArith Bool String Ascii Permutation Lia Sorted.
From Flocq Require Import IEEE754.BinarySingleNaN.
From Verif.Base Require Import Num F64 F32.
From Verif.Body Require Model.
From Verif.Store Require Import Model Spec Proofs ProofsLoad ProofsSpace ProofsOrder Properties.
From Verif.Store Require Import SpecAny.
Import ListNotations.
Local Open Scope string_scope.
Local Open Scope list_scope.

Lemma assoc_in {A} name (l : list (string * A)) : match assoc name l with Some t => In (name, t) l | None => lacks l name end.
Proof.
  induction l as [|[n t] l IH]; cbn [assoc]; [intros []|]. destruct (String.eqb_spec n name) as [->|N]; [now left|].
  destruct (assoc name l); [right; exact IH|]. intros [E|I]; [exact (N E)|exact (IH I)].
Qed.
Ltac reads := intros E; match type of E with context [assoc ?n ?a] => pose proof (assoc_in n a) as I; destruct (assoc n a) as [[]|] end;
  try discriminate E; apply ok_inj in E; subst; [left; assumption | right; split; [assumption|reflexivity]].
Lemma str_says a n v : r_str a n = Ok v -> text a n v. Proof. unfold r_str. reads. Qed.
Lemma d_says a n v : r_d a n = Ok v -> real a n v. Proof. unfold r_d. reads. Qed.
Lemma vec_says a n v : r_vec a n = Ok v -> pair2 a n v. Proof. unfold r_vec. reads. Qed.
Lemma vec3_says a n v : r_vec3 a n = Ok v -> three a n v. Proof. unfold r_vec3. reads. Qed.
Lemma u_says a n v : r_u a n = Ok v -> whole a n v. Proof. unfold r_u. reads. Qed.
Lemma i_says a n v : r_i a n = Ok v -> signed a n v. Proof. unfold r_i. reads. Qed.
Lemma time_says a n v : r_time a n = Ok v -> moment a n v. Proof. unfold r_time. reads. Qed.
Lemma expr_says accepts a n v : r_expr accepts a n = Ok v -> text a n v /\ (v = "" \/ accepts v = true).
Proof.
  unfold r_expr. intros E. apply bind_ok in E as (s & R & E). destruct (String.eqb_spec s "") as [->|N]; cbn [orb] in E.
  - apply ok_inj in E. subst v. split; [apply str_says, R|now left].
  - destruct (accepts s) eqn:A; [|discriminate]. apply ok_inj in E. subst v. split; [apply str_says, R|now right].
Qed.

Lemma fill_new rows : Forall2 particle rows (fill rows []).
Proof. induction rows as [|[[x y] g] rows IH]; cbn [fill]; constructor; [repeat split|exact IH]. Qed.
Lemma fill_placed rows l : Forall2 placed rows (fill rows l).
Proof. revert l. induction rows as [|[[x y] g] rows IH]; intros l; cbn [fill]; constructor; [reflexivity|apply IH]. Qed.
Lemma list_says f n l : read_list f n [] = Ok l -> particles f n l.
Proof.
  unfold read_list. intros E. pose proof (assoc_in n (objects f)) as I. destruct (assoc n (objects f)) as [[rows|]|]; try discriminate E; apply ok_inj in E; subst l.
  - left. exists rows. split; [exact I|apply fill_new].
  - right. split; [exact I|reflexivity].
Qed.

Lemma index_some x l i : index x l = Some i -> nth_error l i = Some x.
Proof.
  revert i. induction l as [|y l IH]; intros i; cbn [index]; [discriminate|]. destruct (String.eqb_spec y x) as [->|N].
  - intros E. assert (i = 0) by congruence. now subst i.
  - destruct (index x l) as [k|]; cbn [option_map]; [|discriminate]. intros E. assert (i = S k) by congruence. subst i. now apply IH.
Qed.
Lemma index_none x l : index x l = None -> ~ In x l.
Proof.
  induction l as [|y l IH]; cbn [index]; [intros _ []|]. destruct (String.eqb_spec y x) as [->|N]; [discriminate|].
  destruct (index x l); cbn [option_map]; [discriminate|]. intros _ [E|I]; [exact (N E)|exact (IH eq_refl I)].
Qed.

Lemma read_atts_spec h rows sl : List.length sl = List.length rows ->
  map (fun x => (corner x, ag x, agsum x)) (read_atts h rows sl) = rows /\ map slip (read_atts h rows sl) = sl /\ Forall (fun x => heat_const x = h) (read_atts h rows sl).
Proof.
  revert sl. induction rows as [|[[c g] gs] rows IH]; intros [|s sl] E; try discriminate E; cbn [read_atts map]; [repeat split; constructor|].
  destruct (IH sl) as (A & B & C); [cbn in E; lia|]. rewrite A, B. split; [reflexivity|]. split; [reflexivity|]. now constructor.
Qed.
Lemma slip_all g l : map slip l = repeat g (List.length l) -> Forall (fun x => slip x = g) l.
Proof. induction l as [|x l IH]; cbn [map List.length repeat]; intros E; [constructor|]. constructor; [congruence|apply IH; congruence]. Qed.

Section Any.
Variable accepts : string -> bool.
Variable properties : list vec -> f64 * vec * f64.

Lemma conditions_of a n (rows : list (vec * f64 * f64)) sl sp b c h (bd : body) : List.length rows = n -> read_conditions a n = Ok (sl, sp, b, c, h) ->
  List.length sl = n /\
  (alist bd = read_atts (f64_to_f32 h) rows sl -> special_segment_no bd = sp -> boundary_condition bd = b -> heat_condition bd = c ->
   exists v, whole a "simplified_dataset" v /\ ((v < 2)%Z -> walls1 a bd) /\ (v = 2%Z -> walls2 a bd) /\ ((2 < v)%Z -> bare_walls bd)).
Proof.
  intros Ln E. unfold read_conditions in E. apply bind_ok in E as (v & Rv & E).
  assert (HL : forall sl h, List.length sl = n -> alist bd = read_atts (f64_to_f32 h) rows sl -> map slip (alist bd) = sl /\ List.length (alist bd) = n /\ Forall (fun x => heat_const x = f64_to_f32 h) (alist bd)).
  { intros sl' h' L' ->. destruct (read_atts_spec (f64_to_f32 h') rows sl') as (A & B & C); [congruence|]. split; [exact B|]. split; [|exact C].
    rewrite <- Ln. rewrite <- A at 2. now rewrite map_length. }
  destruct (Z.ltb_spec v 2) as [V|V].
  - apply bind_ok in E as (g & Rg & E). apply bind_ok in E as (h' & Rh & E). apply bind_ok in E as (sp' & Rs & E). apply bind_ok in E as (b' & Rb & E). apply bind_ok in E as (c' & Rc & E).
    apply ok_inj in E. assert (sl = repeat (if Z.eqb g 108 then 1%Z else 0%Z) n /\ sp = sp' /\ b = old_bc b' /\ c = old_hc c' /\ h = h') as (-> & -> & -> & -> & ->) by (repeat split; congruence).
    split; [apply repeat_length|]. intros A Es Eb Ec. destruct (HL _ _ (repeat_length _ _) A) as (S1 & S2 & S3).
    exists v. split; [apply u_says, Rv|]. split; [|split; intros X; exfalso; lia]. intros _.
    split; [exists g; split; [apply u_says, Rg|]; apply slip_all; rewrite S2; exact S1|].
    split; [rewrite Es; apply i_says, Rs|].
    split; [exists b'; split; [apply i_says, Rb|]; rewrite Eb; unfold old_bc; destruct (Z.eqb_spec b' 122); split; congruence|].
    split; [exists c'; split; [apply i_says, Rc|]; rewrite Ec; unfold old_hc;
      destruct (Z.eqb_spec c' 105); [subst c'; repeat split; congruence|]; destruct (Z.eqb_spec c' 116); [subst c'; repeat split; congruence|];
      destruct (Z.eqb_spec c' 119); [subst c'; repeat split; congruence|]; repeat split; congruence|].
    exists h'. split; [apply d_says, Rh|exact S3].
  - destruct (Z.eqb_spec v 2) as [->|V2].
    + apply bind_ok in E as (l & Rl & E). apply bind_ok in E as (sp' & Rs & E). apply bind_ok in E as (b' & Rb & E). apply bind_ok in E as (c' & Rc & E). apply bind_ok in E as (h' & Rh & E).
      apply ok_inj in E. assert (sl = l /\ sp = sp' /\ b = b' /\ c = c' /\ h = h') as (-> & -> & -> & -> & ->) by (repeat split; congruence).
      unfold r_slips in Rl. pose proof (assoc_in "slip" a) as Is.
      assert (Sl : List.length l = n /\ ((exists l' z, In ("slip", AUs l') a /\ l = l' ++ repeat 0%Z z) \/ lacks a "slip" /\ exists g, whole a "general_slip" g /\ l = repeat g n)).
      { destruct (assoc "slip" a) as [[]|]; try discriminate Rl.
        - destruct (Nat.ltb_spec n (List.length l0)); [discriminate|]. apply ok_inj in Rl. subst l. split; [rewrite app_length, repeat_length; lia|]. left. eauto.
        - apply bind_ok in Rl as (g & Rg & Rl). apply ok_inj in Rl. subst l. split; [apply repeat_length|]. right. split; [exact Is|]. exists g. split; [apply u_says, Rg|reflexivity]. }
      destruct Sl as [Ll Sl]. split; [exact Ll|]. intros A Es Eb Ec. destruct (HL _ _ Ll A) as (S1 & S2 & S3).
      exists 2%Z. split; [apply u_says, Rv|]. split; [intros X; exfalso; lia|]. split; [|intros X; exfalso; lia]. intros _.
      split.
      { destruct Sl as [(l' & z & I & El)|(I & g & G & El)]; [exists l', z; left; split; [exact I|congruence]|]. exists [], 0. right. split; [exact I|]. exists g. split; [exact G|]. apply slip_all. rewrite S1, El. f_equal. congruence. }
      split; [rewrite Es; apply i_says, Rs|].
      split. { unfold r_bc in Rb. apply bind_ok in Rb as (k & Rk & Rb). apply ok_inj in Rb. exists k. split; [apply u_says, Rk|]. rewrite Eb, <- Rb. destruct (Z.eqb_spec k 1); split; congruence. }
      split. { unfold r_hc in Rc. apply bind_ok in Rc as (k & Rk & Rc). apply ok_inj in Rc. exists k. split; [apply u_says, Rk|]. rewrite Ec, <- Rc.
        destruct (Z.eqb_spec k 1); [subst k; repeat split; congruence|]; destruct (Z.eqb_spec k 2); [subst k; repeat split; congruence|];
        destruct (Z.eqb_spec k 3); [subst k; repeat split; congruence|]; repeat split; congruence. }
      exists h'. split; [apply d_says, Rh|exact S3].
    + apply ok_inj in E. assert (sl = repeat 0%Z n /\ sp = 0%Z /\ b = Steady /\ c = Neglect /\ h = fzero) as (-> & -> & -> & -> & ->) by (repeat split; congruence).
      split; [apply repeat_length|]. intros A Es Eb Ec. destruct (HL _ _ (repeat_length _ _) A) as (S1 & S2 & S3).
      exists v. split; [apply u_says, Rv|]. split; [intros X; exfalso; lia|]. split; [intros X; exfalso; lia|]. intros _.
      split; [|split; [exact Es|split; [exact Eb|exact Ec]]]. apply Forall_forall. intros x I. rewrite Forall_forall in S3. rewrite <- S2 in S1. apply slip_all in S1. rewrite Forall_forall in S1. split; [apply S1, I|].
      rewrite (S3 x I). reflexivity.
Qed.

Lemma stiff_fix k : stiff k (@Body.Model.fix_kspring F64 finf k).
Proof. unfold stiff, Body.Model.fix_kspring. change (@nofZ F64 0) with fzero. destruct (@nltb F64 k fzero); reflexivity. Qed.

Lemma body_says f names name b : read_body accepts properties f names name = Ok b -> exists rows a, body_of accepts f names name (mend b) rows a.
Proof.
  unfold read_body. pose proof (assoc_in name (objects f)) as I. destruct (assoc name (objects f)) as [[|rows a]|]; try discriminate. intros E.
  apply bind_ok in E as (lb & Elb & E). apply bind_ok in E as (ho & Eho & E). apply bind_ok in E as (dp & Edp & E).
  apply bind_ok in E as (sx & Esx & E). apply bind_ok in E as (sy & Esy & E). apply bind_ok in E as (so & Eso & E). apply bind_ok in E as (fo & Efo & E).
  apply bind_ok in E as (ss & Ess & E). apply bind_ok in E as (sp & Esp & E). apply bind_ok in E as (ks & Eks & E). apply bind_ok in E as (da & Eda & E).
  apply bind_ok in E as (de & Ede & E). apply bind_ok in E as (fh & Efh & E). apply bind_ok in E as (fl & Efl & E). apply bind_ok in E as (fp & Efp & E).
  apply bind_ok in E as (fd & Efd & E). apply bind_ok in E as (gd & Egd & E). apply bind_ok in E as (cmin & Ecmin & E). apply bind_ok in E as (cmax & Ecmax & E).
  apply bind_ok in E as (bo & Ebo & E). apply bind_ok in E as (rn & Ern & E). apply bind_ok in E as ([[[[sl sg] bc] hc] hv] & Ec & E).
  destruct (properties _) as [[ar cm] mo]. exists rows, a. destruct rows as [|row rows]; [discriminate|].
  apply ok_inj in E. apply expr_says in Esx as [Esx Ax]. apply expr_says in Esy as [Esy Ay]. apply expr_says in Eso as [Eso Ao]. apply expr_says in Efo as [Efo Af].
  destruct (conditions_of a (List.length (row :: rows)) (row :: rows) sl sg bc hc hv (mend b) eq_refl Ec) as [Ln W].
  destruct (read_atts_spec (f64_to_f32 hv) (row :: rows) sl Ln) as (At & _).
  assert (M : forall (P : body -> Prop), P (mend b) -> P (mend b)) by auto.
  destruct ks as [[k1 k2] k3]. subst b. unfold mend in *. cbn [kspring] in *.
  constructor; cbn [label alist root_body holder dpos kspring damping speed_slae speed_slae_prev collision_min collision_max bounce density special_segment_no boundary_condition heat_condition
     friction friction_prev force_hydro force_holder fdt_dead g_dead speed_x speed_y speed_o force_o] in *.
  - exact I.
  - split; [discriminate|exact At].
  - apply str_says, Elb.
  - apply vec3_says, Eho.
  - apply vec3_says, Edp.
  - auto.
  - intros e [<-|[<-|[<-|[<-|[]]]]]; assumption.
  - split; apply vec3_says; assumption.
  - exists k1, k2, k3. split; [apply vec3_says, Eks|]. split; [apply stiff_fix|]. split; apply stiff_fix.
  - apply vec3_says, Eda.
  - apply d_says, Ede.
  - repeat split; apply vec3_says; assumption.
  - split; [apply vec3_says, Efd|apply d_says, Egd].
  - split; apply vec3_says; assumption.
  - apply d_says, Ebo.
  - exists rn. split; [apply str_says, Ern|]. unfold read_root. destruct (String.eqb_spec rn "") as [->|N]; [right; auto|].
    destruct (index rn names) as [i|] eqn:X; [left; split; [exact N|]; exists i; split; [apply index_some, X|reflexivity]|right; split; [right; apply index_none, X|reflexivity]].
  - apply W; reflexivity.
Qed.

(** Everything loaded is in the file, and what the file lacks is empty or zero. *)
Theorem C105_read_partial f s r : load accepts properties f s = Ok r ->
  let a := fattrs f in
  text a "caption" (caption r) /\ moment a "time" (time r) /\ moment a "dt" (dt r) /\ moment a "dt_save" (dt_save r) /\
  moment a "dt_streak" (dt_streak r) /\ moment a "dt_profile" (dt_profile r) /\ real a "re" (re r) /\ real a "pr" (pr r) /\
  pair2 a "inf_marker" (inf_marker r) /\ text a "inf_speed_x" (inf_vx r) /\ text a "inf_speed_y" (inf_vy r) /\
  real a "inf_circulation" (inf_g r) /\ pair2 a "gravity" (gravity r) /\ real a "time_to_finish" (finish r) /\
  (forall e, In e [inf_vx r; inf_vy r] -> e = "" \/ accepts e = true) /\
  particles f "vort" (vortices r) /\ particles f "heat" (heat r) /\ particles f "ink" (streak r) /\ particles f "ink_source" (streak_sources r) /\
  ((exists rows, In ("source", DList rows) (objects f) /\ Forall2 placed rows (sources r)) \/ lacks (objects f) "source" /\ sources r = sources s) /\
  bodies_of accepts f (bodies r).
Proof.
  intros E a. unfold load in E. fold a in E.
  apply bind_ok in E as (ca & Eca & E). apply bind_ok in E as (ti & Eti & E). apply bind_ok in E as (d & Ed & E). apply bind_ok in E as (ds & Eds & E).
  apply bind_ok in E as (dst & Edst & E). apply bind_ok in E as (dp & Edp & E). apply bind_ok in E as (re0 & Ere & E). apply bind_ok in E as (p & Ep & E).
  apply bind_ok in E as (im & Eim & E). apply bind_ok in E as (vx & Evx & E). apply bind_ok in E as (vy & Evy & E). apply bind_ok in E as (ig & Eig & E).
  apply bind_ok in E as (gr & Egr & E). apply bind_ok in E as (fi & Efi & E). apply bind_ok in E as (v & Ev & E). apply bind_ok in E as (h & Eh & E).
  apply bind_ok in E as (st & Est & E). apply bind_ok in E as (sst & Esst & E). apply bind_ok in E as (so & Eso & E). apply bind_ok in E as (bs & Ebs & E).
  apply ok_inj in E. subst r. cbn [caption time dt dt_save dt_streak dt_profile re pr inf_marker inf_vx inf_vy inf_g gravity finish vortices heat streak streak_sources sources bodies].
  apply expr_says in Evx as [Evx Ax]. apply expr_says in Evy as [Evy Ay].
  split; [apply str_says, Eca|]. split; [apply time_says, Eti|]. split; [apply time_says, Ed|]. split; [apply time_says, Eds|]. split; [apply time_says, Edst|]. split; [apply time_says, Edp|].
  split; [apply d_says, Ere|]. split; [apply d_says, Ep|]. split; [apply vec_says, Eim|]. split; [exact Evx|]. split; [exact Evy|]. split; [apply d_says, Eig|]. split; [apply vec_says, Egr|]. split; [apply d_says, Efi|].
  split; [intros e [<-|[<-|[]]]; assumption|]. split; [apply list_says, Ev|]. split; [apply list_says, Eh|]. split; [apply list_says, Est|]. split; [apply list_says, Esst|].
  split.
  { unfold read_list in Eso. pose proof (assoc_in "source" (objects f)) as I. destruct (assoc "source" (objects f)) as [[rows|]|]; try discriminate Eso; apply ok_inj in Eso; subst so.
    - left. exists rows. split; [exact I|apply fill_placed].
    - right. split; [exact I|reflexivity]. }
  exists (sort (body_names f)). split; [apply sort_perm|]. split; [apply sort_ordered|].
  revert Ebs. generalize (sort (body_names f)) at 1 3 as names. generalize (sort (body_names f)) as todo. intros todo names. revert bs. 
  induction todo as [|n todo IH]; intros bs E; cbn [read_bodies] in E.
  - apply ok_inj in E. subst bs. constructor.
  - apply bind_ok in E as (b & Eb & E). apply bind_ok in E as (rest & Er & E). apply ok_inj in E. subst bs. cbn [map]. constructor; [|apply IH, Er]. now apply body_says.
Qed.
End Any.
Print Assumptions C105_read_partial.

Lemma says_default {A} (con : A -> attr) d a n v : lacks a n -> says con d a n v -> v = d.
Proof. intros L [I|[_ E]]; [|exact E]. exfalso. apply L. apply (in_map fst) in I. exact I. Qed.
Lemma nodup_in {A} (n : string) (t t' : A) (l : list (string * A)) : NoDup (map fst l) -> In (n, t) l -> In (n, t') l -> t = t'.
Proof.
  induction l as [|[m u] l IH]; cbn [map fst]; intros D; [intros []|]. apply NoDup_cons_iff in D as [D1 D2].
  intros [E|I] [E'|I']; [congruence| | |now apply IH]; exfalso; apply D1.
  - assert (m = n) by congruence. subst m. apply (in_map fst) in I'. exact I'.
  - assert (m = n) by congruence. subst m. apply (in_map fst) in I. exact I.
Qed.
Lemma table_body accepts f l name rows a : bodies_of accepts f l -> NoDup (map fst (objects f)) -> In (name, DBody rows a) (objects f) -> String.prefix "body" name = true ->
  exists names b, In b l /\ body_of accepts f names name b rows a.
Proof.
  intros (names & P & _ & F) D I Pr. exists names.
  assert (In name names). { apply (Permutation_in _ (Permutation_sym P)), filter_In. split; [|exact Pr]. apply (in_map fst) in I. exact I. }
  assert (X : exists b, In b l /\ exists rows a, body_of accepts f names name b rows a).
  { clear P D I Pr. assert (G : forall todo l, In name todo -> Forall2 (fun n b => exists rows a, body_of accepts f names n b rows a) todo l ->
      exists b, In b l /\ exists rows a, body_of accepts f names name b rows a); [|now apply (G names)].
    induction todo as [|n todo IH]; intros l' In0 F'; [destruct In0|].
    inversion F' as [|? b ? l'' B F'' E1 E2]. destruct In0 as [E0|In0]; [subst n; exists b; split; [now left|exact B]|].
    destruct (IH l'' In0 F'') as (b' & Ib & B'). exists b'. split; [now right|exact B']. }
  destruct X as (b & Ib & rows' & a' & B). exists b. split; [exact Ib|].
  pose proof (nodup_in _ _ _ _ D I (of_table _ _ _ _ _ _ _ B)) as E. assert (rows' = rows /\ a' = a) as [-> ->] by (split; congruence). exact B.
Qed.

(** A table without the parameters of the holder is not read as that of a new body: it
    loses its holder and its mass and is caught between limits 0 and 0, and such a
    calculation cannot be saved again. *)
Theorem C105_old_file_refuted accepts properties f s r name rows a :
  load accepts properties f s = Ok r -> NoDup (map fst (objects f)) -> In (name, DBody rows a) (objects f) -> String.prefix "body" name = true ->
  lacks a "spring_const" -> lacks a "density" -> lacks a "collision_min" -> lacks a "collision_max" ->
  exists b, In b (bodies r) /\ map (fun x => (corner x, ag x, agsum x)) (alist b) = rows /\
    kspring b = vzero3 /\ density b = fzero /\ collision_min b = vzero3 /\ collision_max b = vzero3 /\ ~ new_parameters b /\
    forall meta, save meta r = Throw.
Proof.
  intros E D I Pr L1 L2 L3 L4. pose proof (C105_read_partial accepts properties f s r E) as B. cbv zeta in B. do 20 (destruct B as [_ B]).
  destruct (table_body accepts f _ name rows a B D I Pr) as (names & b & Ib & O). exists b. split; [exact Ib|]. split; [apply (of_rows _ _ _ _ _ _ _ O)|].
  assert (Ks : kspring b = vzero3).
  { destruct (of_spring _ _ _ _ _ _ _ O) as (x & y & o & S & K). apply says_default in S; [|exact L1]. assert (x = fzero /\ y = fzero /\ o = fzero) as (-> & -> & ->) by (unfold vzero3 in S; repeat split; congruence).
    destruct (kspring b) as [[x' y'] o']. unfold stiff in K. change (@nltb F64 fzero fzero) with false in K. destruct K as (-> & -> & ->). reflexivity. }
  pose proof (says_default _ _ _ _ _ L2 (of_density _ _ _ _ _ _ _ O)) as De.
  pose proof (says_default _ _ _ _ _ L3 (proj1 (of_limits _ _ _ _ _ _ _ O))) as Mi. pose proof (says_default _ _ _ _ _ L4 (proj2 (of_limits _ _ _ _ _ _ _ O))) as Ma.
  do 4 (split; [assumption|]). split; [intros (K & _); rewrite Ks in K; discriminate K|].
  intros meta. unfold save. replace (existsb invalid (bodies r)) with true; [reflexivity|]. symmetry. apply existsb_exists. exists b. split; [exact Ib|].
  unfold invalid, params, Body.Model.first_error. cbn [Body.Model.damping Body.Model.kspring Body.Model.collision_min Body.Model.collision_max].
  rewrite Ks, Mi, Ma. unfold vzero3. destruct (damping b) as [[d1 d2] d3].
  destruct (@Body.Model.bad_damping F64 d1); [reflexivity|]. destruct (@Body.Model.bad_damping F64 d2); [reflexivity|]. destruct (@Body.Model.bad_damping F64 d3); [reflexivity|]. vm_compute. reflexivity.
Qed.
Print Assumptions C105_old_file_refuted.

(** A table of a later version is accepted, but all conditions at its walls are dropped. *)
Theorem C105_version_refuted accepts properties f s r name rows a v :
  load accepts properties f s = Ok r -> NoDup (map fst (objects f)) -> In (name, DBody rows a) (objects f) -> String.prefix "body" name = true ->
  NoDup (map fst a) -> In ("simplified_dataset", AU v) a -> (2 < v)%Z ->
  exists b, In b (bodies r) /\ map (fun x => (corner x, ag x, agsum x)) (alist b) = rows /\ bare_walls b.
Proof.
  intros E D I Pr Da Iv V. pose proof (C105_read_partial accepts properties f s r E) as B. cbv zeta in B. do 20 (destruct B as [_ B]).
  destruct (table_body accepts f _ name rows a B D I Pr) as (names & b & Ib & O). exists b. split; [exact Ib|]. split; [apply (of_rows _ _ _ _ _ _ _ O)|].
  destruct (of_walls _ _ _ _ _ _ _ O) as (v' & [Iw|[L _]] & _ & _ & W).
  - apply W. pose proof (nodup_in _ _ _ _ Da Iv Iw) as X. assert (v = v') by congruence. lia.
  - exfalso. apply L. apply (in_map fst) in Iv. exact Iv.
Qed.
Print Assumptions C105_version_refuted.

(** A file of an older program: one body, slipping, with a Kutta edge, nothing about the holder. *)
Definition older : file := mkFile [("re", AD (f 100))]
  [("body00", DBody [((f 0, f 0), f 1, f 2); ((f 0, f 1), f 3, f 4)]
     [("general_bc", AU 108); ("special_bc", AI 122); ("special_bc_segment", AI 1); ("heat_condition", AI 116); ("heat_const", AD (f 7))])].
Example C105_ex : got (load any no_props older two) (fun s =>
  neqb (n:=F64) (re s) (f 100) && neqb (n:=F64) (pr s) fzero && Z.eqb (Time.Model.value (dt s)) 0 && String.eqb (caption s) "" &&
  match vortices s, bodies s with
  | [], [b] => match map slip (alist b), boundary_condition b, special_segment_no b, heat_condition b with [1; 1]%Z, Kutta, 1%Z, ConstT => true | _, _, _, _ => false end
  | _, _ => false
  end && match save [] s with Throw => true | _ => false end) = true.
Proof. vm_compute. reflexivity. Qed.
