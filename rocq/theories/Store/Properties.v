(** Saving and loading: C26, C27, C28, C71, C72. *)

From Coq Require Import List Arith ZArith QArith Bool String Ascii Permutation Lia.
From Flocq Require Import IEEE754.BinarySingleNaN.
From Verif.Base Require Import Num F64 F32.
From Verif.Time Require Spec Properties ModelRun.
From Verif.Body Require Model.
From Verif.Forces Require Model.
From Verif.Store Require Import Model Spec Proofs ProofsLoad ProofsSpace ProofsOrder ProofsName.
Import ListNotations.
Local Close Scope Q_scope.
Local Open Scope string_scope.
Local Open Scope list_scope.

(** * Cases *)

Definition f (z : Z) : f64 := f64_ofZ z.
Definition no_props (_ : list vec) : f64 * vec * f64 := (fzero, vzero, fzero).
Definition any (_ : string) : bool := true.
Definition one_att (x y fr : Z) (s : Z) : att :=
  mkAtt (f x, f y) (f 5) (f 6) s (f32_ofZ 7) fzero (f fr) fzero fzero fzero (-1).
Definition a_body (lab : string) (r : root) (l : list att) : body :=
  mkBody lab l r (f 1, f 2, f 3) vzero3 (finf, f 0, f 9) vzero3 vzero3 vzero3 vnan3 vnan3 fzero (f 1) 0 Kutta ConstT
    vzero3 vzero3 vzero3 vzero3 fzero vzero3 fzero "sin(t)" "" "" "" fzero vzero fzero.
Definition triangle := [one_att 0 0 1 0; one_att 0 1 1 1; one_att 1 0 1 0].
Definition a_space (cap : string) (bs : list body) (so : list tobj) : space :=
  mkSpace cap (f 100) (f 1) fzero "1" "" vzero vzero (mkTime 3 10) (mkTime 1 10) (mkTime 1 1) (mkTime 0 1) (mkTime 0 1)
    finf bs [mkObj (f 1) (f 2) (f 3) (f 4) (f 5) (f 6)] [] so [] [].
Definition two := a_space "two" [a_body "a" (RootAt 1) triangle; a_body "b" NoRoot triangle] [].
Definition empty := a_space "" [] [].

Definition got {A} (o : outcome A) (test : A -> bool) : bool := match o with Ok a => test a | _ => false end.
Lemma ok_got {A} (o : outcome A) test : got o test = true -> exists a, o = Ok a /\ test a = true.
Proof. destruct o; cbn [got]; intros H; try discriminate. eauto. Qed.
Definition reload (s s0 : space) : outcome space := file <- save [] s; load any no_props file s0.
Lemma ok_reload s s0 test : got (reload s s0) test = true ->
  exists file s', save [] s = Ok file /\ load any no_props file s0 = Ok s' /\ test s' = true.
Proof.
  intros H. apply ok_got in H. destruct H as (s' & E & T). unfold reload in E.
  apply bind_ok in E. destruct E as (file & E1 & E2). eauto.
Qed.

(** * C26 *)

(** Exactly these spaces can be saved. *)
Theorem C26_when : forall meta s, (exists file, save meta s = Ok file) <-> savable s.
Proof. exact savable_iff. Qed.
Print Assumptions C26_when.

(** Loading the file gives back all of the stored state, whatever the number of
    bodies, up to the order of the bodies; the order is kept for up to 100 bodies. *)
Theorem C26_partial : forall meta accepts properties s s0 file,
  save meta s = Ok file -> only_meta meta -> plain accepts s ->
  (sources s <> [] \/ sources s0 = []) ->
  exists p s', load accepts properties file s0 = Ok s' /\ same_space p s s'
    /\ (List.length (bodies s) <= 100 -> p = seq 0 (List.length (bodies s)))
    /\ Forall (fun b => (area b, cofm b, moi b) = properties (map corner (alist b))) (bodies s').
Proof.
  intros meta accepts properties s s0 file SV OM PL HS.
  destruct (load_saved meta accepts properties s s0 file SV OM PL HS) as (p & s' & SN & L & S & N).
  exists p, s'. split; auto. split; auto. split.
  - intros H. rewrite sort_names_small in SN by exact H. symmetry. apply map_name_inj. exact SN.
  - eapply Forall_impl; [|exact N]. intros b (_ & _ & _ & X). exact X.
Qed.
Print Assumptions C26_partial.

(** Two bodies, the first hung on the second. *)
Example C26_ex : got (reload two empty) (fun s' =>
  match bodies s' with
  | [a; b] => String.eqb (label a) "a" && String.eqb (label b) "b" && String.eqb (speed_x a) "sin(t)"
      && match root_body a, root_body b with RootAt 1, NoRoot => true | _, _ => false end
      && match boundary_condition a, heat_condition b with Kutta, ConstT => true | _, _ => false end
      && match map slip (alist a) with [0; 1; 0]%Z => true | _ => false end
      && forallb (fun q => Beqb (heat_const q) (f32_ofZ 7)) (alist b)
      && match vortices s' with [o] => neqb (n:=F64) (oy o) (f 2) && neqb (n:=F64) (ovx o) fzero | _ => false end
  | _ => false
  end) = true.
Proof. vm_compute. reflexivity. Qed.
Example C26_ex_plain : plain any two /\ only_meta [].
Proof.
  assert (N : forall s, forallb (fun c => negb (Ascii.eqb c Ascii.zero)) (list_ascii_of_string s) = true -> no_nul s).
  { induction s as [|c s IH]; intros H n E; cbn [list_ascii_of_string forallb] in H.
    - destruct n; discriminate.
    - apply andb_true_iff in H. destruct H as (H1 & H2). destruct n as [|n]; cbn [String.get] in E.
      + assert (c = Ascii.zero) by congruence. subst c. discriminate.
      + exact (IH H2 n E). }
  assert (P : forall lab r, no_nul lab -> plain_body any (a_body lab r triangle)).
  { intros lab r H. split; [exact H|]. intros e I. cbn [In] in I.
    destruct I as [<-|[<-|[<-|[<-|[]]]]]; split; auto; apply N; reflexivity. }
  split; [|intros n a []].
  split; [apply N; reflexivity|]. split.
  - intros e [<-|[<-|[]]]; split; auto; apply N; reflexivity.
  - constructor; [apply P, N; reflexivity|]. constructor; [apply P, N; reflexivity|constructor].
Qed.

(** A label with the character NUL is cut there. *)
Definition nul := a_space "" [a_body (String "a" (String Ascii.zero "b")) NoRoot triangle] [].
Theorem C26_nul_refuted : exists s file s',
  save [] s = Ok file /\ load any no_props file empty = Ok s'
  /\ map label (bodies s) = [String "a" (String Ascii.zero "b")] /\ map label (bodies s') = ["a"].
Proof.
  destruct (ok_reload nul empty (fun s' => match map label (bodies s') with [l] => String.eqb l "a" | _ => false end))
    as (file & s' & E1 & E2 & T); [vm_compute; reflexivity|].
  exists nul, file, s'. split; auto. split; auto. split; [reflexivity|].
  destruct (map label (bodies s')) as [|l [|? ?]]; try discriminate. apply String.eqb_eq in T. subst l. reflexivity.
Qed.
Print Assumptions C26_nul_refuted.

(** * C27 *)

(** Up to one hundred bodies the order is kept, roots included. *)
Theorem C27_partial : forall meta accepts properties s s0 file,
  save meta s = Ok file -> only_meta meta -> plain accepts s -> (sources s <> [] \/ sources s0 = []) ->
  List.length (bodies s) <= 100 ->
  exists s', load accepts properties file s0 = Ok s' /\ Forall2 same_body (bodies s) (bodies s')
    /\ map root_body (bodies s') = map root_body (bodies s).
Proof.
  intros meta accepts properties s s0 file SV OM PL HS HL.
  destruct (C26_partial meta accepts properties s s0 file SV OM PL HS) as (p & s' & L & S & P & _).
  exists s'. split; auto. specialize (P HL). subst p.
  assert (X := in_order _ _ (kept_bodies _ _ _ S)).
  split; [clear -X|clear -X]; induction X as [|a b l m (B & R) _ IH]; cbn [map]; [constructor|constructor; auto|reflexivity|congruence].
Qed.
Print Assumptions C27_partial.

(** With more bodies it is not: the order is another permutation, for every space. *)
Theorem C27_order : forall meta accepts properties s s0 file,
  save meta s = Ok file -> only_meta meta -> plain accepts s -> (sources s <> [] \/ sources s0 = []) ->
  exists p s', load accepts properties file s0 = Ok s' /\ same_space p s s'
    /\ (p = seq 0 (List.length (bodies s)) <-> List.length (bodies s) <= 100).
Proof.
  intros meta accepts properties s s0 file SV OM PL HS.
  destruct (load_saved meta accepts properties s s0 file SV OM PL HS) as (p & s' & SN & L & S & N).
  exists p, s'. split; auto. split; auto. split.
  - intros E. destruct (Nat.le_gt_cases (List.length (bodies s)) 100) as [H|H]; auto.
    exfalso. exact (order_broken _ _ H SN E).
  - intros H. rewrite sort_names_small in SN by exact H. symmetry. apply map_name_inj. exact SN.
Qed.
Print Assumptions C27_order.

(** The hundred-and-first body becomes the twelfth. *)
Definition many := a_space "" (map (fun i => a_body (decimal i) NoRoot triangle) (seq 0 101)) [].
Theorem C27_refuted : exists s file s',
  save [] s = Ok file /\ load any no_props file empty = Ok s'
  /\ option_map label (nth_error (bodies s) 11) = Some "11"
  /\ option_map label (nth_error (bodies s') 11) = Some "100".
Proof.
  destruct (ok_reload many empty (fun s' => match option_map label (nth_error (bodies s') 11) with
                                            Some l => String.eqb l "100" | _ => false end))
    as (file & s' & E1 & E2 & T); [vm_compute; reflexivity|].
  exists many, file, s'. split; auto. split; auto. split; [vm_compute; reflexivity|].
  destruct (option_map label (nth_error (bodies s') 11)) as [l|]; [|discriminate].
  apply String.eqb_eq in T. subst l. reflexivity.
Qed.
Print Assumptions C27_refuted.

(** * C28 *)

(** Everything but the sources is that of the file; the sources are too if the file has any. *)
Theorem C28_partial : forall accepts properties file s0 s0' s,
  load accepts properties file s0 = Ok s ->
  exists l, load accepts properties file s0' = Ok (with_sources s l)
    /\ (assoc "source" (objects file) = None -> l = sources s0' /\ sources s = sources s0)
    /\ (assoc "source" (objects file) <> None -> Forall2 same_obj (sources s) l).
Proof.
  intros accepts properties file s0 s0' s H.
  destruct (load_before accepts properties file s0 s0' s H) as (l & l' & E1 & E2 & E3 & E4).
  exists l'. split; auto. unfold read_list in E1, E2.
  destruct (assoc "source" (objects file)) as [[rows|]|] eqn:A; try discriminate.
  - split; [discriminate|]. intros _. apply ok_inj in E1, E2. rewrite E3, <- E1, <- E2. apply fill_fill.
  - split; [|congruence]. intros _. apply ok_inj in E1, E2. split; congruence.
Qed.
Print Assumptions C28_partial.

(** A file without sources leaves those of the space before. *)
Definition sourced := a_space "" [] [mkObj (f 1) (f 2) (f 3) fzero fzero fzero].
Theorem C28_refuted : exists s s0 file s',
  save [] s = Ok file /\ load any no_props file s0 = Ok s'
  /\ sources s = [] /\ List.length (sources s') = 1.
Proof.
  destruct (ok_reload two sourced (fun s' => Nat.eqb (List.length (sources s')) 1))
    as (file & s' & E1 & E2 & T); [vm_compute; reflexivity|].
  exists two, sourced, file, s'. split; auto. split; auto. split; [reflexivity|]. apply Nat.eqb_eq. exact T.
Qed.
Print Assumptions C28_refuted.
Example C28_ex : got (reload sourced two) (fun s' => Nat.eqb (List.length (bodies s')) 0 &&
  match sources s' with [o] => neqb (n:=F64) (ox o) (f 1) | _ => false end) = true.
Proof. vm_compute. reflexivity. Qed.

(** * C71 *)

(** Steps of one calculation are saved to different files in the directory of the
    caption, while the name fits and the caption has no "%". *)
Theorem C71_partial : forall s s' n n',
  caption s' = caption s -> no_nul (caption s) -> no_percent (caption s) -> String.length (caption s) <= 45 ->
  Time.Spec.wf_time (time s) -> Time.Spec.wf_time (time s') -> dt s' = dt s -> Time.Spec.wf_time (dt s) ->
  Time.Model.value (dt s) <> 0%Z ->
  (Time.Spec.instant (time s) == inject_Z n * Time.Spec.instant (dt s))%Q ->
  (Time.Spec.instant (time s') == inject_Z n' * Time.Spec.instant (dt s))%Q ->
  (0 <= n < 10 ^ 6)%Z -> (0 <= n' < 10 ^ 6)%Z -> n <> n' ->
  exists a b, result_name s = Ok ("results_" ++ caption s ++ "/" ++ a)%string
    /\ result_name s' = Ok ("results_" ++ caption s ++ "/" ++ b)%string /\ a <> b.
Proof.
  intros s s' n n' EC NN NP L W W' ED WD ND I I' Hn Hn' D.
  assert (F1 : Time.ModelRun.file_number (time s) (dt s) = Some n).
  { apply Time.Properties.C47_file_number_partial; auto. lia. }
  assert (F2 : Time.ModelRun.file_number (time s') (dt s') = Some n').
  { rewrite ED. apply Time.Properties.C47_file_number_partial; auto. lia. }
  exists (int_text 6 n ++ ".h5")%string, (int_text 6 n' ++ ".h5")%string.
  split; [|split].
  - apply result_name_fits with (n := n); auto.
  - rewrite <- EC. apply result_name_fits with (n := n'); auto; rewrite ?EC; auto.
  - intros E. apply append_inj_r, int_text_inj in E; lia.
Qed.
Print Assumptions C71_partial.
Example C71_ex : result_name two = Ok "results_two/000003.h5".
Proof. vm_compute. reflexivity. Qed.

(** A longer caption: every step goes to the same file, whose name is the beginning of
    the caption. *)
Theorem C71_same_file : forall s s' n n',
  caption s' = caption s -> no_nul (caption s) -> no_percent (caption s) -> 55 <= String.length (caption s) < 232 ->
  Time.ModelRun.file_number (time s) (dt s) = Some n -> Time.ModelRun.file_number (time s') (dt s') = Some n' ->
  result_name s = result_name s'.
Proof.
  intros s s' n n' EC NN NP L F F'.
  rewrite (result_name_cut s n), (result_name_cut s' n') by (rewrite ?EC; auto). rewrite EC. reflexivity.
Qed.
Print Assumptions C71_same_file.
Definition long := string_of_list_ascii (repeat "x"%char 60).
Definition at_time (cap : string) (t : Z) : space :=
  mkSpace cap (f 100) (f 1) fzero "" "" vzero vzero (mkTime t 10) (mkTime 1 10) (mkTime 1 10) (mkTime 0 1) (mkTime 0 1)
    finf [] [] [] [] [] [].
Theorem C71_cut_refuted : exists s s' name,
  caption s' = caption s /\ dt s' = dt s /\ time s = mkTime 0 10 /\ time s' = mkTime 1 10
  /\ result_name s = Ok name /\ result_name s' = Ok name.
Proof.
  exists (at_time long 0), (at_time long 1), ("results_" ++ string_of_list_ascii (repeat "x"%char 55))%string.
  do 4 (split; [reflexivity|]). split; vm_compute; reflexivity.
Qed.
Print Assumptions C71_cut_refuted.
(** A caption with "%" is a directive to printf. *)
Theorem C71_percent_refuted : exists s, caption s = "50%" /\ result_name s = Undefined.
Proof. exists (at_time "50%" 0). split; [reflexivity|]. vm_compute. reflexivity. Qed.
Print Assumptions C71_percent_refuted.
(** "%%" is one sign only: the directory is not that of the caption. *)
Example C71_double : result_name (at_time "5%%" 0) = Ok "results_5%/000000.h5".
Proof. vm_compute. reflexivity. Qed.
(** A calculation started before time zero: the last step before zero and that at
    zero have one file, the one before it counts from minus one. *)
Theorem C71_negative_refuted : exists s s' name,
  caption s' = caption s /\ dt s' = dt s /\ time s = mkTime (-1) 10 /\ time s' = mkTime 0 10 /\ dt s = mkTime 1 10
  /\ result_name s = Ok name /\ result_name s' = Ok name.
Proof.
  exists (at_time "two" (-1)), (at_time "two" 0), "results_two/000000.h5".
  do 5 (split; [reflexivity|]). split; vm_compute; reflexivity.
Qed.
Print Assumptions C71_negative_refuted.
Example C71_negative : result_name (at_time "two" (-2)) = Ok "results_two/-00001.h5".
Proof. vm_compute. reflexivity. Qed.

(** * C72 *)

(** After loading no segment has friction or heat collected in the step before. *)
Theorem C72_lost : forall meta accepts properties s s0 file,
  save meta s = Ok file -> only_meta meta -> plain accepts s -> (sources s <> [] \/ sources s0 = []) ->
  exists s', load accepts properties file s0 = Ok s'
    /\ Forall (fun b => Forall (fun a => fric a = fzero /\ hsum a = fzero) (alist b)) (bodies s').
Proof.
  intros meta accepts properties s s0 file SV OM PL HS.
  destruct (load_saved meta accepts properties s s0 file SV OM PL HS) as (p & s' & SN & L & S & N).
  exists s'. split; auto. eapply Forall_impl; [|exact N]. intros b (_ & _ & X & _).
  eapply Forall_impl; [|exact X]. intros a (A & B & _). auto.
Qed.
Print Assumptions C72_lost.

(** So the friction of the step in which the calculation is resumed is another one. *)
Definition fx (s : space) : list f64 :=
  map (fun b => Body.Model.x (Body.Model.r3 (Forces.Model.friction
    (Forces.Model.calc_forces (K:=F64) (f 3) (re s) (pr s) (f 1) (forces_of b))))) (bodies s).
Lemma only_one (t : f64 -> bool) (l : list f64) : match l with [v] => t v | _ => false end = true ->
  exists v, l = [v] /\ t v = true.
Proof. destruct l as [|v [|? ?]]; intros H; try discriminate. eauto. Qed.
Theorem C72_refuted : exists s file s' u v,
  save [] s = Ok file /\ load any no_props file empty = Ok s'
  /\ fx s = [u] /\ fx s' = [v] /\ neqb (n:=F64) v fzero = true /\ neqb (n:=F64) u fzero = false.
Proof.
  set (s := a_space "" [a_body "" NoRoot [one_att 0 0 1 0; one_att 0 1 0 0; one_att 1 1 0 0; one_att 1 0 2 0]] []).
  destruct (only_one (fun u => negb (neqb (n:=F64) u fzero)) (fx s)) as (u & EU & NU); [vm_compute; reflexivity|].
  destruct (ok_reload s empty (fun s' => match fx s' with [v] => neqb (n:=F64) v fzero | _ => false end))
    as (file & s' & E1 & E2 & T); [vm_compute; reflexivity|].
  destruct (only_one _ _ T) as (v & EV & NV). apply negb_true_iff in NU.
  exists s, file, s', u, v. exact (conj E1 (conj E2 (conj EU (conj EV (conj NV NU))))).
Qed.
Print Assumptions C72_refuted.
