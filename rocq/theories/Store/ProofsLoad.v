(** A saved file is read back. *)

From Coq Require Import List Arith ZArith Bool String Ascii Permutation Lia Sorted.
From Flocq Require Import IEEE754.BinarySingleNaN.
From Verif.Base Require Import Num F64 F32.
From Verif.Body Require Model.
From Verif.Store Require Import Model Spec Proofs.
Import ListNotations.
Local Open Scope string_scope.
Local Open Scope list_scope.

Lemma ok_inj {A} (a b : A) : Ok a = Ok b -> a = b.
Proof. congruence. Qed.
Lemma bind_ok {A B} (o : outcome A) (f : A -> outcome B) b : bind o f = Ok b -> exists a, o = Ok a /\ f a = Ok b.
Proof. destruct o; cbn [bind]; intros H; try discriminate. eauto. Qed.
Lemma bind_eq {A B} (o : outcome A) (f : A -> outcome B) a : o = Ok a -> bind o f = f a.
Proof. intros ->. reflexivity. Qed.

Ltac look :=
  cbn [app];
  repeat first [ rewrite assoc_hit | rewrite assoc_skip by reflexivity | rewrite str_skip by reflexivity
               | rewrite str_hit by assumption | rewrite assoc_list_skip by reflexivity | progress cbn [app] ].

Section Read.
Variable accepts : string -> bool.
Variable properties : list vec -> f64 * vec * f64.

Lemma r_str_of a name s :
  assoc name a = (if String.eqb s "" then None else Some (AStr s)) -> r_str a name = Ok s.
Proof.
  unfold r_str. intros ->. destruct (String.eqb_spec s "") as [->|N]; reflexivity.
Qed.
Lemma r_expr_of a name s :
  r_str a name = Ok s -> (s <> "" -> accepts s = true) -> r_expr accepts a name = Ok s.
Proof.
  intros E H. unfold r_expr. rewrite E. cbn [bind].
  destruct (String.eqb_spec s "") as [->|N]; [reflexivity|]. rewrite H by assumption. reflexivity.
Qed.

Lemma read_atts_same h (l : list att) :
  (forall a, In a l -> Beqb (heat_const a) h = true) ->
  Forall2 same_att l (read_atts h (map (fun a => (corner a, ag a, agsum a)) l) (map slip l)).
Proof.
  induction l as [|a tl IH]; intros H; cbn [map read_atts]; constructor.
  - repeat split. apply H. left. reflexivity.
  - apply IH. intros b B. apply H. right. exact B.
Qed.
Lemma same_corners l m : Forall2 same_att l m -> map corner m = map corner l.
Proof. induction 1 as [|a b l m S _ IH]; cbn [map]; auto. destruct S as (-> & _). rewrite IH. reflexivity. Qed.

Lemma repeat_map (l : list att) v : (forall a, In a l -> slip a = v) -> repeat v (List.length l) = map slip l.
Proof.
  induction l as [|a tl IH]; intros H; cbn [List.length repeat map]; auto.
  rewrite (H a) by (left; reflexivity). f_equal. apply IH. intros b B. apply H. right. exact B.
Qed.

(** What the conditions of a saved body are read as. *)
Lemma r_bc_of a name c : assoc name a = Some (AU (bc_code c)) -> r_bc a name = Ok c.
Proof. unfold r_bc, r_u. intros ->. destruct c; reflexivity. Qed.
Lemma r_hc_of a name c : assoc name a = Some (AU (hc_code c)) -> r_hc a name = Ok c.
Proof. unfold r_hc, r_u. intros ->. destruct c; reflexivity. Qed.
Lemma r_d_of a name x : assoc name a = Some (AD x) -> r_d a name = Ok x.
Proof. unfold r_d. intros ->. reflexivity. Qed.
Lemma r_vec_of a name x : assoc name a = Some (AV x) -> r_vec a name = Ok x.
Proof. unfold r_vec. intros ->. reflexivity. Qed.
Lemma r_vec3_of a name x : assoc name a = Some (A3 x) -> r_vec3 a name = Ok x.
Proof. unfold r_vec3. intros ->. reflexivity. Qed.
Lemma r_i_of a name x : assoc name a = Some (AI x) -> r_i a name = Ok x.
Proof. unfold r_i. intros ->. reflexivity. Qed.
Lemma r_u_of a name x : assoc name a = Some (AU x) -> r_u a name = Ok x.
Proof. unfold r_u. intros ->. reflexivity. Qed.
Lemma r_time_of a name x : assoc name a = Some (AT x) -> r_time a name = Ok x.
Proof. unfold r_time. intros ->. reflexivity. Qed.

Lemma read_conditions_of a n sl sp b c h :
  assoc "simplified_dataset" a = Some (AU 2) -> r_slips a n = Ok sl ->
  assoc "special_segment_no" a = Some (AI sp) ->
  assoc "boundary_condition" a = Some (AU (bc_code b)) ->
  assoc "heat_condition" a = Some (AU (hc_code c)) ->
  assoc "general_heat_const" a = Some (AD h) ->
  read_conditions a n = Ok (sl, sp, b, c, h).
Proof.
  intros E1 E2 E3 E4 E5 E6. unfold read_conditions.
  rewrite (r_u_of _ _ _ E1). cbn [bind]. change (2 <? 2)%Z with false. change (2 =? 2)%Z with true. cbv iota.
  rewrite E2. cbn [bind].
  rewrite (r_i_of _ _ _ E3). cbn [bind].
  rewrite (r_bc_of _ _ _ E4). cbn [bind].
  rewrite (r_hc_of _ _ _ E5). cbn [bind].
  rewrite (r_d_of _ _ _ E6). reflexivity.
Qed.

(** What is not in the file. *)
Definition new_body (b : body) : Prop :=
  friction b = vzero3 /\ nusselt b = fzero
  /\ Forall (fun a => hsum a = fzero /\ fric a = fzero /\ acp a = fzero /\ afr a = fzero /\ anu a = fzero
                      /\ layer a = (-1)%Z) (alist b)
  /\ (area b, cofm b, moi b) = properties (map corner (alist b)).

Lemma read_atts_new h rows sl :
  Forall (fun a => hsum a = fzero /\ fric a = fzero /\ acp a = fzero /\ afr a = fzero /\ anu a = fzero
                   /\ layer a = (-1)%Z) (read_atts h rows sl).
Proof.
  revert sl. induction rows as [|[[c g] gs] tl IH]; intros [|s sl]; cbn [read_atts]; constructor; auto.
  repeat split; reflexivity.
Qed.

Lemma read_written f names name r b d :
  assoc name (objects f) = Some d -> write_body r b = Ok d -> plain_body accepts b -> no_nul r ->
  exists b', read_body accepts properties f names name = Ok b' /\ same_body b b'
    /\ root_body b' = read_root names r /\ new_body b'.
Proof.
  intros A W (PL & PE) NR. unfold write_body in W.
  destruct (alist b) as [|first tl] eqn:AL; [discriminate|]. rewrite <- AL in W.
  destruct (forallb (fun a => Beqb (heat_const a) (heat_const first)) (alist b)) eqn:HT; cbn [negb] in W; [|discriminate].
  rewrite forallb_forall in HT.
  assert (HF : Beqb (heat_const first) (heat_const first) = true).
  { apply HT. rewrite AL. left. reflexivity. }
  assert (PX : no_nul (speed_x b) /\ (speed_x b <> "" -> accepts (speed_x b) = true)) by (apply PE; cbn [In]; auto).
  assert (PY : no_nul (speed_y b) /\ (speed_y b <> "" -> accepts (speed_y b) = true)) by (apply PE; cbn [In]; auto).
  assert (PO : no_nul (speed_o b) /\ (speed_o b <> "" -> accepts (speed_o b) = true)) by (apply PE; cbn [In]; auto).
  assert (PF : no_nul (force_o b) /\ (force_o b <> "" -> accepts (force_o b) = true)) by (apply PE; cbn [In]; auto).
  destruct PX as (NX & AX), PY as (NY & AY), PO as (NO & AO), PF as (NF & AF).
  assert (D : exists sl, d = DBody (map (fun a => (corner a, ag a, agsum a)) (alist b)) sl
    /\ r_slips sl (List.length (alist b)) = Ok (map slip (alist b))
    /\ (forall n, String.eqb "general_slip" n = false -> String.eqb "slip" n = false ->
          assoc n sl = assoc n
          ([("general_heat_const", AD (f32_to_f64 (heat_const first)));
           ("simplified_dataset", AU 2)]
       ++ w_str "label" (label b) ++ w_str "root_body" r
       ++ [("holder_position", A3 (holder b)); ("delta_position", A3 (dpos b))]
       ++ w_str "speed_x" (speed_x b) ++ w_str "speed_y" (speed_y b)
       ++ w_str "speed_o" (speed_o b) ++ w_str "force_o" (force_o b)
       ++ [("speed_slae", A3 (speed_slae b)); ("speed_slae_prev", A3 (speed_slae_prev b));
           ("spring_const", A3 (kspring b)); ("spring_damping", A3 (damping b));
           ("density", AD (density b)); ("force_hydro", A3 (force_hydro b));
           ("force_holder", A3 (force_holder b)); ("friction_prev", A3 (friction_prev b));
           ("fdt_dead", A3 (fdt_dead b)); ("g_dead", AD (g_dead b));
           ("collision_min", A3 (collision_min b)); ("collision_max", A3 (collision_max b));
           ("bounce", AD (bounce b)); ("area", AD (area b)); ("cofm", AV (cofm b));
           ("moi_cofm", AD (moi b)); ("moi_axis", AD (moi_axis b));
           ("special_segment_no", AI (special_segment_no b));
           ("boundary_condition", AU (bc_code (boundary_condition b)));
           ("heat_condition", AU (hc_code (heat_condition b)))]))).
  { destruct (forallb (fun a => Z.eqb (slip a) (slip first)) (alist b)) eqn:SL; apply ok_inj in W.
    - eexists. split; [symmetry; exact W|]. split.
      + unfold r_slips. look. cbn [assoc]. rewrite (r_u_of _ _ (slip first)) by (look; reflexivity).
        cbn [bind]. f_equal. apply repeat_map. intros a I. rewrite forallb_forall in SL.
        apply Z.eqb_eq. apply SL. exact I.
      + intros n E1 E2. cbn [app]. rewrite assoc_skip by assumption. reflexivity.
    - eexists. split; [symmetry; exact W|]. split.
      + unfold r_slips. look. rewrite map_length. rewrite Nat.ltb_irrefl, Nat.sub_diag.
        cbn [repeat]. rewrite app_nil_r. reflexivity.
      + intros n E1 E2. cbn [app]. rewrite assoc_skip by assumption. reflexivity. }
  destruct D as (a & -> & SL & AT). clear W.
  unfold read_body. rewrite A.
  assert (H1 : r_str a "label" = Ok (label b)).
  { apply r_str_of. rewrite AT by reflexivity. look. destruct (String.eqb (label b) ""); look; reflexivity. }
  rewrite (bind_eq _ _ _ H1).
  rewrite (bind_eq _ _ (holder b)) by (apply r_vec3_of; rewrite AT by reflexivity; look; reflexivity).
  rewrite (bind_eq _ _ (dpos b)) by (apply r_vec3_of; rewrite AT by reflexivity; look; reflexivity).
  assert (H2 : r_str a "speed_x" = Ok (speed_x b)).
  { apply r_str_of. rewrite AT by reflexivity. look. destruct (String.eqb (speed_x b) ""); look; reflexivity. }
  assert (H3 : r_str a "speed_y" = Ok (speed_y b)).
  { apply r_str_of. rewrite AT by reflexivity. look. destruct (String.eqb (speed_y b) ""); look; reflexivity. }
  assert (H4 : r_str a "speed_o" = Ok (speed_o b)).
  { apply r_str_of. rewrite AT by reflexivity. look. destruct (String.eqb (speed_o b) ""); look; reflexivity. }
  assert (H5 : r_str a "force_o" = Ok (force_o b)).
  { apply r_str_of. rewrite AT by reflexivity. look. destruct (String.eqb (force_o b) ""); look; reflexivity. }
  rewrite (bind_eq _ _ _ (r_expr_of _ _ _ H2 AX)), (bind_eq _ _ _ (r_expr_of _ _ _ H3 AY)),
    (bind_eq _ _ _ (r_expr_of _ _ _ H4 AO)), (bind_eq _ _ _ (r_expr_of _ _ _ H5 AF)).
  rewrite (bind_eq _ _ (speed_slae b)) by (apply r_vec3_of; rewrite AT by reflexivity; look; reflexivity).
  rewrite (bind_eq _ _ (speed_slae_prev b)) by (apply r_vec3_of; rewrite AT by reflexivity; look; reflexivity).
  rewrite (bind_eq _ _ (kspring b)) by (apply r_vec3_of; rewrite AT by reflexivity; look; reflexivity).
  rewrite (bind_eq _ _ (damping b)) by (apply r_vec3_of; rewrite AT by reflexivity; look; reflexivity).
  rewrite (bind_eq _ _ (density b)) by (apply r_d_of; rewrite AT by reflexivity; look; reflexivity).
  rewrite (bind_eq _ _ (force_hydro b)) by (apply r_vec3_of; rewrite AT by reflexivity; look; reflexivity).
  rewrite (bind_eq _ _ (force_holder b)) by (apply r_vec3_of; rewrite AT by reflexivity; look; reflexivity).
  rewrite (bind_eq _ _ (friction_prev b)) by (apply r_vec3_of; rewrite AT by reflexivity; look; reflexivity).
  rewrite (bind_eq _ _ (fdt_dead b)) by (apply r_vec3_of; rewrite AT by reflexivity; look; reflexivity).
  rewrite (bind_eq _ _ (g_dead b)) by (apply r_d_of; rewrite AT by reflexivity; look; reflexivity).
  rewrite (bind_eq _ _ (collision_min b)) by (apply r_vec3_of; rewrite AT by reflexivity; look; reflexivity).
  rewrite (bind_eq _ _ (collision_max b)) by (apply r_vec3_of; rewrite AT by reflexivity; look; reflexivity).
  rewrite (bind_eq _ _ (bounce b)) by (apply r_d_of; rewrite AT by reflexivity; look; reflexivity).
  assert (H6 : r_str a "root_body" = Ok r).
  { apply r_str_of. rewrite AT by reflexivity. look. destruct (String.eqb r ""); look; reflexivity. }
  rewrite (bind_eq _ _ _ H6).
  rewrite map_length.
  rewrite (bind_eq _ _ _ (read_conditions_of a _ _ (special_segment_no b) (boundary_condition b)
     (heat_condition b) (f32_to_f64 (heat_const first))
     ltac:(rewrite AT by reflexivity; look; reflexivity) SL
     ltac:(rewrite AT by reflexivity; look; reflexivity)
     ltac:(rewrite AT by reflexivity; look; reflexivity)
     ltac:(rewrite AT by reflexivity; look; reflexivity)
     ltac:(rewrite AT by reflexivity; look; reflexivity))).
  set (al := read_atts _ _ _).
  assert (SA : Forall2 same_att (alist b) al).
  { apply read_atts_same. intros x X. apply beq_trans with (heat_const first); auto. apply heat_kept. exact HF. }
  assert (NA := read_atts_new (f64_to_f32 (f32_to_f64 (heat_const first)))
                  (map (fun a => (corner a, ag a, agsum a)) (alist b)) (map slip (alist b))).
  fold al in NA.
  assert (TE : option_map heat_const (hd_error (alist b)) = option_map heat_const (hd_error al)).
  { unfold al. rewrite AL. cbn [map read_atts hd_error option_map heat_const]. now rewrite heat_exact. }
  clearbody al.
  destruct (properties (map corner al)) as [[ar cm] mo] eqn:PR.
  destruct (map (fun a0 => (corner a0, ag a0, agsum a0)) (alist b)) eqn:RW.
  { rewrite AL in RW. discriminate. }
  eexists. split; [reflexivity|]. split; [|split].
  - constructor; cbn -[hd_error option_map]; try reflexivity; [exact SA|exact TE].
  - reflexivity.
  - unfold new_body. cbn [friction nusselt alist area cofm moi]. rewrite PR. repeat split; auto.
Qed.
End Read.
