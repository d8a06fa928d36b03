(** Options of vvplot do not depend on one another. *)

From Coq Require Import List ZArith Bool String Ascii Lia.
From Verif Require Import Base.Num Opt.Getopt Opt.Model Opt.Spec Opt.Proofs.
Import ListNotations.
Local Open Scope string_scope.

Section Order.
Context {K : Num}.
Variable scan_int : string -> option (Z * string).
Variable scan_num : string -> option (K * string).
Notation step := (@plot_event K scan_int scan_num).

(** What an accepted option does. *)
Inductive upd :=
| UB | UV | UVsize (n : Z) | US | USrange (a b d : K) | UG | UGmax (g : K) | UP | UPrange (a b : K) | UU (u : ascii) | UUrange (u : ascii) (a b : K)
| UX (a b : K) | UY (a b : K) | USize (w h : Z) | UHi (n : Z) | ULo (n : Z) | UEps (e : K) | URefXY (c : ascii) | URefS (c : ascii) | URefP (c : ascii) | ULoad (t : string)
| UOfmt (x : Z) | UGray (x : Z) | UColor (x : Z) | UTime (x : Z) | UHold (x : Z) | USpring (x : Z) | UBottom (x : Z) | UNear (x : Z) | UFind (x : Z).
Definition run (u : upd) (p : @plot K) : plot :=
  match u with
  | UB => set_B true p | UV => set_V true p | UVsize n => set_Vsize n (set_V true p) | US => set_S true p | USrange a b d => set_Srange a b d (set_S true p)
  | UG => set_colorbox 1 (set_field true false zero p) | UGmax g => set_Gmax g (set_colorbox 1 (set_field true false zero p))
  | UP => set_colorbox 1 (set_field false true zero p) | UPrange a b => set_Prange a b (set_colorbox 1 (set_field false true zero p))
  | UU u => set_colorbox 1 (set_field false false u p) | UUrange u a b => set_Urange a b (set_colorbox 1 (set_field false false u p))
  | UX a b => set_x a b p | UY a b => set_y a b p | USize w h => set_size w h p | UHi n => set_hi n p | ULo n => set_lo n p | UEps e => set_eps e p
  | URefXY c => set_ref_xy c p | URefS c => set_ref_S c p | URefP c => set_ref_P c p | ULoad t => set_load (Some t) p
  | UOfmt x => set_ofmt x p | UGray x => set_gray x p | UColor x => set_colorbox x p | UTime x => set_timelabel x p | UHold x => set_holder x p
  | USpring x => set_spring x p | UBottom x => set_bottom x p | UNear x => set_near x p | UFind x => set_find x p
  end.
Definition about (u : upd) : string :=
  match u with
  | UB => "B" | UV | UVsize _ => "V" | US | USrange _ _ _ => "S" | UG | UGmax _ | UP | UPrange _ _ | UU _ | UUrange _ _ _ | UColor _ => "field"
  | UX _ _ => "x" | UY _ _ => "y" | USize _ _ => "size" | UHi _ => "res-hi" | ULo _ => "res-lo" | UEps _ => "eps" | URefXY _ => "ref-xy" | URefS _ => "ref-S" | URefP _ => "ref-P"
  | ULoad _ => "load-field" | UOfmt _ => "format" | UGray _ => "gray" | UTime _ => "timelabel" | UHold _ => "holder" | USpring _ => "spring"
  | UBottom _ => "ttree-bottom-nodes" | UNear _ => "ttree-near-nodes" | UFind _ => "ttree-find-node"
  end.
Lemma run_comm u v p : about u <> about v -> run u (run v p) = run v (run u p).
Proof. destruct u, v; intros N; try reflexivity; exfalso; apply N; reflexivity. Qed.

(** The option [c] does [u] for every state. *)
Definition does (c : Z) (axis : option ascii) (a : option string) (u : upd) : Prop := forall p, plot_case scan_int scan_num c axis a p = Go (run u p).
Lemma check_ok (b : bool) (p q : @plot K) : check b p = Go q -> b = true.
Proof. now destruct b. Qed.
Ltac by_check u := let H := fresh in intros H; apply check_ok in H; exists u; split; [|intros; unfold check; rewrite H; reflexivity].

Lemma value_does c t p q (name : string) : In (c, name) [(code "x", "x"); (code "y", "y"); (code "s", "size"); (0xff00%Z, "res-hi"); (0xff01%Z, "res-lo"); (0xff02%Z, "eps"); (0xff10%Z, "load-field"); (0xfe10%Z, "ref-xy"); (0xfe11%Z, "ref-S"); (0xfe12%Z, "ref-P")] ->
  plot_value scan_int scan_num c t p = Go q -> exists u, about u = name /\ forall p, plot_value scan_int scan_num c t p = Go (run u p).
Proof.
  intros N. repeat (destruct N as [N|N]; [apply pair_equal_spec in N as [<- <-]|]); [..|destruct N].
  - cbn [plot_value]. change (plot_value scan_int scan_num (code "x") t) with (fun p => match two_nums scan_num t with Some (a, b) => check (negb (isinf a) && negb (isinf b)) (set_x a b p) | None => Exit 1 end).
    cbv beta. destruct (two_nums scan_num t) as [[a b]|]; [|discriminate]. by_check (UX a b); reflexivity.
  - change (plot_value scan_int scan_num (code "y") t) with (fun p => match two_nums scan_num t with Some (a, b) => check (negb (isinf a) && negb (isinf b)) (set_y a b p) | None => Exit 1 end).
    cbv beta. destruct (two_nums scan_num t) as [[a b]|]; [|discriminate]. by_check (UY a b); reflexivity.
  - change (plot_value scan_int scan_num (code "s") t) with (fun p => match dims scan_int t with Some (w, h) => check (Z.leb 0 w && Z.leb 0 h) (@set_size K w h p) | None => Exit 1 end).
    cbv beta. destruct (dims scan_int t) as [[a b]|]; [|discriminate]. by_check (USize a b); reflexivity.
  - change (plot_value scan_int scan_num 0xff00 t) with (fun p => match one_int scan_int t with Some n => check (Z.ltb 0 n) (@set_hi K n p) | None => Exit 1 end).
    cbv beta. destruct (one_int scan_int t) as [a|]; [|discriminate]. by_check (UHi a); reflexivity.
  - change (plot_value scan_int scan_num 0xff01 t) with (fun p => match one_int scan_int t with Some n => check (Z.ltb 0 n) (@set_lo K n p) | None => Exit 1 end).
    cbv beta. destruct (one_int scan_int t) as [a|]; [|discriminate]. by_check (ULo a); reflexivity.
  - change (plot_value scan_int scan_num 0xff02 t) with (fun p => match one_num scan_num t with Some e => check (nltb (nofZ 0) e) (set_eps e p) | None => Exit 1 end).
    cbv beta. destruct (one_num scan_num t) as [a|]; [|discriminate]. by_check (UEps a); reflexivity.
  - intros _. exists (ULoad t). split; reflexivity.
  - change (plot_value scan_int scan_num 0xfe10 t) with (fun p : @plot K => if String.eqb t "o" then Go (set_ref_xy "o" p) else if String.eqb t "f" then Go (set_ref_xy "f" p)
      else if String.eqb t "b" then Go (set_ref_xy "b" p) else if String.eqb t "bxy" then Go (set_ref_xy "b" p)
      else if String.eqb t "bx" then Go (set_ref_xy "x" p) else if String.eqb t "by" then Go (set_ref_xy "y" p) else Exit 1). cbv beta.
    repeat match goal with |- (if ?b then Go (set_ref_xy ?c _) else _) = _ -> _ => destruct b; [intros _; exists (URefXY c); split; reflexivity|] end. discriminate.
  - change (plot_value scan_int scan_num 0xfe11 t) with (fun p => match one_char t with Some r => check (Ascii.eqb r "o" || Ascii.eqb r "b" || Ascii.eqb r "f") (@set_ref_S K r p) | None => Exit 1 end).
    cbv beta. destruct (one_char t) as [a|]; [|discriminate]. by_check (URefS a); reflexivity.
  - change (plot_value scan_int scan_num 0xfe12 t) with (fun p => match one_char t with Some r => check (Ascii.eqb r "o" || Ascii.eqb r "b" || Ascii.eqb r "f" || Ascii.eqb r "s") (@set_ref_P K r p) | None => Exit 1 end).
    cbv beta. destruct (one_char t) as [a|]; [|discriminate]. by_check (URefP a); reflexivity.
Qed.

Lemma case_does c axis a p q (name : string) :
  In (c, name) [(code "B", "B"); (code "V", "V"); (code "S", "S"); (code "G", "field"); (code "P", "field"); (code "U", "field");
    (code "x", "x"); (code "y", "y"); (code "s", "size"); (0xff00%Z, "res-hi"); (0xff01%Z, "res-lo"); (0xff02%Z, "eps"); (0xff10%Z, "load-field"); (0xfe10%Z, "ref-xy"); (0xfe11%Z, "ref-S"); (0xfe12%Z, "ref-P")] ->
  plot_case scan_int scan_num c axis a p = Go q -> exists u, about u = name /\ does c axis a u.
Proof.
  intros N. unfold does. destruct N as [N|[N|[N|[N|[N|[N|N]]]]]]; [apply pair_equal_spec in N as [<- <-]|apply pair_equal_spec in N as [<- <-]|apply pair_equal_spec in N as [<- <-]|apply pair_equal_spec in N as [<- <-]|apply pair_equal_spec in N as [<- <-]|apply pair_equal_spec in N as [<- <-]|].
  - intros _. exists UB. split; reflexivity.
  - change (plot_case scan_int scan_num (code "V") axis a) with (fun p : @plot K => match a with None => Go (set_V true p)
      | Some t => match one_int scan_int t with Some n => check (Z.leb 0 n) (set_Vsize n (set_V true p)) | None => Exit 1 end end). cbv beta.
    destruct a as [t|]; [|intros _; exists UV; split; reflexivity]. destruct (one_int scan_int t) as [n|]; [|discriminate]. by_check (UVsize n); reflexivity.
  - change (plot_case scan_int scan_num (code "S") axis a) with (fun p : @plot K => match a with None => Go (set_S true p)
      | Some t => match three_nums scan_num t with Some (a, b, d) => check (nfinite a && nfinite b && nleb a b && nfinite d && nltb (nofZ 0) d) (set_Srange a b d (set_S true p)) | None => Exit 1 end end). cbv beta.
    destruct a as [t|]; [|intros _; exists US; split; reflexivity]. destruct (three_nums scan_num t) as [[[x y] d]|]; [|discriminate]. by_check (USrange x y d); reflexivity.
  - change (plot_case scan_int scan_num (code "G") axis a) with (fun p : @plot K => match a with None => Go (set_colorbox 1 (set_field true false zero p))
      | Some t => match one_num scan_num t with Some g => check (nfinite g && nleb (nofZ 0) g) (set_Gmax g (set_colorbox 1 (set_field true false zero p))) | None => Exit 1 end end). cbv beta.
    destruct a as [t|]; [|intros _; exists UG; split; reflexivity]. destruct (one_num scan_num t) as [g|]; [|discriminate]. by_check (UGmax g); reflexivity.
  - change (plot_case scan_int scan_num (code "P") axis a) with (fun p : @plot K => match a with None => Go (set_colorbox 1 (set_field false true zero p))
      | Some t => match two_nums scan_num t with Some (a, b) => check (nfinite a && nfinite b && nleb a b) (set_Prange a b (set_colorbox 1 (set_field false true zero p))) | None => Exit 1 end end). cbv beta.
    destruct a as [t|]; [|intros _; exists UP; split; reflexivity]. destruct (two_nums scan_num t) as [[x y]|]; [|discriminate]. by_check (UPrange x y); reflexivity.
  - change (plot_case scan_int scan_num (code "U") axis a) with (fun p : @plot K => match a with None => Exit 1 | Some t => match axis with
      | None => match one_char t with Some u => check (Ascii.eqb u "x" || Ascii.eqb u "y") (set_colorbox 1 (set_field false false u p)) | None => Exit 1 end
      | Some u => match two_nums scan_num t with Some (a, b) => check (nfinite a && nfinite b && nleb a b) (set_Urange a b (set_colorbox 1 (set_field false false u p))) | None => Exit 1 end end end). cbv beta.
    destruct a as [t|]; [|discriminate]. destruct axis as [u|].
    + destruct (two_nums scan_num t) as [[x y]|]; [|discriminate]. by_check (UUrange u x y); reflexivity.
    + destruct (one_char t) as [u|]; [|discriminate]. by_check (UU u); reflexivity.
  - assert (V : forall p, plot_case scan_int scan_num c axis a p = match a with Some t => plot_value scan_int scan_num c t p | None => Exit 1 end).
    { intros p0. repeat (destruct N as [N|N]; [apply pair_equal_spec in N as [<- _]; reflexivity|]). destruct N. }
    rewrite V. destruct a as [t|]; [|discriminate]. intros E. destruct (value_does c t p q name N E) as (u & A & D). exists u. split; [exact A|]. intros p0. now rewrite V.
Qed.
Lemma event_does e p q : step e p = Go q -> exists u, about u = topic e /\ forall p, step e p = Go (run u p).
Proof.
  destruct e as [c a|i a|]; cbn [plot_event]; [| |discriminate].
  - intros E. destruct (find_letter plot_letters c) as [b|] eqn:F.
    + apply (case_does _ _ _ p q); [|exact E]. cbn [topic]. cbn [plot_letters find_letter] in F.
      assert (X : forall d, Ascii.eqb c d = true -> c = d) by (intros d; apply Ascii.eqb_eq).
      destruct (Ascii.eqb c "n") eqn:En; [apply X in En; subst c; destruct a; discriminate E|].
      destruct (Ascii.eqb c "v") eqn:Ev; [apply X in Ev; subst c; discriminate E|].
      destruct (Ascii.eqb c "h") eqn:Eh; [apply X in Eh; subst c; discriminate E|].
      repeat match type of F with (if Ascii.eqb c ?d then _ else _) = _ => destruct (Ascii.eqb_spec c d) as [->|_]; [cbn; tauto|] end. discriminate F.
    + exfalso. revert E F. unfold plot_case. clear. destruct c as [[] [] [] [] [] [] [] []]; cbn; try discriminate; destruct a; discriminate.
  - destruct (nth_error plot_long i) as [o|] eqn:N; [|discriminate]. cbn [topic]. rewrite N. apply nth_error_In in N.
    destruct (flag o) as [v|] eqn:FL.
    + intros _. unfold plot_long in N. cbn [In] in N.
      repeat (destruct N as [<-|N]; [cbn [flag flag_opt plain_opt arg_opt] in FL; try discriminate FL; injection FL as <-; cbn [val flag_opt];
        first [exists (UOfmt 1); split; reflexivity|exists (UOfmt 2); split; reflexivity|exists (UGray 0); split; reflexivity|exists (UGray 1); split; reflexivity
              |exists (UColor 0); split; reflexivity|exists (UColor 1); split; reflexivity|exists (UTime 0); split; reflexivity|exists (UTime 1); split; reflexivity
              |exists (UHold 0); split; reflexivity|exists (UHold 1); split; reflexivity|exists (USpring 0); split; reflexivity|exists (USpring 1); split; reflexivity
              |exists (UBottom 1); split; reflexivity|exists (UNear 1); split; reflexivity|exists (UFind 1); split; reflexivity]|]). destruct N.
    + intros E. apply (case_does _ _ _ p q); [|exact E]. unfold plot_long in N. cbn [In] in N.
      repeat (destruct N as [<-|N]; [cbn [flag flag_opt plain_opt arg_opt] in FL; try discriminate FL; try discriminate E; cbn; tauto|]). destruct N.
Qed.
Lemma swap e1 e2 p q : topic e1 <> topic e2 -> each step [e1; e2] p = Go q -> each step [e2; e1] p = Go q.
Proof.
  intros T. cbn [each]. destruct (step e1 p) as [n|p1] eqn:E1; [discriminate|]. destruct (step e2 p1) as [n|p2] eqn:E2; [discriminate|]. intros E. apply go_inj in E. subst q.
  destruct (event_does _ _ _ E1) as (u & A & U). destruct (event_does _ _ _ E2) as (v & B & V). rewrite U in E1. rewrite V in E2. apply go_inj in E1, E2. subst p1 p2.
  rewrite V, U. f_equal. apply run_comm. congruence.
Qed.
Lemma each_app evs evs' p : each step (app evs evs') p = match each step evs p with Exit n => Exit n | Go p => each step evs' p end.
Proof. revert p. induction evs as [|e evs IH]; intros p; cbn [app each]; [reflexivity|]. destruct (step e p); [reflexivity|apply IH]. Qed.
Lemma swap_in before e1 e2 after p q : topic e1 <> topic e2 -> each step (app before (e1 :: e2 :: after)) p = Go q -> each step (app before (e2 :: e1 :: after)) p = Go q.
Proof.
  intros T. rewrite !each_app. destruct (each step before p) as [n|p1]; [discriminate|].
  change (e1 :: e2 :: after) with (app [e1; e2] after). change (e2 :: e1 :: after) with (app [e2; e1] after). rewrite !each_app.
  destruct (each step [e1; e2] p1) as [n|p2] eqn:E; [discriminate|]. now rewrite (swap _ _ _ _ T E).
Qed.
End Order.
