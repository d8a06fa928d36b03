(** Proofs about the body list: invariants of every history of calls. *)

From Coq Require Import List ZArith Bool Arith Lia String.
From Verif Require Import Base.Int Lua.Model Lua.Spec.
Import ListNotations.

(** * Lists *)

Definition isb (b : nat) (h : option nat) : bool :=
  match h with Some c => Nat.eqb b c | None => false end.

Lemma filter_none {A} (f : A -> bool) l :
  (forall x, In x l -> f x = false) -> filter f l = [].
Proof.
  induction l as [|x l IH]; intros H; [reflexivity|]. cbn.
  rewrite (H x (or_introl eq_refl)). apply IH. intros y Hy. apply H. right; exact Hy.
Qed.

Lemma without_some b l l' :
  without b l = Some l' ->
  exists l1 l2, l = l1 ++ b :: l2 /\ l' = l1 ++ l2 /\ ~ In b l1.
Proof.
  revert l'; induction l as [|c l IH]; intros l' H; [discriminate|].
  cbn in H. destruct (Nat.eqb_spec c b) as [->|N].
  - injection H as <-. exists [], l. repeat split; auto.
  - destruct (without b l) as [m|] eqn:E; [|discriminate]. injection H as <-.
    destruct (IH m eq_refl) as (l1 & l2 & -> & -> & Hn).
    exists (c :: l1), l2. repeat split. intros [?|?]; auto.
Qed.

Lemma without_none b l : without b l = None -> ~ In b l.
Proof.
  induction l as [|c l IH]; intros H; [intros []|]. cbn in H.
  destruct (Nat.eqb_spec c b) as [->|N]; [discriminate|].
  destruct (without b l); [discriminate|]. intros [?|?]; [congruence|]. apply IH; auto.
Qed.

Lemma existsb_in b l : existsb (Nat.eqb b) l = true <-> In b l.
Proof.
  rewrite existsb_exists. split.
  - intros (x & Hx & E). apply Nat.eqb_eq in E. subst; exact Hx.
  - intros H. exists b. split; [exact H|apply Nat.eqb_refl].
Qed.

Lemma nodup_app_remove {A} (b : A) l1 l2 :
  NoDup (l1 ++ b :: l2) -> NoDup (l1 ++ l2) /\ ~ In b l1 /\ ~ In b l2.
Proof.
  intros H. split; [exact (NoDup_remove_1 _ _ _ H)|].
  pose proof (NoDup_remove_2 _ _ _ H) as N.
  split; intros K; apply N; apply in_or_app; auto.
Qed.

Lemma nodup_snoc {A} (b : A) l : NoDup l -> ~ In b l -> NoDup (l ++ [b]).
Proof.
  intros H N. apply (NoDup_Add (a := b) (l := l)).
  - rewrite <- (app_nil_r l) at 1. apply Add_app.
  - split; assumption.
Qed.

(** * What a handle leads to *)

Lemma check_in w h b : check w h = Some b -> In (Some b) (handles w).
Proof.
  unfold check. destruct (nth_error (handles w) h) as [[c|]|] eqn:E; try discriminate.
  intros H; injection H as <-. exact (nth_error_In _ _ E).
Qed.

Lemma check_split w h b : check w h = Some b ->
  exists h1 h2, handles w = h1 ++ Some b :: h2 /\ List.length h1 = h.
Proof.
  unfold check. destruct (nth_error (handles w) h) as [[c|]|] eqn:E; try discriminate.
  intros H; injection H as <-. destruct (nth_error_split _ _ E) as (h1 & h2 & ? & ?).
  exists h1, h2; auto.
Qed.

Lemma check_pushed w b : check (push_body b w) (List.length (handles w)) = Some b.
Proof.
  unfold check, push_body; cbn. rewrite nth_error_app2 by lia.
  rewrite Nat.sub_diag. reflexivity.
Qed.

Lemma check_drop w h b : check (drop b w) h = check w h.
Proof. reflexivity. Qed.
Lemma check_take w h b : check (take b w) h = check w h.
Proof. reflexivity. Qed.

(** * Counting *)

Lemma inc_dec u b c : dec (inc u b) b c = u c.
Proof. unfold dec, inc. destruct (c =? b); reflexivity. Qed.

Lemma uses_take b w c : uses (take b w) c = if c =? b then S (uses w c) else uses w c.
Proof. reflexivity. Qed.
Lemma uses_drop b w c : uses (drop b w) c = if c =? b then pred (uses w c) else uses w c.
Proof. reflexivity. Qed.

Lemma take_drop b w : same w (drop b (take b w)).
Proof.
  repeat split. intros c. cbn. apply inc_dec.
Qed.

Lemma same_refl w : same w w.
Proof. repeat split. Qed.

Lemma same_trans u v w : same u v -> same v w -> same u w.
Proof.
  intros (A & B & C & D & E) (A' & B' & C' & D' & E').
  repeat split; try congruence; intros b; rewrite ?D', ?E'; auto.
Qed.

Lemma same_check w w' h : same w w' -> check w' h = check w h.
Proof. intros (_ & H & _). unfold check. rewrite H. reflexivity. Qed.

(** * The invariant *)

Record good (w : world) : Prop := {
  g_nodup : NoDup (blist w);
  g_uses : forall b, uses w b = holders w b;
  g_list : forall b, In b (blist w) -> b < made w;
  g_hand : forall b, In (Some b) (handles w) -> b < made w;
  g_root : forall b r, root w b = Some r -> r < made w }.

Lemma good_start : good start.
Proof.
  constructor; cbn; try (intros; contradiction); try discriminate; auto.
  constructor.
Qed.

Lemma good_same w w' : same w w' -> good w -> good w'.
Proof.
  intros (A & B & C & D & E) [G1 G2 G3 G4 G5]. constructor.
  - rewrite A; exact G1.
  - intros b. rewrite D. unfold holders. rewrite A, B. apply G2.
  - intros b. rewrite A, C. apply G3.
  - intros b. rewrite B, C. apply G4.
  - intros b r. rewrite E, C. apply G5.
Qed.

Lemma holders_fresh w b : good w -> made w <= b -> holders w b = 0.
Proof.
  intros [_ _ G3 G4 _] H. unfold holders.
  rewrite !filter_none; [reflexivity| |].
  - intros [c|] K; [|reflexivity]. apply Nat.eqb_neq. specialize (G4 _ K). lia.
  - intros c K. apply Nat.eqb_neq. specialize (G3 _ K). lia.
Qed.

Lemma holders_push w b c :
  holders (push_body b w) c = (if c =? b then 1 else 0) + holders w c.
Proof.
  unfold holders, push_body; cbn. rewrite filter_app, app_length. cbn.
  destruct (c =? b); cbn; lia.
Qed.

Lemma good_push w b : good w -> b < made w -> good (push_body b w).
Proof.
  intros G Hb. pose proof G as [G1 G2 G3 G4 G5].
  constructor; [exact G1| |exact G3| |exact G5].
  - intros c. rewrite holders_push. cbn. unfold inc. rewrite G2.
    destruct (c =? b); reflexivity.
  - cbn. intros c H. apply in_app_or in H. destruct H as [H|[H|[]]]; [auto|].
    injection H as <-. exact Hb.
Qed.

Lemma handle_made w h b : good w -> check w h = Some b -> b < made w.
Proof. intros G H. apply (g_hand w G). exact (check_in _ _ _ H). Qed.

Lemma good_new w : good w -> good (fst (new_body w)).
Proof.
  intros G. pose proof G as [G1 G2 G3 G4 G5]. unfold new_body; cbn. constructor; cbn; auto.
  - intros c. unfold holders; cbn. rewrite filter_app, app_length. cbn.
    unfold dec, inc. pose proof (G2 c) as U. unfold holders in U.
    destruct (Nat.eqb_spec c (made w)) as [->|N]; cbn; lia.
  - intros b H. specialize (G3 b H). lia.
  - intros c H. apply in_app_or in H. destruct H as [H|[H|[]]].
    + specialize (G4 c H). lia.
    + injection H as <-. lia.
  - intros b r. destruct (b =? made w); [discriminate|]. intros H. specialize (G5 b r H). lia.
Qed.

Lemma insert_cases h w :
  (check w h = None /\ insert h w = (w, not_body)) \/
  (exists b, check w h = Some b /\ In b (blist w) /\
     same w (fst (insert h w)) /\
     snd (insert h w) = LuaError "can not insert the body twice") \/
  (exists b, check w h = Some b /\ ~ In b (blist w) /\
     snd (insert h w) = Nothing /\
     blist (fst (insert h w)) = blist w ++ [b] /\
     handles (fst (insert h w)) = handles w /\ made (fst (insert h w)) = made w /\
     root (fst (insert h w)) = root w /\
     forall c, uses (fst (insert h w)) c = (if c =? b then 1 else 0) + uses w c).
Proof.
  unfold insert. destruct (check w h) as [b|]; [right|left; auto].
  cbn [take with_uses blist]. destruct (existsb (Nat.eqb b) (blist w)) eqn:E.
  - left. exists b. apply existsb_in in E. repeat split; auto.
    intros c. cbn. apply inc_dec.
  - right. exists b. repeat split; auto.
    + intros K. apply existsb_in in K. congruence.
    + intros c. cbn. unfold dec, inc. destruct (c =? b); reflexivity.
Qed.

Lemma good_insert h w : good w -> good (fst (insert h w)).
Proof.
  intros G. destruct (insert_cases h w) as [(_ & ->)|[(b & _ & _ & S & _)|
    (b & Hc & Hn & _ & E1 & E2 & E3 & E4 & E5)]].
  - exact G.
  - exact (good_same _ _ S G).
  - pose proof (handle_made _ _ _ G Hc) as Hb. destruct G as [G1 G2 G3 G4 G5].
    constructor; rewrite ?E1, ?E2, ?E3, ?E4; auto.
    + exact (nodup_snoc _ _ G1 Hn).
    + intros c. rewrite E5, G2. unfold holders. rewrite E1, E2, filter_app, app_length.
      cbn. destruct (c =? b); cbn; lia.
    + intros c H. apply in_app_or in H. destruct H as [H|[<-|[]]]; auto.
Qed.

Lemma erase_cases h w : NoDup (blist w) ->
  (check w h = None /\ erase h w = (w, not_body)) \/
  (exists b, check w h = Some b /\ ~ In b (blist w) /\
     same w (fst (erase h w)) /\
     snd (erase h w) = LuaError "the body is not in list") \/
  (exists b, check w h = Some b /\ removed b (blist w) (blist (fst (erase h w))) /\
     snd (erase h w) = Nothing /\
     handles (fst (erase h w)) = handles w /\ made (fst (erase h w)) = made w /\
     root (fst (erase h w)) = root w /\
     forall c, uses (fst (erase h w)) c = if c =? b then pred (uses w c) else uses w c).
Proof.
  intros ND. unfold erase. destruct (check w h) as [b|]; [right|left; auto].
  cbn [take with_uses blist]. destruct (without b (blist w)) as [l|] eqn:E.
  - right. exists b. apply without_some in E. destruct E as (l1 & l2 & E1 & -> & N).
    rewrite E1 in ND. destruct (nodup_app_remove _ _ _ ND) as (_ & _ & N2).
    repeat split; auto.
    + exists l1, l2. auto.
    + intros c. cbn. unfold dec, inc. destruct (c =? b); reflexivity.
  - left. exists b. apply without_none in E. repeat split; auto.
    intros c. cbn. apply inc_dec.
Qed.

Lemma good_erase h w : good w -> good (fst (erase h w)).
Proof.
  intros G. destruct (erase_cases h w (g_nodup _ G)) as [(_ & ->)|[(b & _ & _ & S & _)|
    (b & Hc & (l1 & l2 & R1 & R2 & N1 & N2) & _ & E2 & E3 & E4 & E5)]].
  - exact G.
  - exact (good_same _ _ S G).
  - destruct G as [G1 G2 G3 G4 G5]. constructor; rewrite ?E2, ?E3, ?E4; auto.
    + rewrite R2. rewrite R1 in G1. exact (NoDup_remove_1 _ _ _ G1).
    + intros c. rewrite E5, G2. unfold holders. rewrite E2, R2, R1, !filter_app, !app_length.
      cbn. destruct (c =? b); cbn; lia.
    + intros c. rewrite R2. intros H. apply G3. rewrite R1.
      apply in_app_or in H. apply in_or_app. destruct H; [left|right; right]; auto.
Qed.

Lemma fold_drop l w :
  let w' := fold_left (fun w b => drop b w) l w in
  blist w' = blist w /\ handles w' = handles w /\ made w' = made w /\ root w' = root w /\
  forall c, uses w' c = uses w c - List.length (filter (Nat.eqb c) l).
Proof.
  revert w; induction l as [|b l IH]; intros w; cbn.
  - repeat split; auto. intros c. lia.
  - destruct (IH (drop b w)) as (A & B & C & D & E). repeat split; auto.
    intros c. rewrite E. rewrite uses_drop. destruct (c =? b); cbn; lia.
Qed.

Lemma good_clear w : good w -> good (fst (clear w)).
Proof.
  intros [G1 G2 G3 G4 G5]. unfold clear; cbn [fst].
  destruct (fold_drop (blist w) w) as (A & B & C & D & E).
  set (w' := fold_left _ _ _) in *.
  constructor; cbn [with_blist blist handles uses root made]; rewrite ?B, ?C, ?D; auto;
    try (intros; contradiction).
  - constructor.
  - intros c. rewrite E, G2. unfold holders; cbn [with_blist blist handles].
    rewrite B. cbn. lia.
Qed.

Lemma good_collect h w : good w -> good (fst (collect h w)).
Proof.
  intros G. unfold collect. destruct (check w h) as [b|] eqn:E; [|exact G].
  destruct (check_split _ _ _ E) as (h1 & h2 & Eh & <-).
  pose proof G as [G1 G2 G3 G4 G5]. cbv zeta.
  assert (F : firstn (List.length h1) (handles w) = h1).
  { rewrite Eh, firstn_app, firstn_all, Nat.sub_diag, firstn_O, app_nil_r. reflexivity. }
  assert (K : skipn (S (List.length h1)) (handles w) = h2).
  { rewrite Eh. clear. induction h1 as [|x h1 IH]; [reflexivity|exact IH]. }
  rewrite F, K. constructor; cbn; auto.
  - intros c. unfold holders; cbn. unfold dec. rewrite G2. unfold holders. rewrite Eh.
    rewrite !filter_app, !app_length. cbn. destruct (c =? b); cbn; lia.
  - intros c H. clear K. apply G4. rewrite Eh. apply in_app_or in H. apply in_or_app.
    destruct H as [H|[H|H]]; [left; auto|discriminate|right; right; auto].
Qed.

Lemma getindex_cases k w : (- 2 ^ 63 < k)%Z ->
  (exists b, nth_error (blist w) (Z.to_nat (k - 1)) = Some b /\ (1 <= k)%Z /\
     getindex k w = (push_body b w, Handle (List.length (handles w)))) \/
  (((k < 1)%Z \/ (Z.of_nat (List.length (blist w)) < k)%Z) /\ getindex k w = (w, Nil)).
Proof.
  intros Hk. unfold getindex.
  destruct (Z.eqb_spec k (- 2 ^ 63)); [lia|]. cbv zeta.
  destruct (Z.leb_spec 0 (k - 1)); destruct (Z.ltb_spec (k - 1) (Z.of_nat (List.length (blist w))));
    cbn [andb]; try (right; split; [lia|reflexivity]).
  destruct (nth_error (blist w) (Z.to_nat (k - 1))) as [b|] eqn:E.
  - left. exists b. repeat split; auto. lia.
  - apply nth_error_None in E. lia.
Qed.

Lemma good_getindex k w : good w -> good (fst (getindex k w)).
Proof.
  intros G. unfold getindex. destruct (k =? - 2 ^ 63)%Z; [exact G|]. cbv zeta.
  destruct (_ && _); [|exact G].
  destruct (nth_error (blist w) _) as [b|] eqn:E; [|exact G].
  apply good_push; [exact G|]. apply (g_list _ G). exact (nth_error_In _ _ E).
Qed.

Lemma good_getnext k w : good w -> good (fst (getnext k w)).
Proof.
  intros G. unfold getnext. cbv zeta.
  destruct (_ <=? _)%Z; [exact G|]. destruct (_ =? _)%Z; [exact G|].
  destruct (nth_error (blist w) _) as [b|] eqn:E; [|exact G].
  apply good_push; [exact G|]. apply (g_list _ G). exact (nth_error_In _ _ E).
Qed.

Lemma good_put w b r : good w -> (forall x, r = Some x -> x < made w) ->
  good (mkWorld (blist w) (handles w) (uses w) (fun c => if c =? b then r else root w c) (made w)).
Proof.
  intros [G1 G2 G3 G4 G5] H. constructor; cbn; auto.
  intros c x. destruct (c =? b); auto. apply G5.
Qed.

Lemma good_set_root h r w : good w -> good (fst (set_root h r w)).
Proof.
  intros G. unfold set_root. destruct (check w h) as [b|] eqn:E; [|exact G].
  pose proof (good_same _ _ (take_drop b w) G) as G'. set (w' := drop b (take b w)) in *.
  destruct r as [|h'|]; cbv zeta.
  - apply good_put; [exact G'|discriminate].
  - destruct (check w' h') as [b'|] eqn:E'; [|exact G'].
    pose proof (good_put _ b (Some b') G') as P.
    eapply good_same; [|apply P; intros x K; injection K as <-; exact (handle_made _ _ _ G' E')].
    cbn [fst]. repeat split. intros c. cbn. apply inc_dec.
  - exact G'.
Qed.

Lemma get_root_cases h w :
  (check w h = None /\ get_root h w = (w, not_body)) \/
  (exists b, check w h = Some b /\ same w (fst (get_root h w)) /\
     snd (get_root h w) = Nil /\
     (root w b = None \/ exists r, root w b = Some r /\ uses w r = 0)) \/
  (exists b r, check w h = Some b /\ root w b = Some r /\ 0 < uses w r /\
     snd (get_root h w) = Handle (List.length (handles w)) /\
     same (push_body r w) (fst (get_root h w))).
Proof.
  unfold get_root. destruct (check w h) as [b|]; [right|left; auto].
  cbn [drop take with_uses root].
  destruct (root w b) as [r|] eqn:E.
  - assert (U : uses (drop b (take b w)) r = uses w r) by (cbn; apply inc_dec).
    change (with_uses _ (take b w)) with (drop b (take b w)).
    destruct (Nat.eqb_spec (uses (drop b (take b w)) r) 0) as [Z|Z].
    + left. exists b. repeat split; auto. * intros c. apply inc_dec. * right. exists r. split; congruence.
    + right. exists b, r. repeat split; auto. { rewrite <- U; lia. }
      intros c. cbn. unfold dec, inc.
      destruct (Nat.eqb_spec c b), (Nat.eqb_spec c r); reflexivity.
  - left. exists b. repeat split; auto. intros c. apply inc_dec.
Qed.

Lemma good_get_root h w : good w -> good (fst (get_root h w)).
Proof.
  intros G. destruct (get_root_cases h w) as [(_ & ->)|[(b & _ & S & _)|(b & r & _ & R & _ & _ & S)]].
  - exact G.
  - exact (good_same _ _ S G).
  - apply (good_same _ _ S). apply good_push; [exact G|]. exact (g_root _ G _ _ R).
Qed.

Lemma good_step c w : good w -> good (fst (step c w)).
Proof.
  intros G. destruct c; cbn [step].
  - exact (good_new _ G).
  - exact (good_insert _ _ G).
  - exact (good_erase _ _ G).
  - exact (good_clear _ G).
  - exact G.
  - exact (good_getindex _ _ G).
  - exact (good_getnext _ _ G).
  - exact (good_set_root _ _ _ G).
  - exact (good_get_root _ _ G).
  - unfold eq_body. destruct (check w h), (check w h'); exact G.
  - unfold touch. destruct (check w h); [|exact G]. exact (good_same _ _ (take_drop _ _) G).
  - exact (good_collect _ _ G).
Qed.

Lemma good_run cs w : good w -> good (run cs w).
Proof.
  unfold run. revert w; induction cs as [|c cs IH]; intros w G; [exact G|].
  cbn. apply IH. exact (good_step c w G).
Qed.

(** Only insert, erase and clear change the list. *)
Lemma blist_step c w :
  match c with Insert _ | Erase _ | Clear => True | _ => blist (fst (step c w)) = blist w end.
Proof.
  destruct c; cbn [step]; auto.
  - unfold getindex. destruct (k =? - 2 ^ 63)%Z; [auto|]. cbv zeta.
    destruct (_ && _); [|auto]. destruct (nth_error _ _); auto.
  - unfold getnext. cbv zeta. destruct (_ <=? _)%Z; [auto|]. destruct (_ =? _)%Z; [auto|].
    destruct (nth_error _ _); auto.
  - unfold set_root. destruct (check w h); [|auto]. destruct r; auto.
    cbv zeta. destruct (check _ _); auto.
  - destruct (get_root_cases h w) as [(_ & ->)|[(b & _ & S & _)|(b & r & _ & _ & _ & _ & S)]]; auto;
      exact (proj1 S).
  - unfold eq_body. destruct (check w h), (check w h'); auto.
  - unfold touch. destruct (check w h); auto.
  - unfold collect. destruct (check w h); auto.
Qed.

(** * Going through the list *)

Lemma getnext_at k w : (0 <= k < 2 ^ 31 - 1)%Z ->
  getnext k w =
  match nth_error (blist w) (Z.to_nat k) with
  | Some b => (push_body b w, Pair (k + 1) (List.length (handles w)))
  | None => (w, Nil)
  end.
Proof.
  intros H. unfold getnext. rewrite i32_id by (unfold is_i32; lia). cbv zeta.
  rewrite Z.mod_small by lia.
  destruct (Z.leb_spec (Z.of_nat (List.length (blist w))) k) as [L|L].
  - assert (nth_error (blist w) (Z.to_nat k) = None) as -> by (apply nth_error_None; lia).
    reflexivity.
  - destruct (Z.eqb_spec k (2 ^ 31 - 1)); [lia|].
    destruct (nth_error (blist w) (Z.to_nat k)) as [b|] eqn:E; [reflexivity|].
    apply nth_error_None in E. lia.
Qed.

Lemma nth_skipn {A} n (l : list A) b :
  nth_error l n = Some b -> skipn n l = b :: skipn (S n) l.
Proof.
  revert l; induction n as [|n IH]; intros [|a l] H; try discriminate.
  - cbn in H. injection H as ->. reflexivity.
  - cbn in H. rewrite !skipn_cons. exact (IH l H).
Qed.

Lemma ipairs_from act l fuel n w :
  (forall i h w, blist w = l -> blist (run (act i h) w) = l) ->
  blist w = l -> (Z.of_nat (List.length l) < 2 ^ 31 - 1)%Z ->
  n <= List.length l -> List.length l - n < fuel ->
  exists w', ipairs fuel act (Z.of_nat n) w = Some (numbered (Z.of_nat n + 1) (skipn n l), w') /\
             blist w' = l.
Proof.
  intros Hact. revert n w. induction fuel as [|fuel IH]; intros n w Hw Hl Hn Hf; [lia|].
  cbn [ipairs]. rewrite getnext_at by lia. rewrite Nat2Z.id, Hw.
  destruct (nth_error l n) as [b|] eqn:E.
  - rewrite check_pushed.
    assert (n < List.length l) by (apply nth_error_Some; congruence).
    set (w1 := run _ (push_body b w)).
    destruct (IH (S n) w1) as (w' & E' & Hw'); auto; try lia.
    { apply Hact. exact Hw. }
    replace (Z.of_nat (S n)) with (Z.of_nat n + 1)%Z in E' by lia. rewrite E'.
    exists w'. split; [|exact Hw']. rewrite (nth_skipn _ _ _ E). reflexivity.
  - apply nth_error_None in E. exists w. split; [|exact Hw].
    rewrite skipn_all2 by lia. reflexivity.
Qed.
