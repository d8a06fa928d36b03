(** C117: the end of vvflow. *)

From Coq Require Import ZArith Bool String List Lia.
From Verif.Base Require Import Num.
From Verif.Time Require Import Model ModelRun.
From Verif.Opt Require Import Getopt Model ModelMain SpecMain ProofsMain.
Import ListNotations.
Local Open Scope Z_scope.

Section Statements.
Variable load_file : string -> members -> loaded.
Variable save_file : string -> members -> savings.
Variable work : members -> nat -> works.
Variable is_hdf5 : string -> htri.
Variable chunk : string -> option program.
Variable fuel : nat.
Notation vvflow := (vvflow load_file save_file work is_hdf5 chunk fuel).
Notation exec := (exec load_file save_file work fuel).

(** When vvflow ends with status 0 without the script having asked for it, every
    call of simulate() has made all steps up to [finish] or was refused because
    of [re <= 0]. *)
Theorem C117_partial : forall m args w, load_codes load_file -> work_codes work ->
  (forall f s, chunk f = Some s -> never_exits 0 s) ->
  vvflow m args = (w, Status 0) ->
  forall m' a, In (m', a) (asked w) ->
    (exists log t, a = Calculated log t /\ complete work m' log t) \/
    (a = Refused /\ @nleb F64 (re m') (f64_ofZ 0) = true).
Proof.
  intros m args w lc wc Ch E m' a HI.
  assert (G : Forall (good work) (asked w)).
  { unfold ModelMain.vvflow in E. destruct (flow_parse args) as [n|l]; [injection E as <- _; constructor|].
    assert (X : forall s w0, never_exits 0 s -> Forall (good work) (asked w0) -> finish_main (exec s w0) = (w, Status 0) -> Forall (good work) (asked w)).
    { intros s w0 N G0 H. pose proof (exec_good load_file save_file work fuel lc wc s w0 G0) as P.
      destruct (exec s w0) as [w1|w1|w1 e]; cbn [finish_main] in H; [injection H as <-; exact P|injection H as <- _; exact P|].
      apply (f_equal snd) in H as H2. cbn in H2. subst e. exfalso. destruct P as [P|P]; [|exact (P N)].
      cbn in P. lia. }
    assert (Y : forall r, match load_file (script l) m with
             | Loaded m0 => finish_main (exec (Simulate Return) (mkWorld m0 []))
             | LoadThrows => (mkWorld m [], Abort)
             | LoadExits n => (mkWorld m [], exit n) end = r -> r = (w, Status 0) -> Forall (good work) (asked w)).
    { intros r <- H. destruct (load_file (script l) m) as [m0| |n].
      - eapply (X (Simulate Return)); [exact I| |exact H]. constructor.
      - injection H as <-. constructor.
      - injection H as <- _. constructor. }
    destruct (is_hdf5 (script l)); [eapply Y; [reflexivity|exact E]| |eapply Y; [reflexivity|exact E]].
    destruct (chunk (script l)) as [s|] eqn:C; [|injection E as <- _; constructor].
    eapply X; [eapply Ch; exact C| |exact E]. constructor. }
  rewrite Forall_forall in G. specialize (G _ HI). unfold good in G. cbn [fst snd] in G. destruct a as [log t| |].
  - left. exists log, t. split; [reflexivity|exact G].
  - right. split; [reflexivity|exact G].
  - destruct G.
Qed.

(** A Lua error that no pcall takes ends the script where it is, with status 8;
    nothing that follows it is done. *)
Theorem C117_error : forall m args l s k w, flow_parse args = Go l -> is_hdf5 (script l) = No ->
  chunk (script l) = Some (followed_by k s) -> exec s (mkWorld m []) = Raised w ->
  vvflow m args = (w, Status 8).
Proof.
  intros m args l s k w P H C E. unfold ModelMain.vvflow. rewrite P, H, C, exec_followed, E. reflexivity.
Qed.

(** Status 8 always means such an error or one in the syntax of the script. *)
Theorem C117_eight : forall m args w, load_codes load_file -> work_codes work ->
  (forall f s, chunk f = Some s -> never_exits 8 s) ->
  vvflow m args = (w, Status 8) ->
  exists l, flow_parse args = Go l /\ is_hdf5 (script l) = No /\
    (chunk (script l) = None \/ exists s, chunk (script l) = Some s /\ exec s (mkWorld m []) = Raised w).
Proof.
  intros m args w lc wc Ch E. unfold ModelMain.vvflow in E.
  assert (X : forall s w0, never_exits 8 s -> asked w0 = [] -> finish_main (exec s w0) = (w, Status 8) -> exec s w0 = Raised w).
  { intros s w0 N G0 H. assert (G : Forall (good work) (asked w0)) by (rewrite G0; constructor).
    pose proof (exec_good load_file save_file work fuel lc wc s w0 G) as P.
    destruct (exec s w0) as [w1|w1|w1 e]; cbn [finish_main] in H.
    - discriminate.
    - injection H as <-. reflexivity.
    - apply (f_equal snd) in H as H2. cbn in H2. subst e. exfalso. destruct P as [P|P]; [cbn in P; lia|exact (P N)]. }
  destruct (flow_parse args) as [n|l] eqn:P.
  { exfalso. assert (B : n = 0 \/ n = 1).
    { clear - P. unfold flow_parse in P. destruct (getopt flow_letters flow_long args) as [evs oth].
      assert (Z : forall f, match each flow_event evs f with Exit n => n = 0 \/ n = 1 | Go _ => True end).
      { clear P. induction evs as [|e evs IH]; intros f; cbn [each]; [exact I|].
        assert (C : forall c o g, match flow_case c o g with Exit n => n = 0 \/ n = 1 | Go _ => True end)
          by (intros; unfold flow_case; repeat destruct (Z.eqb _ _); auto).
        assert (Q : match flow_event e f with Exit n => n = 0 \/ n = 1 | Go _ => True end).
        { destruct e as [c o|i o|]; cbn [flow_event]; [apply C| |right; reflexivity].
          destruct (nth_error flow_long i) as [y|]; [|right; reflexivity]. destruct (flag y); [exact I|apply C]. }
        destruct (flow_event e f); [exact Q|apply IH]. }
      specialize (Z flow_start). destruct (each flow_event evs flow_start); [injection P as <-; exact Z|].
      destruct oth; [injection P as <-; auto|discriminate]. }
    destruct B as [-> | ->]; discriminate. }
  assert (Y : forall r, match load_file (script l) m with
             | Loaded m0 => finish_main (exec (Simulate Return) (mkWorld m0 []))
             | LoadThrows => (mkWorld m [], Abort)
             | LoadExits n => (mkWorld m [], exit n) end = r -> r = (w, Status 8) -> False).
  { intros r <- H. destruct (load_file (script l) m) as [m0| |n] eqn:L.
    - apply X in H; [|exact I|reflexivity]. cbn [ModelMain.exec] in H.
      pose proof (call_good work fuel (mkWorld m0 []) (Forall_nil _)) as C.
      destruct (simulate_call work fuel (mkWorld m0 [])) as [w1|w1|w1 e]; [discriminate|exact C|discriminate].
    - discriminate.
    - apply lc in L. apply (f_equal snd) in H. cbn [snd] in H. destruct L as [<-|[<-|[]]]; discriminate. }
  exists l. split; [reflexivity|].
  destruct (is_hdf5 (script l)); [exfalso; eapply Y; [reflexivity|exact E]| |exfalso; eapply Y; [reflexivity|exact E]].
  split; [reflexivity|]. destruct (chunk (script l)) as [s|] eqn:C; [|left; reflexivity]. right. exists s. split; [reflexivity|].
  apply X; [eapply Ch; exact C|reflexivity|exact E].
Qed.
End Statements.
Print Assumptions C117_partial.
Print Assumptions C117_error.
Print Assumptions C117_eight.

(** ** Examples *)

Local Open Scope string_scope.
Definition mem0 (r : Z) : members := mkMembers (f64_ofZ r) (mkTime 0 1) (mkTime 1 1) (mkTime 1 1) (f64_ofZ 2).
Definition ok_load (f : string) (m : members) : loaded := if String.eqb f "run.h5" then Loaded (mem0 0) else LoadThrows.
Definition ok_save (f : string) (m : members) : savings := Saved.
Definition ok_work (m : members) (k : nat) : works := Works.
Definition ok_hdf (f : string) : htri := if String.eqb f "run.h5" then Yes else if String.eqb f "missing.lua" then Fails else No.
Definition scripts (f : string) : option program :=
  if String.eqb f "run.lua" then Some (Simulate Return)
  else if String.eqb f "wrong.lua" then Some (Pcall Raise Return (Simulate (Use (fun _ => None) (fun _ => Simulate Return))))
  else if String.eqb f "careful.lua" then Some (Pcall (Load "old.h5" Return) Return (Simulate Return))
  else None.
Definition try work := vvflow ok_load ok_save work ok_hdf scripts 10.
Definition times (w : world) : list (option (list Z)) :=
  map (fun e => match snd e with Calculated log _ => Some (map (fun x => value (at_time x)) log) | _ => None end) (asked w).

Example C117_ex : let w := fst (try ok_work (mem0 100) ["run.lua"]) in
  snd (try ok_work (mem0 100) ["run.lua"]) = Status 0 /\ times w = [Some [0; 1; 2]%Z] /\
  load_codes ok_load /\ work_codes ok_work.
Proof.
  cbv zeta. split; [vm_compute; reflexivity|]. split; [vm_compute; reflexivity|]. split.
  - intros f m n. unfold ok_load. destruct (String.eqb f "run.h5"); discriminate.
  - intros m k n. discriminate.
Qed.
(** The second step cannot be solved. *)
Example C117_matrix_ex : let bad (m : members) (k : nat) := if Nat.eqb k 1 then WorkExits (-2) else Works in
  snd (try bad (mem0 100) ["run.lua"]) = Status 254 /\ work_codes bad.
Proof.
  cbv zeta. split; [vm_compute; reflexivity|]. intros m k n. destruct (Nat.eqb k 1); [|discriminate]. intros [= <-]. cbn. tauto.
Qed.
(** An error behind the first of two calculations. *)
Example C117_error_ex : snd (try ok_work (mem0 100) ["wrong.lua"]) = Status 8 /\
  times (fst (try ok_work (mem0 100) ["wrong.lua"])) = [Some [0; 1; 2]%Z] /\
  snd (try ok_work (mem0 100) ["nonsense.lua"]) = Status 8.
Proof. repeat split; vm_compute; reflexivity. Qed.

(** Status 0 does not mean that anything was calculated: with [re = 0] in the
    file the calculation is refused and the status is 0. *)
Theorem C117_refused_refuted :
  (~ forall load_file save_file work is_hdf5 chunk fuel m args w,
     load_codes load_file -> work_codes work -> (forall f s, chunk f = Some s -> never_exits 0 s) ->
     vvflow load_file save_file work is_hdf5 chunk fuel m args = (w, Status 0) ->
     forall m' a, In (m', a) (asked w) -> exists log t, a = Calculated log t /\ complete work m' log t).
Proof.
  intros H.
  specialize (H ok_load ok_save ok_work ok_hdf scripts 10%nat (mem0 100) ["run.h5"] (mkWorld (mem0 0) [(mem0 0, Refused)])).
  assert (X : exists log t, Refused = Calculated log t /\ complete ok_work (mem0 0) log t).
  { apply H with (m' := mem0 0).
    - intros f m n. unfold ok_load. destruct (String.eqb f "run.h5"); discriminate.
    - intros m k n. discriminate.
    - intros f s. unfold scripts. repeat destruct (String.eqb f _); intros [= <-]; cbn; auto.
    - unfold vvflow. assert (P : flow_parse ["run.h5"] = Go (mkFlowLine flow_start "run.h5" ["run.h5"])) by reflexivity. rewrite P.
      cbn [script]. assert (Q : ok_hdf "run.h5" = Yes) by reflexivity. rewrite Q.
      assert (L : ok_load "run.h5" (mem0 100) = Loaded (mem0 0)) by reflexivity. rewrite L.
      cbn [exec]. unfold simulate_call. cbn [mem].
      assert (Z : @nleb F64 (re (mem0 0)) (f64_ofZ 0) = true) by (vm_compute; reflexivity). rewrite Z. reflexivity.
    - left. reflexivity. }
  destruct X as (log & t & X & _). discriminate.
Qed.
Print Assumptions C117_refused_refuted.

(** A script that does not exist is not reported by status 8, and pcall does not
    take the failure of S:load: the program is aborted. *)
Theorem C117_abort_refuted :
  snd (try ok_work (mem0 100) ["missing.lua"]) = Abort /\
  snd (try ok_work (mem0 100) ["careful.lua"]) = Abort /\ asked (fst (try ok_work (mem0 100) ["careful.lua"])) = [].
Proof. repeat split; vm_compute; reflexivity. Qed.
Print Assumptions C117_abort_refuted.
