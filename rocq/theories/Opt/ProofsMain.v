(** The end of vvflow. *)

From Coq Require Import ZArith Bool String List Lia.
From Verif.Base Require Import Num.
From Verif.Time Require Import Model ModelRun.
From Verif.Opt Require Import Getopt Model ModelMain SpecMain.
Import ListNotations.
Local Open Scope Z_scope.

Section Clock.
Variables (d ds : ttime) (fin : f64).

(** The log of a run is that before it with the times from [t] on. *)
Lemma run_log fuel : forall log t log' t', simulate fuel log t d ds fin = Finished log' t' ->
  exists new, log' = log ++ new /\ after (length new) t d = Some t' /\ goes_on t' d fin = false /\
    forall k e, nth_error new k = Some e -> after k t d = Some (at_time e) /\ goes_on (at_time e) d fin = true.
Proof.
  assert (Sh : forall k t t1, add t d = Some t1 -> after k t1 d = after (S k) t d).
  { induction k as [|k IH]; intros t t1 E; [cbn; rewrite E; reflexivity|]. cbn [after]. rewrite (IH t t1 E). cbn [after]. reflexivity. }
  induction fuel as [|fuel IH]; intros log t log' t'; cbn [simulate]; destruct (goes_on t d fin) eqn:G; try discriminate.
  - intros [= <- <-]. exists []. rewrite app_nil_r. repeat split; auto. all: destruct k; discriminate.
  - destruct (save_now t ds) as [b|]; [|discriminate]. destruct (add t d) as [t1|] eqn:A; [|discriminate].
    intros E. apply IH in E. destruct E as (new & -> & L & F & H). exists (mkEntry t b :: new).
    rewrite <- app_assoc. split; [reflexivity|]. cbn [length]. rewrite <- (Sh _ _ _ A). split; [exact L|]. split; [exact F|].
    intros [|k] e N; cbn [nth_error] in N.
    + injection N as <-. split; [reflexivity|exact G].
    + rewrite <- (Sh _ _ _ A). apply H. exact N.
  - intros [= <- <-]. exists []. rewrite app_nil_r. repeat split; auto. all: destruct k; discriminate.
Qed.
End Clock.

Section Main.
Variable load_file : string -> members -> loaded.
Variable save_file : string -> members -> savings.
Variable work : members -> nat -> works.
Variable fuel : nat.
Notation exec := (exec load_file save_file work fuel).
Notation simulate_call := (simulate_call work fuel).

Lemma no_failure m : forall n k, first_failure work m k n = Works -> forall i, (i < n)%nat -> work m (k + i) = Works.
Proof.
  induction n as [|n IH]; intros k; cbn [first_failure]; [lia|].
  destruct (work m k) eqn:E; try discriminate. intros H [|i] L; [rewrite Nat.add_0_r; exact E|].
  replace (k + S i)%nat with (S k + i)%nat by lia. apply IH; [exact H|lia].
Qed.
Lemma failure_code m : forall n k c, first_failure work m k n = WorkExits c -> exists i, work m i = WorkExits c.
Proof.
  induction n as [|n IH]; intros k c; cbn [first_failure]; [discriminate|].
  destruct (work m k) eqn:E; try discriminate; [apply IH|]. intros [= <-]. exists k. exact E.
Qed.

(** What is good about an answer. *)
Definition good (e : members * answer) : Prop :=
  match snd e with
  | Calculated log t => complete work (fst e) log t
  | Refused => @nleb F64 (re (fst e)) (f64_ofZ 0) = true
  | Cut => False
  end.

Lemma call_good w : Forall good (asked w) ->
  match simulate_call w with
  | Ended w' => Forall good (asked w')
  | Raised _ => False
  | Stopped _ (Status c) => exists n m k, work m k = WorkExits n /\ c = n mod 256
  | Stopped _ _ => True
  end.
Proof.
  intros G. unfold ModelMain.simulate_call. destruct (@nleb F64 _ _) eqn:R.
  - cbn [asked]. apply Forall_app. split; [exact G|]. constructor; [exact R|constructor].
  - assert (X : forall c n, first_failure work (mem w) 0 n = WorkExits c -> exists n' m k, work m k = WorkExits n' /\ c mod 256 = n' mod 256).
    { intros c n E. apply failure_code in E. destruct E as (i & E). exists c, (mem w), i. split; [exact E|reflexivity]. }
    destruct (simulate fuel [] _ _ _ _) as [log t|log|log] eqn:E.
    + destruct (first_failure work (mem w) 0 (Datatypes.length log)) eqn:F; cbn [asked].
      * apply Forall_app. split; [exact G|]. constructor; [|constructor]. unfold good. cbn [snd fst].
        apply run_log in E. destruct E as (new & -> & L & Fi & H). cbn [app] in *. split; [|split; [exact L|exact Fi]].
        intros k e N. destruct (H k e N) as (H1 & H2). repeat split; auto.
        apply (no_failure _ _ 0%nat F k). apply nth_error_Some. congruence.
      * exact I.
      * eapply X. exact F.
    + destruct (first_failure work (mem w) 0 (Datatypes.length log)) eqn:F; [exact I|exact I|]. eapply X. exact F.
    + destruct (first_failure work (mem w) 0 (Datatypes.length log)) eqn:F; [exact I|exact I|]. eapply X. exact F.
Qed.

Hypothesis lc : load_codes load_file.
Hypothesis wc : work_codes work.

Definition codes : list Z := [1; 255; 3; 4; 254].
Lemma load_code f m n : load_file f m = LoadExits n -> In (n mod 256) codes.
Proof. intros E. apply lc in E. destruct E as [<-|[<-|[]]]; cbn; tauto. Qed.
Lemma work_code m k n : work m k = WorkExits n -> In (n mod 256) codes.
Proof. intros E. apply wc in E. destruct E as [<-|[<-|[<-|[]]]]; cbn; tauto. Qed.

Lemma exec_good : forall s w, Forall good (asked w) ->
  match exec s w with
  | Ended w' | Raised w' => Forall good (asked w')
  | Stopped _ (Status c) => In c codes \/ ~ never_exits c s
  | Stopped _ _ => True
  end.
Proof.
  induction s as [| |n|f k IH|f k IH|f k IH|k IH|a IHa b IHb c IHc]; intros w G; cbn [ModelMain.exec]; auto.
  - right. cbn. intros H. apply H. reflexivity.
  - destruct (f (mem w)) as [m|]; [|exact G]. specialize (IH m (mkWorld m (asked w)) G).
    destruct (exec (k m) _) as [| |w' [c| |]]; auto. destruct IH as [IH|IH]; [left; exact IH|]. right. cbn. intros H. apply IH. apply H.
  - destruct (load_file f (mem w)) as [m| |n] eqn:E; [|exact I|].
    + specialize (IH (mkWorld m (asked w)) G). destruct (exec k _) as [| |w' [c| |]]; auto.
    + left. eapply load_code. exact E.
  - destruct (save_file f (mem w)); [|exact G|exact I]. specialize (IH w G). destruct (exec k _) as [| |w' [c| |]]; auto.
  - pose proof (call_good w G) as C. destruct (simulate_call w) as [w'|w'|w' [c| |]]; auto.
    + specialize (IH w' C). destruct (exec k _) as [| |w2 [c| |]]; auto.
    + destruct C.
    + destruct C as (n & m & i & E & ->). left. eapply work_code. exact E.
  - specialize (IHa w G). destruct (exec a w) as [w'|w'|w' [n| |]]; auto.
    + specialize (IHb w' IHa). destruct (exec b _) as [| |w2 [n| |]]; auto. destruct IHb as [H|H]; [left; exact H|right; cbn; tauto].
    + specialize (IHc w' IHa). destruct (exec c _) as [| |w2 [n| |]]; auto. destruct IHc as [H|H]; [left; exact H|right; cbn; tauto].
    + destruct IHa as [H|H]; [left; exact H|right; cbn; tauto].
Qed.
End Main.

Section Follow.
Variable load_file : string -> members -> loaded.
Variable save_file : string -> members -> savings.
Variable work : members -> nat -> works.
Variable fuel : nat.
Notation exec := (exec load_file save_file work fuel).

Lemma exec_followed k : forall s w, exec (followed_by k s) w = match exec s w with Ended w' => exec k w' | r => r end.
Proof.
  induction s as [| |n|f g IH|f t IH|f t IH|t IH|a IHa b IHb c IHc]; intros w; cbn [followed_by ModelMain.exec]; auto.
  - destruct (f (mem w)); auto.
  - destruct (load_file f (mem w)); auto.
  - destruct (save_file f (mem w)); auto.
  - destruct (simulate_call work fuel w); auto.
  - destruct (exec a w); auto.
Qed.
End Follow.
