(** Proofs about reading and assigning members. *)

From Coq Require Import List ZArith Bool Ascii String.
From Flocq Require Import Core.Raux.
From Flocq Require Import IEEE754.BinarySingleNaN.
From Verif Require Import Base.Int Base.Num Base.F64 Lua.ModelMembers Lua.SpecMembers.
From Verif Require Store.Model Time.ModelRun.
Import ListNotations.
Local Open Scope string_scope.

Section Members.
Variable str2num : string -> option f64.
Variable accepts : string -> bool.
Variable scan : string -> Time.ModelRun.scan.

Notation set := (set str2num accepts scan).
Notation newindex := (newindex str2num accepts scan).
Notation reads := (reads str2num accepts scan).

(** * Conversions *)

Lemma number_iff v x : number str2num v x <-> tonumber str2num v = Some x.
Proof.
  split.
  - intros [->|(s & -> & E)]; [reflexivity|exact E].
  - unfold number. destruct v; cbn; intros H; try discriminate.
    + injection H as <-. left; reflexivity.
    + right. eauto.
Qed.

Lemma cast_iff x z : whole_part x z <-> cast64 x = Whole z.
Proof.
  unfold whole_part, cast64. rewrite f64_trunc_R. cbv zeta. split.
  - intros (F & -> & [L U]). rewrite F. apply Z.leb_le in L. apply Z.ltb_lt in U. rewrite L, U. reflexivity.
  - destruct (is_finite x); [|discriminate].
    destruct (Z.leb_spec (- 2 ^ 63) (Ztrunc (B2R x))); [|discriminate].
    destruct (Z.ltb_spec (Ztrunc (B2R x)) (2 ^ 63)); [|discriminate]. cbn. intros E. injection E as <-. auto.
Qed.
Lemma cast_number x : cast64 x <> NoNumber.
Proof. unfold cast64. destruct (is_finite x); [|discriminate]. cbv zeta. destruct (_ && _); discriminate. Qed.

Lemma integer_iff v z : (exists x, number str2num v x /\ whole_part x z) <-> tointeger str2num v = Whole z.
Proof.
  unfold tointeger. split.
  - intros (x & N & W). apply number_iff in N. rewrite N. now apply cast_iff.
  - destruct (tonumber str2num v) as [x|] eqn:E; [|discriminate]. intros W. exists x.
    rewrite number_iff, cast_iff. auto.
Qed.
Lemma outside_iff v : too_large str2num v <-> tointeger str2num v = Outside.
Proof.
  unfold tointeger, too_large. split.
  - intros (x & N & W). apply number_iff in N. rewrite N. destruct (cast64 x) as [| |z] eqn:E.
    + destruct (cast_number x E).
    + reflexivity.
    + apply cast_iff in E. destruct (W z E).
  - destruct (tonumber str2num v) as [x|] eqn:E; [|discriminate]. intros O. exists x. rewrite number_iff.
    split; [exact E|]. intros z W. apply cast_iff in W. congruence.
Qed.

(** What the setter of a time makes of a value. *)
Definition timed (v : lval) : Time.ModelRun.outcome :=
  match time_value str2num scan v with None => Time.ModelRun.Undefined | Some w => Time.ModelRun.set_ttime w end.

Lemma time_timed v r : time str2num scan v r -> timed v = r.
Proof.
  unfold timed. intros [(x & -> & E)|[(a & b & x & y & p & q & -> & Na & Nb & Wp & Wq & E)|(s & -> & E)]]; try exact E.
  assert (A : tointeger str2num a = Whole p) by (apply integer_iff; eauto).
  assert (B : tointeger str2num b = Whole q) by (apply integer_iff; eauto).
  cbn [time_value]. unfold time_table. rewrite A, B. exact E.
Qed.
Lemma timed_time v t : timed v = Time.ModelRun.Stored t -> time str2num scan v (Time.ModelRun.Stored t).
Proof.
  unfold timed, time. destruct v as [| | | |l| | | | | | |]; cbn [time_value]; try discriminate.
  - intros E. left. eauto.
  - intros E. right; right. eauto.
  - destruct l as [|a [|b [|c l]]]; try discriminate. unfold time_table.
    destruct (tointeger str2num a) as [| |p] eqn:A, (tointeger str2num b) as [| |q] eqn:B; try discriminate.
    apply integer_iff in A. apply integer_iff in B. destruct A as (x & Na & Wp), B as (y & Nb & Wq).
    intros E. right; left. exists a, b, x, y, p, q. auto 7.
Qed.
Lemma timed_undefined v : timed v = Time.ModelRun.Undefined -> undefined str2num scan KTime v.
Proof.
  unfold timed, undefined, time. destruct v as [| | | |l| | | | | | |]; cbn [time_value]; try discriminate.
  - intros E. left; left. eauto.
  - intros E. left; right; right. eauto.
  - destruct l as [|a [|b [|c l]]]; try discriminate. unfold time_table.
    destruct (tointeger str2num a) as [| |p] eqn:A, (tointeger str2num b) as [| |q] eqn:B; try discriminate;
      try (intros _; right; exists a, b; split; [reflexivity|]; rewrite !outside_iff; auto; fail).
    apply integer_iff in A. apply integer_iff in B. destruct A as (x & Na & Wp), B as (y & Nb & Wq).
    intros E. left; right; left. exists a, b, x, y, p, q. auto 7.
Qed.
Lemma set_time t v : set KTime (MTime t) v =
  match timed v with
  | Time.ModelRun.Stored t => Stored (MTime t)
  | Time.ModelRun.Rejected => Refused "TTime"
  | Time.ModelRun.Undefined => Undefined
  end.
Proof. unfold timed. cbn [ModelMembers.set]. destruct (time_value str2num scan v); reflexivity. Qed.

Lemma c_str_idem s : c_str (c_str s) = c_str s.
Proof.
  unfold c_str. induction s as [|c s IH]; [reflexivity|]. cbn.
  destruct (Ascii.eqb c Ascii.zero) eqn:E; [reflexivity|]. cbn. rewrite E, IH. reflexivity.
Qed.

(** * One member *)

(** The slip of a body without segments cannot be read. *)
Definition readable (m : mem) : Prop := match m with MSlips [] => False | _ => True end.

Lemma forallb_same (s : Z) (A : Type) (l : list A) :
  forallb (Z.eqb s) (map (fun _ => s) l) = true.
Proof. induction l as [|a l IH]; [reflexivity|]. cbn. rewrite Z.eqb_refl. exact IH. Qed.

Lemma to_vec_iff v x y : to_vec str2num v = Some (x, y) <->
  v = LVec x y \/ exists a b, v = LTab [a; b] /\ number str2num a x /\ number str2num b y.
Proof.
  split.
  - unfold to_vec. destruct v as [| | | |l|a b| | | | | |]; try discriminate.
    + destruct l as [|a [|b [|c l]]]; try discriminate.
      destruct (tonumber str2num a) as [xa|] eqn:Ea; [|discriminate].
      destruct (tonumber str2num b) as [xb|] eqn:Eb; [|discriminate].
      intros H. right. exists a, b. rewrite !number_iff. repeat split; congruence.
    + intros H. left. congruence.
  - intros [->|(a & b & -> & Ha & Hb)]; [reflexivity|].
    apply number_iff in Ha. apply number_iff in Hb. cbn. rewrite Ha, Hb. reflexivity.
Qed.

Lemma to_vec3_iff v x y o : to_vec3 str2num v = Some (x, y, o) <->
  v = LVec3 x y o \/
  exists a b c, v = LTab [a; b; c] /\ number str2num a x /\ number str2num b y /\ number str2num c o.
Proof.
  split.
  - unfold to_vec3. destruct v as [| | | |l| |a b c| | | | |]; try discriminate.
    + destruct l as [|a [|b [|c [|e l]]]]; try discriminate.
      destruct (tonumber str2num a) as [xa|] eqn:Ea; [|discriminate].
      destruct (tonumber str2num b) as [xb|] eqn:Eb; [|discriminate].
      destruct (tonumber str2num c) as [xc|] eqn:Ec; [|discriminate].
      intros H. right. exists a, b, c. rewrite !number_iff. repeat split; congruence.
    + intros H. left. congruence.
  - intros [->|(a & b & c & -> & Ha & Hb & Hc)]; [reflexivity|].
    apply number_iff in Ha. apply number_iff in Hb. apply number_iff in Hc.
    cbn. rewrite Ha, Hb, Hc. reflexivity.
Qed.

(** What is stored has the same type and reads as promised. *)
Lemma set_stored k old v m : typed k old -> set k old v = Stored m ->
  typed k m /\ (readable old -> readable m) /\
  (readable old -> exists u, get k m = Some u /\ reads k v u).
Proof.
  intros T H. destruct k, old; cbn [typed] in T; try contradiction; cbn [ModelMembers.set] in H.
  - destruct v; try discriminate. injection H as <-. cbn. repeat split.
    intros _. eexists. split; [reflexivity|]. exists s0. rewrite c_str_idem. auto.
  - destruct (tonumber str2num v) as [y|] eqn:E; [|discriminate]. injection H as <-.
    repeat split. intros _. eexists. split; [reflexivity|]. exists y. rewrite number_iff. auto.
  - destruct (tointeger str2num v) as [| |y] eqn:E; try discriminate. injection H as <-.
    repeat split. intros _. eexists. split; [reflexivity|]. apply integer_iff in E.
    destruct E as (x0 & N0 & W0). exists x0, y. auto.
  - destruct (to_vec str2num v) as [[a b]|] eqn:E; [|discriminate]. injection H as <-.
    repeat split. intros _. eexists. split; [reflexivity|]. exists a, b.
    apply to_vec_iff in E. auto.
  - destruct (to_vec3 str2num v) as [[[a b] c]|] eqn:E; [|discriminate]. injection H as <-.
    repeat split. intros _. eexists. split; [reflexivity|]. exists a, b, c.
    apply to_vec3_iff in E. auto.
  - destruct v; try discriminate; destruct (accepts _) eqn:E; try discriminate; injection H as <-;
      repeat split; intros _; eexists; (split; [reflexivity|]); eexists; eauto 6.
  - change (set KTime (MTime t) v = Stored m) in H. rewrite set_time in H.
    destruct (timed v) as [t'| |] eqn:E; try discriminate.
    injection H as <-. repeat split. intros _. eexists. split; [reflexivity|]. exists t'.
    split; [reflexivity|]. now apply timed_time.
  - destruct v; try discriminate. injection H as <-. split; [exact I|]. split.
    { destruct l; cbn; auto. }
    intros R. destruct l as [|z l]; [contradiction|]. destruct b; cbn.
    + rewrite forallb_same. eexists. split; [reflexivity|]. exists true. auto.
    + rewrite forallb_same. eexists. split; [reflexivity|]. exists false. auto.
  - destruct v; try discriminate; injection H as <-; repeat split; intros _;
      eexists; (split; [reflexivity|]); split; eauto.
  - destruct (tonumber str2num v) as [y|] eqn:E; [|discriminate]. injection H as <-.
    repeat split. intros _. eexists. split; [reflexivity|]. exists y. rewrite number_iff. auto.
  - discriminate.
Qed.

(** What is refused has no reading. *)
Lemma set_refused k old v e : typed k old -> set k old v = Refused e -> forall u, ~ reads k v u.
Proof.
  intros T H u. destruct k, old; cbn [typed] in T; try contradiction; cbn [ModelMembers.set] in H; cbn [SpecMembers.reads].
  - intros (x0 & -> & _). discriminate.
  - intros (x0 & N & _). apply number_iff in N. rewrite N in H. discriminate.
  - intros (x0 & z0 & N & W & _). assert (I : tointeger str2num v = Whole z0) by (apply integer_iff; eauto).
    rewrite I in H. discriminate.
  - intros (a0 & b0 & _ & N). apply to_vec_iff in N. rewrite N in H. discriminate.
  - intros (a0 & b0 & c0 & _ & N). apply to_vec3_iff in N. rewrite N in H. discriminate.
  - intros (x0 & _ & A & [->|(x' & -> & ->)]); rewrite A in H; discriminate.
  - intros (x0 & _ & N). apply time_timed in N. change (set KTime (MTime t) v = Refused e) in H.
    rewrite set_time, N in H. discriminate.
  - intros (b0 & -> & _). discriminate.
  - intros ([->|(b0 & ->)] & _); discriminate.
  - intros (x0 & N & _). apply number_iff in N. rewrite N in H. discriminate.
  - auto.
Qed.

Lemma set_undefined k old v : typed k old -> set k old v = Undefined -> k <> KList ->
  (k = KTime \/ k = KInt) /\ undefined str2num scan k v.
Proof.
  intros T H N. destruct k, old; cbn [typed] in T; try contradiction; cbn [ModelMembers.set] in H; try congruence.
  - destruct v; discriminate.
  - destruct (tonumber str2num v); discriminate.
  - split; [auto|]. cbn [undefined]. apply outside_iff. destruct (tointeger str2num v); try discriminate; reflexivity.
  - destruct (to_vec str2num v) as [[? ?]|]; discriminate.
  - destruct (to_vec3 str2num v) as [[[? ?] ?]|]; discriminate.
  - destruct v; try discriminate; destruct (accepts _); discriminate.
  - split; [auto|]. apply timed_undefined. change (set KTime (MTime t) v = Undefined) in H.
    rewrite set_time in H. destruct (timed v); try discriminate; reflexivity.
  - destruct v; discriminate.
  - destruct v; discriminate.
  - destruct (tonumber str2num v); discriminate.
Qed.

Lemma reads_defined k v u : reads k v u -> undefined str2num scan k v -> False.
Proof.
  destruct k; cbn [SpecMembers.reads undefined]; try tauto.
  - intros (x & z & N & W & _) (y & N' & O). apply number_iff in N. apply number_iff in N'.
    assert (y = x) as -> by congruence. exact (O z W).
  - intros (t & _ & T) U. apply time_timed in T. destruct U as [U|(a & b & -> & U)].
    + apply time_timed in U. congruence.
    + unfold timed in T. cbn [time_value] in T. unfold time_table in T.
      destruct U as [U|U]; apply outside_iff in U; rewrite U in T; destruct (tointeger str2num _); discriminate.
Qed.

Lemma get_readable k m : typed k m -> get k m <> None -> readable m.
Proof.
  intros T G. destruct m as [| | | | | | |[|z l]| |]; try exact I.
  destruct k; contradiction || (apply G; reflexivity).
Qed.

(** * A table of members *)

(** The table agrees with the manual: the same names with the same types, each
    name bound to a member of its own except [o] and [d]; only lists have no
    setter. *)
Record agrees (t : list row) (doc : list (string * kind)) : Prop := {
  a_names : NoDup (map rname t);
  a_fields : forall r q, In r t -> In q t -> rfield r = rfield q ->
    (forall m, typed (rkind r) m -> typed (rkind q) m) /\
    (rname r = rname q \/ rname r = "o" /\ rname q = "d" \/ rname r = "d" /\ rname q = "o");
  a_doc : forall n k, In (n, k) doc <-> exists r, In r t /\ rname r = n /\ rkind r = k;
  a_set : forall r, In r t -> rset r = match rkind r with KList => false | _ => true end }.

Lemma find_row t n r : find (fun r => String.eqb (rname r) n) t = Some r -> In r t /\ rname r = n.
Proof.
  intros H. apply find_some in H. destruct H as [H E]. apply String.eqb_eq in E. auto.
Qed.

Lemma find_in t r : NoDup (map rname t) -> In r t ->
  find (fun q => String.eqb (rname q) (rname r)) t = Some r.
Proof.
  induction t as [|q t IH]; intros N I; [destruct I|]. cbn in N. inversion N as [|? ? N1 N2]; subst.
  cbn. destruct (String.eqb_spec (rname q) (rname r)) as [E|E].
  - destruct I as [->|I]; [reflexivity|]. exfalso. apply N1. rewrite E. exact (in_map rname _ _ I).
  - destruct I as [->|I]; [congruence|]. exact (IH N2 I).
Qed.

Lemma nodup_map_eq {A B} (f : A -> B) l a b :
  NoDup (map f l) -> In a l -> In b l -> f a = f b -> a = b.
Proof.
  induction l as [|c l IH]; intros N Ia Ib E; [destruct Ia|]. cbn in N.
  inversion N as [|? ? N1 N2]; subst. destruct Ia as [->|Ia], Ib as [->|Ib]; auto.
  - exfalso. apply N1. rewrite E. exact (in_map f _ _ Ib).
  - exfalso. apply N1. rewrite <- E. exact (in_map f _ _ Ia).
Qed.

Lemma put_same o f m : put o f m f = m.
Proof. unfold put. rewrite String.eqb_refl. reflexivity. Qed.
Lemma put_other o f m g : g <> f -> put o f m g = o g.
Proof. unfold put. intros N. destruct (String.eqb_spec g f); [contradiction|reflexivity]. Qed.

Definition field_apart (a b : string) : Prop :=
  a <> b /\ ~ (a = "o" /\ b = "d") /\ ~ (a = "d" /\ b = "o").

Lemma newindex_ok t doc methods o n v :
  agrees t doc -> typed_object t o ->
  let o' := fst (newindex t o n v) in
  match snd (newindex t o n v) with
  | Value _ =>
      exists k, In (n, k) doc /\
      typed_object t o' /\
      (forall r, In r t -> field_apart n (rname r) -> o' (rfield r) = o (rfield r)) /\
      (getindex t methods o n <> Ub ->
       exists u, getindex t methods o' n = Value u /\ reads k v u)
  | LuaError _ => o' = o /\ forall k u, In (n, k) doc -> ~ reads k v u
  | Ub => o' = o /\ exists k, In (n, k) doc /\ undefined str2num scan k v
  | Elsewhere => False
  end.
Proof.
  intros [AN AF AD AS] T. unfold ModelMembers.newindex.
  destruct (find (fun r => String.eqb (rname r) n) t) as [r|] eqn:E.
  - apply find_row in E. destruct E as [I <-].
    destruct (rset r) eqn:RS.
    + assert (NL : rkind r <> KList) by (intros K; specialize (AS r I); rewrite K in AS; congruence).
      destruct (set (rkind r) (o (rfield r)) v) as [m|e|] eqn:S; cbn [fst snd].
      * destruct (set_stored _ _ _ _ (T r I) S) as (T' & _ & R').
        exists (rkind r). split; [apply AD; eauto|]. split; [|split].
        -- intros q Iq. destruct (String.eqb_spec (rfield q) (rfield r)) as [F|F].
           ++ rewrite F, put_same. destruct (AF r q I Iq (eq_sym F)) as [Ty _]. exact (Ty _ T').
           ++ rewrite put_other by exact F. exact (T q Iq).
        -- intros q Iq (N1 & N2 & N3). apply put_other. intros F.
           destruct (AF r q I Iq (eq_sym F)) as [_ [?|[?|?]]]; tauto.
        -- intros Rd. unfold getindex in *. rewrite (find_in _ _ AN I) in *. rewrite put_same.
           destruct R' as (u & G & Hu).
           { exact (get_readable _ _ (T r I) (fun G => Rd ltac:(rewrite G; reflexivity))). }
           exists u. rewrite G. auto.
      * split; [reflexivity|]. intros k u D. apply AD in D. destruct D as (q & Iq & Eq & <-).
        assert (q = r) as -> by exact (nodup_map_eq _ _ _ _ AN Iq I Eq).
        exact (set_refused _ _ _ _ (T r I) S u).
      * destruct (set_undefined _ _ _ (T r I) S NL) as [K U]. split; [reflexivity|].
        exists (rkind r). split; [|exact U]. apply AD. exists r. auto.
    + cbn [fst snd]. split; [reflexivity|]. intros k u D. apply AD in D.
      destruct D as (q & Iq & Eq & <-).
      assert (q = r) as -> by exact (nodup_map_eq _ _ _ _ AN Iq I Eq).
      specialize (AS r I). rewrite RS in AS. destruct (rkind r); try discriminate. cbn. auto.
  - cbn [fst snd]. split; [reflexivity|]. intros k u D. apply AD in D.
    destruct D as (q & Iq & <- & _). rewrite (find_in _ _ AN Iq) in E. discriminate.
Qed.

End Members.

(** ** The tables of the code *)

Lemma find_doc t n k r : find (fun r => String.eqb (rname r) n) t = Some r -> rkind r = k ->
  exists r, In r t /\ rname r = n /\ rkind r = k.
Proof. intros F K. apply find_row in F. destruct F. eauto. Qed.

Definition numeric (k : kind) : bool := match k with KDbl | KDegree => true | _ => false end.
Definition fields_ok (t : list row) : bool :=
  forallb (fun r => forallb (fun q =>
    negb (String.eqb (rfield r) (rfield q)) || String.eqb (rname r) (rname q) ||
    numeric (rkind r) && numeric (rkind q) &&
    (String.eqb (rname r) "o" && String.eqb (rname q) "d" ||
     String.eqb (rname r) "d" && String.eqb (rname q) "o"))%bool t) t.
Lemma fields_ok_sound t : NoDup (map rname t) -> fields_ok t = true ->
  forall r q, In r t -> In q t -> rfield r = rfield q ->
    (forall m, typed (rkind r) m -> typed (rkind q) m) /\
    (rname r = rname q \/ rname r = "o" /\ rname q = "d" \/ rname r = "d" /\ rname q = "o").
Proof.
  intros N H r q Ir Iq E. unfold fields_ok in H. rewrite forallb_forall in H.
  specialize (H r Ir). rewrite forallb_forall in H. specialize (H q Iq).
  rewrite E, String.eqb_refl in H. cbn [negb orb] in H.
  apply orb_true_iff in H. destruct H as [H|H].
  - apply String.eqb_eq in H. rewrite (nodup_map_eq _ _ _ _ N Ir Iq H). auto.
  - rewrite !andb_true_iff, orb_true_iff, !andb_true_iff in H. rewrite !String.eqb_eq in H.
    destruct H as [[Kr Kq] H]. split; [|tauto]. intros m.
    destruct (rkind r), (rkind q); try discriminate; exact (fun H => H).
Qed.

Ltac nodup :=
  repeat (apply NoDup_cons; [cbn; intros H; repeat (destruct H as [H|H]; [discriminate H|]); exact H|]);
  apply NoDup_nil.
Ltac agree :=
  constructor;
  [ cbn; nodup
  | apply fields_ok_sound; [cbn; nodup | vm_compute; reflexivity]
  | intros n k; split;
    [ intros H; cbn in H;
      repeat (destruct H as [H|H];
              [injection H as <- <-; eapply find_doc; reflexivity|]); destruct H
    | intros (r & H & <- & <-); cbn in H;
      repeat (destruct H as [<-|H]; [cbn; tauto|]); destruct H ]
  | intros r H; cbn in H; repeat (destruct H as [<-|H]; [reflexivity|]); destruct H ].

Lemma body_agrees : agrees tbody_members doc_body.
Proof. agree. Qed.
Lemma space_agrees : agrees space_members doc_space.
Proof. agree. Qed.
Lemma tvec_agrees : agrees tvec_members doc_tvec.
Proof. agree. Qed.
Lemma tobj_agrees : agrees tobj_members doc_tobj.
Proof. agree. Qed.
Lemma tvec3d_agrees : agrees tvec3d_members doc_tvec3d.
Proof. agree. Qed.

(** * Paths *)

Section Paths.
Variable str2num : string -> option f64.
Variable accepts : string -> bool.
Variable scan : string -> Time.ModelRun.scan.

Notation assign := (assign str2num accepts scan).
Notation newindex := (newindex str2num accepts scan).
Notation reads := (reads str2num accepts scan).

Lemma assign_one t o n v : assign t o [n] v = newindex t o n v.
Proof. reflexivity. Qed.
Lemma assign_more t o n a p v : assign t o (n :: a :: p) v =
  match find (fun r => String.eqb (rname r) n) t with
  | None => (o, LuaError ("attempt to index a nil value (field '" ++ n ++ "')"))
  | Some r =>
      match rkind r, open_vec (o (rfield r)) with
      | KVec, Some (t', o') | KVec3, Some (t', o') =>
          let '(o', ans) := assign t' o' (a :: p) v in
          (put o (rfield r) (close_vec (o (rfield r)) o'), ans)
      | KRoot, _ | KList, _ => (o, Elsewhere)
      | _, _ => (o, LuaError ("can not assign '" ++ n ++ "'"))
      end
  end.
Proof. reflexivity. Qed.
Lemma look_more t methods o n a p : look t methods o (n :: a :: p) =
  match find (fun r => String.eqb (rname r) n) t with
  | None => LuaError ("attempt to index a nil value (field '" ++ n ++ "')")
  | Some r =>
      match rkind r, open_vec (o (rfield r)) with
      | KVec, Some (t', o') | KVec3, Some (t', o') => look t' (methods_of (o (rfield r))) o' (a :: p)
      | KDbl, _ | KInt, _ | KTime, _ | KSlip, _ | KDegree, _ =>
          LuaError ("attempt to index field '" ++ n ++ "'")
      | _, _ => Elsewhere
      end
  end.
Proof. reflexivity. Qed.
Lemma look_one t methods o n : look t methods o [n] = getindex t methods o n.
Proof. reflexivity. Qed.

(** A vector opened as an object. *)
Definition vec_doc (k : kind) : list (string * kind) :=
  match k with KVec => doc_tvec | _ => doc_tvec3d end.
Definition vec_kind (k : kind) : Prop := k = KVec \/ k = KVec3.

Lemma open_ok k m : vec_kind k -> typed k m ->
  exists t o, open_vec m = Some (t, o) /\ agrees t (vec_doc k) /\ typed_object t o /\
    (forall o', typed_object t o' -> typed k (close_vec m o') /\
       exists o2, open_vec (close_vec m o') = Some (t, o2) /\
         methods_of (close_vec m o') = methods_of m /\
         forall r, In r t -> o2 (rfield r) = o' (rfield r)).
Proof.
  intros [-> | ->] T; destruct m; try contradiction.
  - exists tvec_members, (fun f => if String.eqb f "x" then MDbl x else MDbl y).
    split; [reflexivity|]. split; [exact tvec_agrees|]. split.
    { intros r [<-|[<-|[]]]; exact I. }
    intros o' T'. pose proof (T' _ (or_introl eq_refl)) as T1.
    pose proof (T' _ (or_intror (or_introl eq_refl))) as T2. cbn [rkind rfield] in T1, T2.
    unfold close_vec. destruct (o' "x") eqn:E1; try contradiction.
    destruct (o' "y") eqn:E2; try contradiction. split; [exact I|]. eexists.
    split; [reflexivity|]. split; [reflexivity|].
    intros r [<-|[<-|[]]]; cbn [rfield]; cbn [String.eqb Ascii.eqb Bool.eqb]; symmetry; assumption.
  - exists tvec3d_members, (fun f => if String.eqb f "r" then MVec x y else MDbl o).
    split; [reflexivity|]. split; [exact tvec3d_agrees|]. split.
    { intros r [<-|[<-|[<-|[]]]]; exact I. }
    intros o' T'. pose proof (T' _ (or_introl eq_refl)) as T1.
    pose proof (T' _ (or_intror (or_introl eq_refl))) as T2. cbn [rkind rfield] in T1, T2.
    unfold close_vec. destruct (o' "r") eqn:E1; try contradiction.
    destruct (o' "o") eqn:E2; try contradiction. split; [exact I|]. eexists.
    split; [reflexivity|]. split; [reflexivity|].
    intros r [<-|[<-|[<-|[]]]]; cbn [rfield]; cbn [String.eqb Ascii.eqb Bool.eqb]; symmetry; assumption.
Qed.

(** Reading depends on the members of the table alone. *)
Lemma look_ext t methods o o' p :
  (forall r, In r t -> o' (rfield r) = o (rfield r)) -> look t methods o' p = look t methods o p.
Proof.
  intros E. destruct p as [|n [|a p]]; [reflexivity| |].
  - rewrite !look_one. unfold getindex.
    destruct (find _ t) as [r|] eqn:F; [|reflexivity]. apply find_row in F. destruct F as [I _].
    rewrite (E r I). reflexivity.
  - rewrite !look_more. destruct (find _ t) as [r|] eqn:F; [|reflexivity].
    apply find_row in F. destruct F as [I _]. rewrite (E r I). reflexivity.
Qed.

(** Only the first member matters. *)
Lemma look_head t methods o o' n p :
  (forall r, In r t -> rname r = n -> o' (rfield r) = o (rfield r)) ->
  look t methods o' (n :: p) = look t methods o (n :: p).
Proof.
  intros E. destruct p as [|a p].
  - rewrite !look_one. unfold getindex.
    destruct (find _ t) as [r|] eqn:F; [|reflexivity]. apply find_row in F. destruct F as [I N].
    rewrite (E r I N). reflexivity.
  - rewrite !look_more. destruct (find _ t) as [r|] eqn:F; [|reflexivity].
    apply find_row in F. destruct F as [I N]. rewrite (E r I N). reflexivity.
Qed.

Lemma apart_inv a p b q : apart (a :: p) (b :: q) ->
  field_apart a b \/ (a = b /\ apart p q).
Proof. intros H. inversion H; subst; [left|right]; unfold field_apart; auto. Qed.

(** The outcome of an assignment along a path. *)
Definition outcome t doc methods o p v (o' : object) (a : answer) : Prop :=
  match a with
  | Value _ =>
      exists k, at_path doc p k /\ typed_object t o' /\
      (forall q, apart p q -> look t methods o' q = look t methods o q) /\
      (look t methods o p <> Ub ->
       exists u, look t methods o' p = Value u /\ reads k v u)
  | LuaError _ =>
      (forall r, In r t -> o' (rfield r) = o (rfield r)) /\
      forall k u, at_path doc p k -> ~ reads k v u
  | Ub =>
      (forall r, In r t -> o' (rfield r) = o (rfield r)) /\
      exists k, at_path doc p k /\ undefined str2num scan k v
  | Elsewhere =>
      (forall r, In r t -> o' (rfield r) = o (rfield r)) /\
      exists n p', p = n :: p' /\ p' <> [] /\ (In (n, KRoot) doc \/ In (n, KList) doc)
  end.

Lemma close_open m t o o' : open_vec m = Some (t, o) ->
  (forall r, In r t -> o' (rfield r) = o (rfield r)) -> close_vec m o' = m.
Proof.
  destruct m; cbn [open_vec]; intros H E; try discriminate.
  - assert (t = tvec_members) by congruence. subst t.
    assert (O : o = fun f => if String.eqb f "x" then MDbl x else MDbl y) by congruence.
    pose proof (E _ (or_introl eq_refl)) as E1.
    pose proof (E _ (or_intror (or_introl eq_refl))) as E2. cbn [rfield] in E1, E2.
    unfold close_vec. rewrite E1, E2, O. reflexivity.
  - assert (t = tvec3d_members) by congruence. subst t.
    assert (O : o = fun f => if String.eqb f "r" then MVec x y else MDbl o0) by congruence.
    pose proof (E _ (or_introl eq_refl)) as E1.
    pose proof (E _ (or_intror (or_introl eq_refl))) as E2. cbn [rfield] in E1, E2.
    unfold close_vec. rewrite E1, E2, O. reflexivity.
Qed.

Lemma put_id o f (g : string) : put o f (o f) g = o g.
Proof. unfold put. destruct (String.eqb_spec g f); congruence. Qed.

Lemma at_path_vec n a p k doc kd : In (n, kd) doc -> vec_kind kd ->
  at_path (vec_doc kd) (a :: p) k -> at_path doc (n :: a :: p) k.
Proof. intros I [-> | ->] H; [left|right]; auto. Qed.

Lemma outcome_ok v p : p <> [] -> forall t doc methods o, agrees t doc -> typed_object t o ->
  outcome t doc methods o p v (fst (assign t o p v)) (snd (assign t o p v)).
Proof.
  induction p as [|n p IH]; intros NE t doc methods o A T; [congruence|].
  destruct p as [|a p].
  - rewrite assign_one.
    pose proof (newindex_ok str2num accepts scan t doc methods o n v A T) as H.
    cbv zeta in H. unfold outcome. destruct (snd (newindex t o n v)).
    + destruct H as (k & D & T' & S & R). exists k. split; [exact D|]. split; [exact T'|]. split.
      * intros q Hq. destruct q as [|b q]; [inversion Hq|].
        destruct (apart_inv _ _ _ _ Hq) as [F|[_ F]]; [|inversion F].
        apply look_head. intros r I N. apply S; [exact I|]. rewrite N. exact F.
      * exact R.
    + destruct H as [-> H]. split; [reflexivity|exact H].
    + destruct H as [-> H]. split; [reflexivity|exact H].
    + destruct H.
  - rewrite assign_more. destruct (find (fun r => String.eqb (rname r) n) t) as [r|] eqn:F.
    + destruct (find_row _ _ _ F) as [I N].
      assert (D : In (n, rkind r) doc) by (apply (a_doc _ _ A); exists r; auto).
      assert (U : forall k, In (n, k) doc -> k = rkind r).
      { intros k D'. apply (a_doc _ _ A) in D'. destruct D' as (q & Iq & Nq & <-).
        f_equal. apply (nodup_map_eq _ _ _ _ (a_names _ _ A) Iq I). congruence. }
      assert (V : vec_kind (rkind r) ->
        outcome t doc methods o (n :: a :: p) v
          (fst (match open_vec (o (rfield r)) with
                | Some (t', o') => let '(o', ans) := assign t' o' (a :: p) v in
                    (put o (rfield r) (close_vec (o (rfield r)) o'), ans)
                | None => (o, LuaError ("can not assign '" ++ n ++ "'")) end))
          (snd (match open_vec (o (rfield r)) with
                | Some (t', o') => let '(o', ans) := assign t' o' (a :: p) v in
                    (put o (rfield r) (close_vec (o (rfield r)) o'), ans)
                | None => (o, LuaError ("can not assign '" ++ n ++ "'")) end))).
      { intros K. destruct (open_ok _ _ K (T r I)) as (t' & o1 & O & A' & T' & C).
        rewrite O. specialize (IH ltac:(discriminate) t' (vec_doc (rkind r))
          (methods_of (o (rfield r))) o1 A' T').
        destruct (assign t' o1 (a :: p) v) as [o2 ans]. cbn [fst snd] in *.
        assert (LK : forall x q, look t methods x (n :: q) =
          match q with [] => getindex t methods x n | _ =>
          match open_vec (x (rfield r)) with
          | Some (t', o') => look t' (methods_of (x (rfield r))) o' q
          | None => Elsewhere end end).
        { intros x [|b q]; [reflexivity|]. rewrite look_more, F.
          destruct K as [-> | ->]; destruct (open_vec _) as [[? ?]|]; reflexivity. }
        unfold outcome in *. destruct ans.
        - destruct IH as (k & P & T2 & S & R). destruct (C o2 T2) as (Ty & o3 & O3 & M3 & E3).
          exists k. split; [exact (at_path_vec _ _ _ _ _ _ D K P)|]. split; [|split].
          + intros q Iq. destruct (String.eqb_spec (rfield q) (rfield r)) as [Ef|Ef].
            * rewrite Ef, put_same. exact (proj1 (a_fields _ _ A r q I Iq (eq_sym Ef)) _ Ty).
            * rewrite put_other by exact Ef. exact (T q Iq).
          + intros q Hq. destruct q as [|b q]; [inversion Hq|].
            destruct (apart_inv _ _ _ _ Hq) as [G|[<- G]].
            * apply look_head. intros s Is Ns. apply put_other. intros Ef.
              destruct (proj2 (a_fields _ _ A r s I Is (eq_sym Ef))) as [X|[X|X]];
                destruct G as (G1 & G2 & G3); rewrite N, Ns in X; tauto.
            * destruct q as [|c q]; [inversion G|].
              rewrite !LK, put_same, O3, O, M3. rewrite (look_ext _ _ _ _ _ E3). apply S. exact G.
          + rewrite !LK, put_same, O3, O, M3. intros NU. destruct (R NU) as (u & L & Hu).
            exists u. rewrite (look_ext _ _ _ _ _ E3). auto.
        - destruct IH as [E P]. rewrite (close_open _ _ _ _ O E). split.
          + intros q _. apply put_id.
          + intros k u Hk. destruct Hk as [[D' Hk]|[D' Hk]]; apply U in D';
              rewrite <- D' in P; exact (P k u Hk).
        - destruct IH as (E & k & P & Z). rewrite (close_open _ _ _ _ O E). split.
          + intros q _. apply put_id.
          + exists k. split; [exact (at_path_vec _ _ _ _ _ _ D K P)|exact Z].
        - exfalso. destruct IH as (_ & n' & p' & _ & _ & [X|X]);
            destruct K as [E|E]; rewrite E in X; cbn in X;
            repeat (destruct X as [X|X]; [discriminate X|]); exact X. }
      assert (W : ~ vec_kind (rkind r) -> forall k, ~ at_path doc (n :: a :: p) k).
      { intros NK k [[D' _]|[D' _]]; apply U in D'; apply NK; rewrite <- D'; [left|right]; reflexivity. }
      destruct (rkind r) eqn:K;
        try (destruct (open_vec (o (rfield r))) as [[t' o']|];
             (split; [reflexivity|]; intros k u Hk; exfalso;
              refine (W _ k Hk); intros [?|?]; discriminate)).
      * apply V. left; reflexivity.
      * apply V. right; reflexivity.
      * split; [reflexivity|]. exists n, (a :: p). split; [reflexivity|]. split; [discriminate|].
        left; exact D.
      * split; [reflexivity|]. exists n, (a :: p). split; [reflexivity|]. split; [discriminate|].
        right; exact D.
    + split; [reflexivity|]. intros k u [[D' _]|[D' _]]; apply (a_doc _ _ A) in D';
        destruct D' as (q & Iq & Nq & _); subst n; rewrite (find_in _ _ (a_names _ _ A) Iq) in F;
        discriminate.
Qed.

End Paths.
