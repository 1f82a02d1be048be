(** stack_traits (src/posix/stack_traits.cpp, src/windows/stack_traits.cpp).

    The system (sysconf, getrlimit, GetSystemInfo) is an oracle whose answers may change
    from call to call; the code caches the first answer in function-local statics. *)
From Coq Require Import ZArith Lia Bool List.
Import ListNotations.
Open Scope Z_scope.

(** the two function-local statics: posix L53 [limit], L69 [size] (windows L68 [size]) *)
Record tstate := mk_ts { ts_limit : option Z; ts_page : option Z }.
Definition ts0 := mk_ts None None.

(** what the system would answer right now *)
Record sysans := mk_sys { sys_rlim_max : Z; sys_pagesize : Z }.

Section Posix.
  (** [RLIM_INFINITY], [MINSIGSTKSZ] and the width of size_t are platform constants *)
  Variables (rlim_inf minsig b : Z).

  (** posix/stack_traits.cpp L52-55 *)
  Definition stacksize_limit (a : sysans) (s : tstate) : tstate * Z :=
    match ts_limit s with
    | Some l => (s, l)
    | None => (mk_ts (Some (sys_rlim_max a)) (ts_page s), sys_rlim_max a)
    end.

  (** L62-65 *)
  Definition is_unbounded (a : sysans) (s : tstate) : tstate * bool :=
    let (s', l) := stacksize_limit a s in (s', rlim_inf =? l).

  (** L67-71 (windows L65-70) *)
  Definition page_size (a : sysans) (s : tstate) : tstate * Z :=
    match ts_page s with
    | Some p => (s, p)
    | None => (mk_ts (ts_limit s) (Some (sys_pagesize a)), sys_pagesize a)
    end.

  (** L73-76 (windows L72-76) *)
  Definition default_size : Z := 128 * 1024.

  (** L78-81 *)
  Definition minimum_size : Z := minsig.

  (** L83-87; [None] = BOOST_ASSERT( ! is_unbounded() ) fails. The assertion evaluates
      is_unbounded() first, then the limit is read again (through the static). *)
  Definition maximum_size (a : sysans) (s : tstate) : tstate * option Z :=
    let (s1, u) := is_unbounded a s in
    if u then (s1, None)
    else let (s2, l) := stacksize_limit a s1 in (s2, Some (l mod 2 ^ b)).

  Inductive tcall := CUnbounded | CPage | CDefault | CMin | CMax.
  Inductive tret := RBool (x : bool) | RSize (x : Z) | RAssert.

  Definition tcall_step (a : sysans) (s : tstate) (c : tcall) : tstate * tret :=
    match c with
    | CUnbounded => let (s', r) := is_unbounded a s in (s', RBool r)
    | CPage => let (s', r) := page_size a s in (s', RSize r)
    | CDefault => (s, RSize default_size)
    | CMin => (s, RSize minimum_size)
    | CMax => let (s', r) := maximum_size a s in
              (s', match r with Some x => RSize x | None => RAssert end)
    end.

  (** a history of calls, each with the answer the system would give at that time *)
  Fixpoint trun (s : tstate) (l : list (sysans * tcall)) : list (tcall * tret) :=
    match l with
    | [] => []
    | (a, c) :: r => let (s', x) := tcall_step a s c in (c, x) :: trun s' r
    end.

  (** --- proofs --- *)
  Definition agrees (lim : option Z) (pg : option Z) (e : tcall * tret) : Prop :=
    match e with
    | (CUnbounded, r) => match lim with Some l => r = RBool (rlim_inf =? l) | None => False end
    | (CMax, r) => match lim with
                   | Some l => r = if rlim_inf =? l then RAssert else RSize (l mod 2 ^ b)
                   | None => False end
    | (CPage, r) => match pg with Some p => r = RSize p | None => False end
    | (CDefault, r) => r = RSize (128 * 1024)
    | (CMin, r) => r = RSize minsig
    end.

  Lemma tcall_agrees a s c :
    let (s', x) := tcall_step a s c in
    agrees (ts_limit s') (ts_page s') (c, x)
    /\ (forall l, ts_limit s = Some l -> ts_limit s' = Some l)
    /\ (forall p, ts_page s = Some p -> ts_page s' = Some p).
  Proof.
    destruct s as [[l|] [p|]], c; unfold tcall_step, maximum_size, is_unbounded, page_size, stacksize_limit;
      cbn [ts_limit ts_page];
      repeat (match goal with |- context [if ?c then _ else _] => destruct c eqn:? end; cbn [ts_limit ts_page]);
      cbn [agrees ts_limit ts_page];
      repeat match goal with E : (_ =? _) = _ |- _ => rewrite E end;
      repeat split; auto; try discriminate; try congruence.
  Qed.

  Lemma trun_agrees l : forall s,
    exists lim pg,
      (forall x, ts_limit s = Some x -> lim = Some x) /\
      (forall x, ts_page s = Some x -> pg = Some x) /\
      (forall e, In e (trun s l) -> agrees lim pg e).
  Proof.
    induction l as [|[a c] l IH]; intros s; cbn [trun].
    - exists (ts_limit s), (ts_page s). repeat split; auto. intros e [].
    - pose proof (tcall_agrees a s c) as H. destruct (tcall_step a s c) as [s' x].
      destruct H as [H1 [H2 H3]]. destruct (IH s') as [lim [pg [I1 [I2 I3]]]].
      exists lim, pg. repeat split; auto.
      intros e [<-|He]; [|auto].
      destruct c; cbn [agrees] in *; auto.
      + destruct (ts_limit s') as [z|] eqn:E; [rewrite (I1 z eq_refl); exact H1|destruct H1].
      + destruct (ts_page s') as [z|] eqn:E; [rewrite (I2 z eq_refl); exact H1|destruct H1].
      + destruct (ts_limit s') as [z|] eqn:E; [rewrite (I1 z eq_refl); exact H1|destruct H1].
  Qed.

  Lemma trun_stable l c x y :
    In (c, x) (trun ts0 l) -> In (c, y) (trun ts0 l) -> x = y.
  Proof.
    intros Hx Hy. destruct (trun_agrees l ts0) as [lim [pg [_ [_ H]]]].
    apply H in Hx; apply H in Hy. destruct c; cbn [agrees] in *;
      destruct lim, pg; try contradiction; congruence.
  Qed.

  Definition first_page (l : list (sysans * tcall)) :=
    filter (fun e => match snd e with CPage => true | _ => false end) l.
  Definition first_limit (l : list (sysans * tcall)) :=
    filter (fun e => match snd e with CUnbounded | CMax => true | _ => false end) l.

  Lemma trun_page_known l : forall s p, ts_page s = Some p ->
    forall x, In (CPage, x) (trun s l) -> x = RSize p.
  Proof.
    induction l as [|[a c] l IH]; intros s p E x H; cbn [trun] in H; [destruct H|].
    pose proof (tcall_agrees a s c) as G. destruct (tcall_step a s c) as [s' y].
    destruct G as (G1 & _ & G3). pose proof (G3 p E) as E'. destruct H as [H|H]; [|eapply IH; eauto].
    injection H as -> ->. cbn [agrees] in G1. rewrite E' in G1. exact G1.
  Qed.

  Lemma trun_page l : forall s a rest, ts_page s = None -> first_page l = (a, CPage) :: rest ->
    forall x, In (CPage, x) (trun s l) -> x = RSize (sys_pagesize a).
  Proof.
    induction l as [|[a0 c0] l IH]; intros s a rest E F x H; cbn [trun first_page filter snd] in *; [discriminate|].
    destruct c0; try (
      match type of H with In _ (let (_, _) := tcall_step ?a ?s ?c in _) =>
        assert (P : ts_page (fst (tcall_step a s c)) = None) by
          (unfold tcall_step, maximum_size, is_unbounded, stacksize_limit; destruct s as [[?|] ?]; cbn in *;
           repeat (match goal with |- context [if ?c then _ else _] => destruct c end; cbn); assumption);
        destruct (tcall_step a s c) as [s' y] end;
      cbn [fst] in P; destruct H as [H|H]; [discriminate|]; eapply IH; eauto).
    injection F as -> F. unfold tcall_step, page_size in H. rewrite E in H.
    destruct H as [H|H]; [congruence|]. eapply trun_page_known; [|exact H]. reflexivity.
  Qed.

  Lemma trun_limit_known l : forall s z, ts_limit s = Some z ->
    (forall x, In (CUnbounded, x) (trun s l) -> x = RBool (z =? rlim_inf)) /\
    (forall x, In (CMax, x) (trun s l) -> x = if z =? rlim_inf then RAssert else RSize (z mod 2 ^ b)).
  Proof.
    induction l as [|[a c] l IH]; intros s z E; cbn [trun]; [split; intros x []|].
    pose proof (tcall_agrees a s c) as G. destruct (tcall_step a s c) as [s' y].
    destruct G as (G1 & G2 & _). pose proof (G2 z E) as E'. destruct (IH s' z E') as [I1 I2].
    split; intros x [H|H]; auto; injection H as -> ->; cbn [agrees] in G1; rewrite E' in G1;
      rewrite (Z.eqb_sym z rlim_inf); exact G1.
  Qed.

  Lemma trun_limit l : forall s a c rest, ts_limit s = None -> first_limit l = (a, c) :: rest ->
    (forall x, In (CUnbounded, x) (trun s l) -> x = RBool (sys_rlim_max a =? rlim_inf)) /\
    (forall x, In (CMax, x) (trun s l) ->
       x = if sys_rlim_max a =? rlim_inf then RAssert else RSize (sys_rlim_max a mod 2 ^ b)).
  Proof.
    induction l as [|[a0 c0] l IH]; intros s a c rest E F; cbn [trun first_limit filter snd] in *; [discriminate|].
    destruct c0.
    - injection F as FA FC FR; rewrite <- FA; clear FA; pose proof (tcall_agrees a0 s) as G;
      match goal with |- context [tcall_step a0 s ?c] => specialize (G c);
        assert (L : ts_limit (fst (tcall_step a0 s c)) = Some (sys_rlim_max a0)) by
          (unfold tcall_step, maximum_size, is_unbounded, stacksize_limit; rewrite E; cbn;
           repeat (match goal with |- context [if ?c then _ else _] => destruct c end; cbn); reflexivity);
        destruct (tcall_step a0 s c) as [s' y] end;
      cbn [fst] in L; destruct G as (G1 & _); destruct (trun_limit_known l s' _ L) as [K1 K2];
      split; intros x [H|H]; auto; try discriminate; injection H as ->; cbn [agrees] in G1; rewrite L in G1;
      rewrite (Z.eqb_sym _ rlim_inf); exact G1.
    - match goal with |- context [tcall_step ?a ?s ?c] =>
        assert (P : ts_limit (fst (tcall_step a s c)) = None) by
          (unfold tcall_step, page_size; destruct s as [? [?|]]; cbn in *; assumption);
        destruct (tcall_step a s c) as [s' y] end;
      cbn [fst] in P; destruct (IH s' a c rest P F) as [I1 I2];
      split; intros x [H|H]; auto; discriminate.
    - match goal with |- context [tcall_step ?a ?s ?c] =>
        assert (P : ts_limit (fst (tcall_step a s c)) = None) by
          (unfold tcall_step, page_size; destruct s as [? [?|]]; cbn in *; assumption);
        destruct (tcall_step a s c) as [s' y] end;
      cbn [fst] in P; destruct (IH s' a c rest P F) as [I1 I2];
      split; intros x [H|H]; auto; discriminate.
    - match goal with |- context [tcall_step ?a ?s ?c] =>
        assert (P : ts_limit (fst (tcall_step a s c)) = None) by
          (unfold tcall_step, page_size; destruct s as [? [?|]]; cbn in *; assumption);
        destruct (tcall_step a s c) as [s' y] end;
      cbn [fst] in P; destruct (IH s' a c rest P F) as [I1 I2];
      split; intros x [H|H]; auto; discriminate.
    - injection F as FA FC FR; rewrite <- FA; clear FA; pose proof (tcall_agrees a0 s) as G;
      match goal with |- context [tcall_step a0 s ?c] => specialize (G c);
        assert (L : ts_limit (fst (tcall_step a0 s c)) = Some (sys_rlim_max a0)) by
          (unfold tcall_step, maximum_size, is_unbounded, stacksize_limit; rewrite E; cbn;
           repeat (match goal with |- context [if ?c then _ else _] => destruct c end; cbn); reflexivity);
        destruct (tcall_step a0 s c) as [s' y] end;
      cbn [fst] in L; destruct G as (G1 & _); destruct (trun_limit_known l s' _ L) as [K1 K2];
      split; intros x [H|H]; auto; try discriminate; injection H as ->; cbn [agrees] in G1; rewrite L in G1;
      rewrite (Z.eqb_sym _ rlim_inf); exact G1.
  Qed.

  (** maximum_size() is usable exactly if is_unbounded() reports false *)
  Lemma trun_max_iff l u x :
    In (CUnbounded, RBool u) (trun ts0 l) -> In (CMax, x) (trun ts0 l) ->
    (x = RAssert <-> u = true).
  Proof.
    intros Hx Hy. destruct (trun_agrees l ts0) as [lim [pg [_ [_ H]]]].
    apply H in Hx; apply H in Hy. cbn [agrees] in *.
    destruct lim as [z|]; [|contradiction]. injection Hx as ->. rewrite Hy.
    destruct (rlim_inf =? z); split; congruence.
  Qed.
End Posix.

(** windows/stack_traits.cpp L60-92: is_unbounded is constantly true, hence maximum_size
    always violates its assertion. [x64] selects MIN_STACKSIZE (L29-38). *)
Definition win_is_unbounded : bool := true.
Definition win_minimum_size (x64 : bool) : Z := if x64 then 8 * 1024 else 4 * 1024.
Definition win_maximum_size : option Z := if win_is_unbounded then None else Some (1024 * 1024 * 1024).
