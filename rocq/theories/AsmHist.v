(** * Histories of switches between any number of contexts

    The environment model for C29: contexts with disjoint stacks run arbitrary
    code, create new contexts, switch with jump or ontop, and drop contexts. The
    code may also write to the stacks of suspended contexts (variables that are
    captured by reference, say), but not to the space that their suspended calls
    own. *)
From Coq Require Import ZArith List String Lia Bool.
From Coq Require Import Permutation.
From Verif Require Import Word AsmMachine AsmSym AsmAbi AsmCheck AsmFacts.
Import ListNotations.
Open Scope Z_scope.

(** a context that is not running: its stack, its handle, where it came from, and the bytes that code
    of other contexts has changed since it is suspended *)
Record cx := Cx { x_lo : Z; x_hi : Z; x_h : Z; x_o : origin; x_w : Z -> Prop }.
Definition clean : Z -> Prop := fun _ => False.
(** code has changed the memory from m to m' *)
Definition soil (m m' : Z -> Z) (x : cx) : cx :=
  Cx (x_lo x) (x_hi x) (x_h x) (x_o x) (fun a => x_w x a \/ m' a <> m a).

(** a configuration: the running state, the running context's stack, the others *)
Record conf := Conf { now : mst; n_lo : Z; n_hi : Z; others : list cx }.

Definition sdisj (lo hi lo' hi' : Z) : Prop := hi <= lo' \/ hi' <= lo.

Section Hist.
  Variable A : port.
  Variable L : string -> Z.
  Let B := p_abi A.
  Let C := p_code A.
  Let P := ab_cpu B.

  (** the call in state [s] is made on the stack [lo, hi) and its result object
      is there, too *)
  Definition on_stack (s : mst) (lo hi : Z) : Prop :=
    lo <= handle A s /\ sp A s + ab_up B <= hi /\
    match hidden A s with
    | None => True
    | Some H => 0 < H /\ lo <= H /\ H + 2 * cwb P <= hi /\ disj H (2 * cwb P) (handle A s) (own_len A)
    end.

  (** the length of the space at its handle that a context owns *)
  Definition flen (o : origin) : Z := match o with Made _ => c_size C | Susp _ => own_len A end.

  Inductive hist : conf -> Prop :=
  | h_start s lo hi : wf P s -> 0 <= lo <= hi -> hi <= space P -> hist (Conf s lo hi [])
  (* any code of the running context that leaves the space alone that the other contexts own *)
  | h_user c s : hist c -> wf P s ->
      (forall x a, In x (others c) -> x_h x <= a < x_h x + flen (x_o x) -> mm s a = mm (now c) a) ->
      hist (Conf s (n_lo c) (n_hi c) (map (soil (mm (now c)) (mm s)) (others c)))
  | h_make c lo hi pc t : hist c -> make_ok A (now c) ->
      n_lo c <= sp A (now c) - c_mkscr C -> sp A (now c) + ab_up B <= n_hi c ->
      0 <= lo <= mk_top A (now c) - c_need C -> mk_top A (now c) <= hi -> hi <= space P ->
      sdisj lo hi (n_lo c) (n_hi c) ->
      (forall x, In x (others c) -> sdisj lo hi (x_lo x) (x_hi x)) ->
      run P L (c_make C) (now c) = Goto pc t ->
      hist (Conf t (n_lo c) (n_hi c) (Cx lo hi (rg t (ab_mkres B)) (Made (now c)) clean :: others c))
  | h_switch c k x l1 l2 pc t : hist c -> others c = l1 ++ x :: l2 -> call_ok A L (now c) ->
      arg_to A (now c) = x_h x -> on_stack (now c) (n_lo c) (n_hi c) ->
      (k = Ontop -> exists s1, x_o x = Susp s1) ->
      switch A L k (now c) = Goto pc t ->
      hist (Conf t (x_lo x) (x_hi x) (Cx (n_lo c) (n_hi c) (handle A (now c)) (Susp (now c)) clean :: l1 ++ l2))
  | h_drop c x l1 l2 : hist c -> others c = l1 ++ x :: l2 ->
      hist (Conf (now c) (n_lo c) (n_hi c) (l1 ++ l2)).

  Hypothesis LAB : labels_ok A L.
  Hypothesis CHK : check A = true.

  (** pairwise disjoint stacks *)
  Fixpoint pw (l : list (Z * Z)) : Prop :=
    match l with
    | [] => True
    | x :: t => (forall y, In y t -> sdisj (fst x) (snd x) (fst y) (snd y)) /\ pw t
    end.

  Lemma pw_perm l l' : Permutation l l' -> pw l -> pw l'.
  Proof.
    induction 1 as [|x l l' Pm IH|x y l|]; simpl; auto.
    - intros [H1 H2]. split; [|auto]. intros y I. apply H1. eapply Permutation_in; [symmetry; eassumption|exact I].
    - intros (H1 & H2 & H3). split; [|split; [|exact H3]].
      + intros z [<-|I]; [|auto]. specialize (H1 x (or_introl eq_refl)). unfold sdisj in *. lia.
      + intros z I. apply H1. right. exact I.
  Qed.

  Definition stk (x : cx) : Z * Z := (x_lo x, x_hi x).

  Definition xinv (m : Z -> Z) (x : cx) : Prop :=
    context A L m (x_h x) (x_o x) /\ 0 <= x_lo x <= x_hi x /\ x_hi x <= space P /\
    match x_o x with
    | Made s0 => x_lo x <= x_h x /\ x_h x + c_size C <= x_hi x
    | Susp s1 => on_stack s1 (x_lo x) (x_hi x) /\ x_h x = handle A s1 /\
        (forall a, x_lo x <= a < x_hi x -> ~ (handle A s1 <= a < sp A s1 + ab_wr B) -> ~ x_w x a -> m a = mm s1 a)
    end.

  Definition inv (c : conf) : Prop :=
    wf P (now c) /\ 0 <= n_lo c <= n_hi c /\ n_hi c <= space P /\
    pw ((n_lo c, n_hi c) :: map stk (others c)) /\
    forall x, In x (others c) -> xinv (mm (now c)) x.

  Lemma context_ext m m' h o : context A L m h o ->
    (forall a, h <= a < h + match o with Made _ => c_size C | Susp _ => own_len A end -> m' a = m a) ->
    context A L m' h o.
  Proof.
    intros H E. destruct H as [s pc t m MS R M|s k o pc t m CS CX AP KO SW M].
    - econstructor; eauto. intros a Ha. rewrite E by exact Ha. apply M. exact Ha.
    - econstructor; eauto. intros a Ha. rewrite E by exact Ha. apply M. exact Ha.
  Qed.

  Lemma xinv_ext m m' x : xinv m x -> (forall a, x_lo x <= a < x_hi x -> m' a = m a) -> xinv m' x.
  Proof.
    intros (CX & B0 & B1 & H) E. split; [|split; [exact B0|split; [exact B1|]]].
    - eapply context_ext; [exact CX|]. intros a Ha. apply E.
      destruct (x_o x) as [s0|s1].
      + lia.
      + destruct H as ((O1 & O2 & _) & HH & _). rewrite HH in Ha.
        unfold own_len in Ha. unfold handle in *. fold B C in Ha, O1. lia.
    - destruct (x_o x) as [s0|s1]; [exact H|]. destruct H as (O & HH & M). split; [exact O|]. split; [exact HH|].
      intros a Ha N W. rewrite E by exact Ha. auto.
  Qed.

  Lemma xinv_soil m m' x : xinv m x -> (forall a, x_h x <= a < x_h x + flen (x_o x) -> m' a = m a) -> xinv m' (soil m m' x).
  Proof.
    intros (CX & B0 & B1 & H) E. split; [|split; [exact B0|split; [exact B1|]]].
    - eapply context_ext; [exact CX|exact E].
    - cbn [soil x_o x_lo x_hi x_h x_w]. destruct (x_o x) as [s0|s1]; [exact H|]. destruct H as (O & HH & M). split; [exact O|]. split; [exact HH|].
      intros a Ha N W. destruct (Z.eq_dec (m' a) (m a)) as [Q|Q]; [rewrite Q; apply M; tauto|tauto].
  Qed.
  Lemma stk_soil m m' l : map stk (map (soil m m') l) = map stk l.
  Proof. rewrite map_map. reflexivity. Qed.

  (** the target is apart from the caller *)
  Lemma inv_apart c x : inv c -> In x (others c) -> on_stack (now c) (n_lo c) (n_hi c) ->
    call_ok A L (now c) -> apart A (now c) (x_h x) (x_o x).
  Proof.
    intros (W & B0 & B1 & (PW & _) & XI) I (O1 & O2 & _) _.
    specialize (PW (stk x) (in_map stk _ _ I)). unfold sdisj, stk in PW. cbn [fst snd] in PW.
    destruct (XI x I) as (_ & X0 & X1 & X2).
    unfold apart, disj, own_len, handle in *. fold B C P in X2, O1, O2 |- *.
    destruct (x_o x) as [s0|s1]; [lia|].
    destruct X2 as ((Y1 & Y2 & Y3) & HH & _). unfold handle, disj, own_len in *. fold B C in Y1, Y2, Y3, HH |- *.
    split; [lia|]. destruct (hidden A s1) as [H|]; [|exact I0 || exact Logic.I]. lia.
  Qed.

  (** what a switch does to memory *)
  Definition memory_after (k : how) (s : mst) (x : cx) (t : mst) : Prop :=
    forall a, untouched A s (x_h x) (x_o x) k a -> mm t a = mm s a.

  Lemma switch_ok c k x : inv c -> In x (others c) -> call_ok A L (now c) ->
    arg_to A (now c) = x_h x -> on_stack (now c) (n_lo c) (n_hi c) ->
    (k = Ontop -> exists s1, x_o x = Susp s1) -> (k = Ontop -> has_ontop A) ->
    exists pc t, switch A L k (now c) = Goto pc t /\ wf P t /\ memory_after k (now c) x t.
  Proof.
    intros I J CS AT OS KO HO. pose proof (inv_apart c x I J OS CS) as AP.
    destruct I as (W & B0 & B1 & PW & XI). destruct (XI x J) as (CX & _).
    pose proof (context_facts A L LAB CHK _ _ _ CX) as CF. unfold memory_after.
    rewrite <- AT in *. destruct (x_o x) as [s0|s1].
    - destruct k; [|destruct (KO eq_refl) as (? & ?); discriminate].
      destruct CF as (M0 & HD & t0 & T0 & f0 & E0 & SM0 & MEM). rewrite HD in *.
      destruct (jump_fresh A L LAB CHK s0 t0 (now c) T0 f0 M0 E0 SM0 CS HD MEM AP)
        as (t & T & _ & _ & SW & Wt & _ & _ & _ & _ & _ & _ & _ & _ & U).
      eauto.
    - destruct CF as (CS1 & HD & HL). destruct k.
      + destruct (jump_susp A L LAB CHK _ s1 CS CS1 HD HL AP) as (t & SW & Wt & _ & _ & _ & _ & U). eauto.
      + destruct (ontop_susp A L LAB CHK _ s1 CS CS1 HD HL AP (HO eq_refl)) as (t & SW & Wt & _ & _ & _ & _ & _ & _ & _ & U). eauto.
  Qed.

  (** memory that is on neither of the two stacks, and the live part of the
      caller's stack, are left alone *)
  Lemma untouched_out c k x a : inv c -> In x (others c) -> on_stack (now c) (n_lo c) (n_hi c) ->
    ~ (x_lo x <= a < x_hi x) -> ~ (handle A (now c) <= a < sp A (now c) + ab_wr B) ->
    untouched A (now c) (x_h x) (x_o x) k a.
  Proof.
    intros (W & B0 & B1 & PW & XI) J OS N1 N2. split; [exact N2|].
    destruct (XI x J) as (_ & _ & _ & X). destruct (x_o x) as [s0|s1].
    - fold C. lia.
    - destruct X as ((Y1 & Y2 & Y3) & HH & _). split.
      + destruct (hidden A s1) as [H|]; [|exact Logic.I]. fold B P. fold B P in Y3. lia.
      + intros _. unfold own_len, handle in *. fold B C in Y1, Y2, HH |- *. lia.
  Qed.

  Lemma wr_up : 0 <= ab_wr B <= ab_up B.
  Proof. pose proof (abi_nums A CHK). unfold B. tauto. Qed.

  Lemma in_mid (x : cx) l1 l2 : In x (l1 ++ x :: l2).
  Proof. apply in_or_app. right. left. reflexivity. Qed.

  (** each kind of step preserves the invariant *)
  Lemma inv_user c s : inv c -> wf P s ->
    (forall x a, In x (others c) -> x_h x <= a < x_h x + flen (x_o x) -> mm s a = mm (now c) a) ->
    inv (Conf s (n_lo c) (n_hi c) (map (soil (mm (now c)) (mm s)) (others c))).
  Proof.
    intros (_ & B0 & B1 & PW & XI) W U. split; [exact W|]. split; [exact B0|]. split; [exact B1|]. cbn [n_lo n_hi now others].
    rewrite stk_soil. split; [exact PW|]. intros x I. apply in_map_iff in I as (y & <- & I). apply xinv_soil; eauto.
  Qed.

  Lemma inv_make c lo hi pc t : inv c -> make_ok A (now c) ->
    n_lo c <= sp A (now c) - c_mkscr C -> sp A (now c) + ab_up B <= n_hi c ->
    0 <= lo <= mk_top A (now c) - c_need C -> mk_top A (now c) <= hi -> hi <= space P ->
    sdisj lo hi (n_lo c) (n_hi c) ->
    (forall x, In x (others c) -> sdisj lo hi (x_lo x) (x_hi x)) ->
    run P L (c_make C) (now c) = Goto pc t ->
    inv (Conf t (n_lo c) (n_hi c) (Cx lo hi (rg t (ab_mkres B)) (Made (now c)) clean :: others c)).
  Proof.
    intros IH MS O1 O2 B0 B1 B2 D1 D2 R.
    destruct (make_runs A L LAB CHK _ MS) as (t' & T & pcv & E & R' & Wt & SM & _ & _ & RES & MF).
    fold B C P in R'. rewrite R' in R. injection R as _ <-.
    destruct (top_range A L CHK _ MS) as (T1 & T2 & _ & _).
    destruct IH as (W & N0 & N1 & PW & XI). fold B C in O1, O2, T1, T2, RES, MF.
    split; [exact Wt|]. split; [exact N0|]. split; [exact N1|]. cbn [n_lo n_hi others now]. split.
    { cbn [map pw] in *. destruct PW as [P1 P2]. split; [|split; [|exact P2]].
      - intros y [<-|I]; [|auto]. unfold stk, sdisj in *. cbn [fst snd x_lo x_hi]. lia.
      - intros y I. apply in_map_iff in I as (x & <- & I). apply (D2 x I). }
    intros x [<-|I].
    - split; [|split; [|split]]; cbn [x_lo x_hi x_h x_o].
      + econstructor; eauto.
      + pose proof (abi_nums A CHK) as NN. fold B C in NN. lia.
      + exact B2.
      + fold B. rewrite RES. lia.
    - eapply xinv_ext; [apply XI; exact I|]. intros a Ha. apply MF.
      + destruct PW as [P1 _]. specialize (P1 _ (in_map stk _ _ I)). unfold sdisj, stk in P1.
        cbn [fst snd] in P1. pose proof (abi_nums A CHK) as NN. fold B C in NN. lia.
      + specialize (D2 x I). unfold sdisj in D2. lia.
  Qed.

  Lemma inv_switch c k x l1 l2 pc t : inv c -> others c = l1 ++ x :: l2 -> call_ok A L (now c) ->
    arg_to A (now c) = x_h x -> on_stack (now c) (n_lo c) (n_hi c) ->
    (k = Ontop -> exists s1, x_o x = Susp s1) ->
    switch A L k (now c) = Goto pc t ->
    inv (Conf t (x_lo x) (x_hi x) (Cx (n_lo c) (n_hi c) (handle A (now c)) (Susp (now c)) clean :: l1 ++ l2)).
  Proof.
    intros IH EO CS AT OS KO SW. pose proof (in_mid x l1 l2) as J. rewrite <- EO in J.
    assert (HO : k = Ontop -> has_ontop A).
    { intros -> Q. unfold switch in SW. rewrite Q in SW. discriminate. }
    destruct (switch_ok c k x IH J CS AT OS KO HO) as (pc' & t' & SW' & Wt & MA).
    rewrite SW in SW'. injection SW' as <- <-.
    pose proof (fun a => untouched_out c k x a IH J OS) as UO.
    pose proof (inv_apart c x IH J OS CS) as AP.
    pose proof IH as (W & N0 & N1 & PW & XI). destruct (XI x J) as (CX & X0 & X1 & X2).
    pose proof wr_up as WU. pose proof OS as (OS1 & OS2 & _).
    assert (PW' : pw (stk x :: (n_lo c, n_hi c) :: map stk (l1 ++ l2))).
    { eapply pw_perm; [|exact PW]. rewrite EO. transitivity ((n_lo c, n_hi c) :: stk x :: map stk (l1 ++ l2)).
      - apply perm_skip. rewrite !map_app. cbn [map]. symmetry. apply Permutation_middle.
      - apply perm_swap. }
    split; [exact Wt|]. cbn [n_lo n_hi others now]. split; [exact X0|]. split; [exact X1|].
    split; [exact PW'|].
    intros y [<-|I].
    - split; [|split; [|split]]; cbn [x_lo x_hi x_h x_o].
      + econstructor; try rewrite AT; eauto.
      + exact N0.
      + exact N1.
      + split; [exact OS|]. split; [reflexivity|]. intros a Ha Hf _. apply MA. apply UO; [|exact Hf].
        destruct PW' as [P1 _]. specialize (P1 _ (or_introl eq_refl)).
        unfold sdisj, stk in P1. cbn [fst snd] in P1. lia.
    - assert (Iy : In y (others c)).
      { rewrite EO. apply in_app_or in I as [I|I]; apply in_or_app; [left|right; right]; exact I. }
      eapply xinv_ext; [apply XI; exact Iy|]. intros a Ha. apply MA.
      destruct PW' as (P1 & P2 & _).
      specialize (P1 _ (or_intror (in_map stk _ _ I))). specialize (P2 _ (in_map stk _ _ I)).
      unfold sdisj, stk in P1, P2. cbn [fst snd] in P1, P2. apply UO; lia.
  Qed.

  Theorem hist_inv c : hist c -> inv c.
  Proof.
    induction 1 as [s lo hi W B0 B1|c s H IH W U|c lo hi pc t H IH MS O1 O2 B0 B1 B2 D1 D2 R
                    |c k x l1 l2 pc t H IH EO CS AT OS KO SW|c x l1 l2 H IH EO].
    - split; [exact W|]. split; [exact B0|]. split; [exact B1|]. split; [simpl; tauto|]. intros x [].
    - apply inv_user; assumption.
    - eapply inv_make; eauto.
    - eapply inv_switch; eauto.
    - destruct IH as (W & B0 & B1 & PW & XI). split; [exact W|]. split; [exact B0|]. split; [exact B1|].
      cbn [n_lo n_hi others now]. rewrite EO in *. split.
      + assert (Q : pw (stk x :: (n_lo c, n_hi c) :: map stk (l1 ++ l2))).
        { eapply pw_perm; [|exact PW]. transitivity ((n_lo c, n_hi c) :: stk x :: map stk (l1 ++ l2)).
          - apply perm_skip. rewrite !map_app. cbn [map]. symmetry. apply Permutation_middle.
          - apply perm_swap. }
        exact (proj2 Q).
      + intros y I. apply XI. apply in_app_or in I as [I|I]; apply in_or_app; [left|right; right]; exact I.
  Qed.
End Hist.
