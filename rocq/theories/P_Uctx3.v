(** Fibers over ucontext: the library always gives control back, and the process is terminated only by
    escaping exceptions (C49). *)
From Coq Require Import List Arith Bool Lia.
From Verif Require Import ListUtil Uctx UctxSpec UctxInv UctxInv2 UctxInv3 UctxInv4 UctxInv5 UctxInv6 UctxInv7 UctxWind P_Uctx P_Uctx2.
Import ListNotations.

(* ================================================================== specification *)

(** the call stack of context c, innermost frame first *)
Definition frames_of (s : state) (c : nat) : list frame :=
  match nth_error (s_rec s) c with Some x => r_frames x | None => [] end.
(** it is the user's turn on thread t: user code executes there, or decides about an exception that has arrived *)
Definition user_turn (s : state) (t : nat) : Prop :=
  exists f rest, frames_of s (running (s_tr s) t) = FU f :: rest /\ (uf_mode f = MRun \/ exists e, uf_mode f = MLand e).
(** operations that only wind down: library steps, leaving a function by return or by exception, ending the
    scope of an automatic object, not handling an exception *)
Definition winds_down (l : label) : Prop :=
  l = LTau \/ (exists v, l = LUser (UReturn v)) \/ l = LUser UScope \/ l = LUser UPropagate \/ l = LUser URethrow \/ (exists e, l = LUser (UThrow e)).

(** exception e leaves the innermost function of thread t, which is of kind k; all its objects are destroyed *)
Definition escapes (s : state) (t : nat) (k : ukind) (e : exn) (below : list frame) : Prop :=
  exists f, frames_of s (running (s_tr s) t) = FU f :: below /\ uf_kind f = k /\ uf_mode f = MUnw e /\ uf_objs f = [].
(** Exceptions that end the process: one that leaves a destructor, a thread's main function, a
    context-function (other than the unwind request), or a function injected into a finished context. *)
Definition fatal (k : ukind) (e : exn) (below : list frame) : Prop :=
  match k with
  | KDtor _ | KMain => True
  | KCtx => (exists x, e = XUser x) /\ exists r, below = FRun :: r
  | KOntop _ => exists r, below = FOnt :: FRunEnd :: r
  | KPlain => False
  end.

(* ================================================================== winding down *)

Lemma winds_winding l : winds_down l -> winding l = true.
Proof. intros [->|[[v ->]|[->|[->|[->|[e ->]]]]]]; reflexivity. Qed.

(** C49: In every state there is a bound on the number of steps that all threads together can make without
    user code starting anything new: no cleanup, unwinding or deallocation goes on forever.  No
    assumption about the user: this includes the histories that are not [calm]. *)
Theorem C49_winding_down_terminates s :
  exists bound, forall l s', (forall t a, In (t, a) l -> winds_down a) -> run s l = Next s' -> length l <= bound.
Proof.
  exists (weight s). intros l s' Hl E. apply run_weight in E; [lia|].
  apply Forall_forall. intros [t a] Hi. apply winds_winding. eapply Hl; eauto.
Qed.

(* ------------------------------------------------------------------ outcomes of the library's own code *)

Definition lib_out (o : outcome) : Prop := match o with Next _ | AssertFail _ | Terminate | UB _ => True | _ => False end.
Lemma ret_out s c fs r : lib_out (ret_to s c fs r).
Proof. unfold ret_to. destruct fs as [|[] rest]; exact Logic.I. Qed.
Lemma raise_out s c fs x : lib_out (raise_to s c fs x).
Proof. unfold raise_to. destruct fs as [|[] rest]; exact Logic.I. Qed.
Lemma arrive_out s d : lib_out (arrive s d).
Proof.
  unfold arrive. destruct (nth_error (s_rec s) d) as [x|]; [|exact Logic.I]. destruct (r_frames x) as [|[] rest]; try exact Logic.I.
  - destruct (r_force x); [apply raise_out|]. destruct (r_ontop x); [exact Logic.I|apply ret_out].
  - destruct (nth_error (s_rec s) _) as [y|]; [|exact Logic.I]. destruct (r_alive y); [|exact Logic.I]. destruct (r_term y); exact Logic.I.
Qed.
Lemma switch_out s t c d k : lib_out (switch s t c d k).
Proof. unfold switch. destruct (nth_error (s_rec s) d); [|exact Logic.I]. destruct (_ && _); [apply arrive_out|exact Logic.I]. Qed.
Lemma drop_out s t c fs h : lib_out (drop s t c fs h).
Proof.
  unfold drop. destruct h as [d|]; [|exact Logic.I]. destruct (nth_error (s_rec s) d) as [y|]; [|exact Logic.I].
  destruct (r_alive y); [|exact Logic.I]. destruct (r_main y); [exact Logic.I|]. destruct (r_term y); [exact Logic.I|apply switch_out].
Qed.
Lemma destroy_out s t c fs p o : lib_out (destroy s t c fs p o).
Proof. unfold destroy. destruct o as [v|u]; [|exact Logic.I]. destruct (nth_error (s_vars s) v) as [[|b h]|]; try exact Logic.I. apply drop_out. Qed.
Lemma tau_out s t c fs : match fs with FU f :: _ => match uf_mode f with MRun | MLand _ => False | _ => True end | _ => True end -> lib_out (tau_step s t c fs).
Proof.
  destruct fs as [|f0 rest]; [intros _; exact Logic.I|]. destruct f0; cbn [tau_step]; intros H; try exact Logic.I.
  - destruct (uf_mode f); try contradiction; destruct (uf_objs f); try apply destroy_out.
    + unfold leave_ret. destruct (uf_kind f); try exact Logic.I; destruct rest as [|[] rest]; try exact Logic.I. apply ret_out.
    + unfold leave_exn. destruct (uf_kind f); try exact Logic.I; destruct rest as [|[] rest]; try exact Logic.I; [destruct e; exact Logic.I|apply raise_out].
  - destruct p; [|exact Logic.I]. destruct (nth_error (s_rec s) c); [apply switch_out|exact Logic.I].
  - apply drop_out.
  - unfold rel_step. destruct (nth_error (s_rec s) d) as [y|]; [|exact Logic.I]. destruct (r_alive y); [|exact Logic.I].
    destruct (r_caps y); [|apply destroy_out]. destruct (r_alloc y); [|exact Logic.I]. destruct fail; [|exact Logic.I].
    destruct rest as [|[] rest]; exact Logic.I.
Qed.

Lemma step_frames n l0 s t a : run (init n) l0 = Next s -> t < n -> exists c,
  nth_error (s_thr s) t = Some c /\ running (s_tr s) t = c /\
  step s t a = match nth_error (s_rec s) c with None => UB (s_tr s) | Some x => match a with LTau => tau_step s t c (r_frames x) | LUser o => match r_frames x with FU f :: rest => user_step s t c f rest o | _ => Invalid end end end.
Proof.
  intros H Ht. assert (L : length (s_thr s) = n).
  { clear Ht. revert H. enough (G : forall s0, length (s_thr s0) = n -> run s0 l0 = Next s -> length (s_thr s) = n) by (apply G; cbn; apply seq_length).
    induction l0 as [|[t' a'] l0 IH]; intros s0 L H; cbn [run] in H; [injection H as <-; exact L|].
    destruct (step s0 t' a') as [s1| | | | |] eqn:E; try discriminate. apply (IH s1); [|exact H].
    destruct (nth_error (s_thr s0) t') as [c|] eqn:Et; [|unfold step in E; rewrite Et in E; discriminate].
    destruct (C47_step s0 t' a' s1 c Et E) as (new & _ & [[_ ->]|(d & k & m1 & m2 & _ & _ & _ & ->)] & _); [exact L|rewrite upd_length; exact L]. }
  destruct (nth_error (s_thr s) t) as [c|] eqn:Et; [|apply nth_error_None in Et; lia].
  exists c. destruct (run_threads n l0 s H t c Et) as [_ R]. split; [reflexivity|]. split; [exact R|]. unfold step. rewrite Et. reflexivity.
Qed.

Lemma tau_progress n l0 s t : run (init n) l0 = Next s -> t < n -> user_turn s t \/ lib_out (step s t LTau).
Proof.
  intros H Ht. destruct (step_frames n l0 s t LTau H Ht) as (c & H1 & H2 & ->). unfold user_turn, frames_of. rewrite H2.
  destruct (nth_error (s_rec s) c) as [x|] eqn:Hc; [|right; exact Logic.I].
  assert (D : (exists f rest, r_frames x = FU f :: rest /\ (uf_mode f = MRun \/ exists e, uf_mode f = MLand e)) \/
    match r_frames x with FU f :: _ => match uf_mode f with MRun | MLand _ => False | _ => True end | _ => True end).
  { destruct (r_frames x) as [|[] rest]; auto. destruct (uf_mode f) eqn:E; auto; left; eexists _, _; (split; [reflexivity|]); rewrite E; eauto. }
  destruct D as [D|D]; [left; exact D|]. right. apply tau_out. exact D.
Qed.

(** C49: Whatever state a thread is in, after finitely many steps of the library alone its user code has
    control again, or the process has ended by an assertion or by std::terminate; undefined behaviour is
    possible only in a history that is not [calm]. *)
Lemma urun_app l1 l2 s : run s (l1 ++ l2) = match run s l1 with Next s' => run s' l2 | o => o end.
Proof. revert s. induction l1 as [|[t a] l1 IH]; intros s; cbn; [reflexivity|]. destruct (step s t a); auto. Qed.
Theorem C49_control_returns n l0 s t : run (init n) l0 = Next s -> t < n ->
  exists k, match run s (repeat (t, LTau) k) with
            | Next s' => user_turn s' t
            | AssertFail _ | Terminate => True
            | UB tr => ~ calm tr
            | _ => False
            end.
Proof.
  intros Hr Ht. remember (weight s) as w eqn:Ew. revert l0 s Ew Hr. induction w as [w IH] using lt_wf_ind. intros l0 s -> Hr.
  destruct (tau_progress n l0 s t Hr Ht) as [U|P]; [exists 0; exact U|].
  destruct (step s t LTau) as [s'|tr|tr| | |] eqn:E; try contradiction.
  - assert (Hr' : run (init n) (l0 ++ [(t, LTau)]) = Next s') by (rewrite urun_app, Hr; cbn; rewrite E; reflexivity).
    pose proof (step_weight _ _ _ _ (eq_refl : winding LTau = true) E) as Hw.
    destruct (IH _ Hw _ s' eq_refl Hr') as [k Hk]. exists (S k). cbn. rewrite E. exact Hk.
  - exists 1. cbn. rewrite E. apply (C34_no_undefined_behaviour_partial n (l0 ++ [(t, LTau)])). rewrite urun_app, Hr. cbn. rewrite E. reflexivity.
  - exists 1. cbn. rewrite E. exact Logic.I.
  - exists 1. cbn. rewrite E. exact Logic.I.
Qed.

(* ================================================================== std::terminate *)

(** a context in the final resume() of run() is finished and not asked to unwind *)
Definition q (x : rcd) : Prop := In FRunEnd (r_frames x) -> r_force x = false /\ r_term x = true.
Definition Q (s : state) : Prop := forall c x, nth_error (s_rec s) c = Some x -> q x.
Definition qout (o : outcome) : Prop := match o with Next s => Q s | _ => True end.

Lemma Q_rec s c x y : Q s -> nth_error (s_rec s) c = Some x -> q y -> Q (put_rec s c y).
Proof.
  intros H Hc Hy d z Hz. cbn in Hz. rewrite nth_upd in Hz. destruct (Nat.eqb_spec c d) as [->|N]; [|eauto].
  destruct (_ <? _); [injection Hz as <-; exact Hy|discriminate].
Qed.
Lemma Q_put s c fs : Q s -> (forall x, nth_error (s_rec s) c = Some x -> In FRunEnd fs -> In FRunEnd (r_frames x)) -> Q (put_frames s c fs).
Proof.
  intros H Hf. unfold put_frames. destruct (nth_error (s_rec s) c) as [x|] eqn:Hc; [|exact H]. eapply Q_rec; eauto.
  intros Hi. apply (H c x Hc). apply Hf; auto.
Qed.
Lemma Q_same s s' : s_rec s' = s_rec s -> Q s -> Q s'.
Proof. unfold Q. intros ->. auto. Qed.
Lemma q_frames x y : r_frames y = r_frames x -> r_force y = r_force x -> r_term y = r_term x -> q x -> q y.
Proof. unfold q. intros -> -> ->. auto. Qed.

Ltac inr := let Hi := fresh "Hi" in intros Hi; cbn [In] in *; intuition (try discriminate).

Lemma ret_q s c x fs p : Q s -> nth_error (s_rec s) c = Some x -> (In FRunEnd fs -> In FRunEnd (r_frames x)) -> qout (ret_to s c fs p).
Proof.
  intros H Hc Hi. unfold ret_to. destruct fs as [|[] rest]; try exact Logic.I; cbn [qout]; apply Q_put; try (eapply Q_same; [|exact H]; reflexivity);
    intros x' Hx'; cbn in Hx'; rewrite Hc in Hx'; injection Hx' as <-; inr.
Qed.
Lemma raise_q s c x fs p : Q s -> nth_error (s_rec s) c = Some x -> (In FRunEnd fs -> In FRunEnd (r_frames x)) -> qout (raise_to s c fs p).
Proof.
  intros H Hc Hi. unfold raise_to. destruct fs as [|[] rest]; try exact Logic.I; cbn [qout]; apply Q_put; try (eapply Q_same; [|exact H]; reflexivity);
    intros x' Hx'; cbn in Hx'; rewrite Hc in Hx'; injection Hx' as <-; inr.
Qed.
Lemma arrive_q s d : Q s -> qout (arrive s d).
Proof.
  intros H. unfold arrive. destruct (nth_error (s_rec s) d) as [x|] eqn:Hd; [|exact Logic.I].
  assert (H1 : Q (put_rec s d (set_from x None))) by (eapply Q_rec; eauto; eapply q_frames; [| | |exact (H d x Hd)]; reflexivity).
  assert (E1 : nth_error (s_rec (put_rec s d (set_from x None))) d = Some (set_from x None)) by (cbn; eapply nth_upd_eq; eauto).
  destruct (r_frames x) as [|[f| | |e| | |p| |p| |e b] rest] eqn:Hf; try exact Logic.I.
  - cbn [qout]. apply Q_put; [eapply Q_same; [|exact H]; reflexivity|]. intros x' Hx'. cbn in Hx'. rewrite Hd in Hx'. injection Hx' as <-. rewrite Hf. inr.
  - destruct (r_force x); [|destruct (r_ontop x)].
    + eapply raise_q; eauto. cbn [set_from r_frames]. rewrite Hf. inr.
    + cbn [qout]. apply Q_put; [eapply Q_same; [|exact H1]; reflexivity|]. intros x' Hx'. cbn [emit add_var s_rec] in Hx'. rewrite E1 in Hx'. injection Hx' as <-.
      cbn [set_from r_frames]. rewrite Hf. inr.
    + eapply ret_q; eauto. cbn [set_from r_frames]. rewrite Hf. inr.
  - destruct (nth_error (s_rec s) e) as [y|]; [|exact Logic.I]. destruct (r_alive y); [|exact Logic.I]. destruct (r_term y); [|exact Logic.I].
    cbn [qout]. apply Q_put; [eapply Q_same; [|exact H1]; reflexivity|]. intros x' Hx'. cbn [emit s_rec] in Hx'. rewrite E1 in Hx'. injection Hx' as <-.
    cbn [set_from r_frames]. rewrite Hf. inr.
Qed.
Lemma switch_q s t c d k : Q s -> (k = SwUnwind -> term s d = false) -> qout (switch s t c d k).
Proof.
  intros H Hk. unfold switch. destruct (nth_error (s_rec s) d) as [y|] eqn:Hd; [|exact Logic.I]. destruct (_ && _); [|exact Logic.I].
  apply arrive_q. apply (Q_same (put_rec s d (match k with SwOntop g => set_ontop (set_from y (Some c)) (Some g) | SwUnwind => set_force (set_from y (Some c)) true | _ => set_from y (Some c) end))); [destruct k; reflexivity|].
  eapply Q_rec; eauto. pose proof (H d y Hd) as Hy. destruct k; try (eapply q_frames; [| | |exact Hy]; reflexivity).
  specialize (Hk eq_refl). unfold term in Hk. rewrite Hd in Hk. intros Hi. exfalso. cbn in Hi. apply Hy in Hi. destruct Hi. congruence.
Qed.
Lemma drop_q s t c x fs h : Q s -> nth_error (s_rec s) c = Some x -> (In FRunEnd fs -> In FRunEnd (r_frames x)) -> qout (drop s t c fs h).
Proof.
  intros H Hc Hi. unfold drop.
  assert (P : forall f, f <> FRunEnd -> Q (put_frames s c (f :: fs))).
  { intros f Hn. apply Q_put; auto. intros x' Hx'. rewrite Hc in Hx'. injection Hx' as <-. intros [E|E]; [congruence|auto]. }
  assert (P0 : Q (put_frames s c fs)).
  { apply Q_put; auto. intros x' Hx'. rewrite Hc in Hx'. injection Hx' as <-. auto. }
  destruct h as [d|]; [|exact P0]. destruct (nth_error (s_rec s) d) as [y|] eqn:Hd; [|exact Logic.I].
  destruct (r_alive y); [|exact Logic.I]. destruct (r_main y); [exact P0|]. destruct (r_term y) eqn:Ht; [apply P; discriminate|].
  apply switch_q; [apply P; discriminate|]. intros _. unfold term, put_frames. rewrite Hc. cbn. rewrite nth_upd. destruct (Nat.eqb_spec c d) as [->|N].
  - rewrite Hd in Hc. injection Hc as <-. destruct (_ <? _); [exact Ht|reflexivity].
  - rewrite Hd. exact Ht.
Qed.
Lemma destroy_q s t c x fs p o : Q s -> nth_error (s_rec s) c = Some x -> (In FRunEnd fs -> In FRunEnd (r_frames x)) -> qout (destroy s t c fs p o).
Proof.
  intros H Hc Hi. unfold destroy. destruct o as [v|u].
  - destruct (nth_error (s_vars s) v) as [[|b h]|]; try exact Logic.I. eapply drop_q; [|exact Hc|exact Hi]. eapply Q_same; [|exact H]. reflexivity.
  - cbn [qout]. apply Q_put; [eapply Q_same; [|exact H]; reflexivity|]. intros x' Hx'. cbn in Hx'. rewrite Hc in Hx'. injection Hx' as <-. inr.
Qed.
Lemma Q_emit s e : Q s -> Q (emit s e).
Proof. apply Q_same. reflexivity. Qed.
Lemma Q_clear s c : Q s -> Q (clear_ontop s c).
Proof.
  intros H. unfold clear_ontop. destruct (nth_error (s_rec s) c) as [x|] eqn:Hc; [|exact H]. eapply Q_rec; eauto. eapply q_frames; [| | |exact (H c x Hc)]; reflexivity.
Qed.
Lemma tau_q s t c x : Q s -> nth_error (s_rec s) c = Some x -> qout (tau_step s t c (r_frames x)).
Proof.
  intros H Hc. unfold tau_step. destruct (r_frames x) as [|[f| | |e| | |p| |p| |d b] rest] eqn:Hf; try exact Logic.I.
  - assert (P : forall s1 fs, s_rec s1 = s_rec s -> (In FRunEnd fs -> In FRunEnd (r_frames x)) -> Q (put_frames s1 c fs)).
    { intros s1 fs E Hi. apply Q_put; [eapply Q_same; eauto|]. intros x' Hx'. rewrite E, Hc in Hx'. injection Hx' as <-. exact Hi. }
    destruct (uf_mode f); try exact Logic.I; (destruct (uf_objs f); [|eapply destroy_q; [exact H|exact Hc|]; rewrite Hf; inr]).
    + unfold leave_ret. destruct (uf_kind f); try exact Logic.I; destruct rest as [|[] rest]; try exact Logic.I;
        try (cbn [qout]; apply P; [reflexivity|]; rewrite Hf; now inr).
      assert (C : exists x', nth_error (s_rec (clear_ontop (emit s (EvOntopRet c g r)) c)) c = Some x' /\ r_frames x' = r_frames x).
      { unfold clear_ontop. cbn [emit s_rec]. rewrite Hc. exists (set_ontop x None). split; [cbn; eapply nth_upd_eq; eauto|reflexivity]. }
      destruct C as (x' & C1 & C2). eapply ret_q; [apply Q_clear; apply Q_emit; exact H|exact C1|]. rewrite C2, Hf. inr.
    + unfold leave_exn. destruct (uf_kind f); try exact Logic.I; destruct rest as [|[] rest]; try exact Logic.I;
        try (cbn [qout]; apply P; [reflexivity|]; rewrite Hf; now inr).
      * destruct e; [exact Logic.I|]. cbn [qout]. apply P; [reflexivity|]. rewrite Hf. inr.
      * eapply raise_q; [apply Q_emit; exact H|exact Hc|]. rewrite Hf. inr.
  - destruct p as [d|]; [|exact Logic.I]. rewrite Hc. apply switch_q; [|discriminate]. eapply Q_rec; eauto. intros _. split; reflexivity.
  - eapply drop_q; eauto. rewrite Hf. inr.
  - unfold rel_step. destruct (nth_error (s_rec s) d) as [y|] eqn:Hd; [|exact Logic.I]. destruct (r_alive y); [|exact Logic.I].
    assert (G : forall y' s1 fs, r_force y' = r_force y -> r_term y' = r_term y -> q y' -> s_rec s1 = s_rec (put_rec s d y') -> (In FRunEnd fs -> In FRunEnd (r_frames x)) -> Q (put_frames s1 c fs)).
    { intros y' s1 fs E1 E2 Hq E3 Hi. assert (H1 : Q s1) by (eapply Q_same; [exact E3|]; eapply Q_rec; eauto).
      unfold put_frames. destruct (nth_error (s_rec s1) c) as [x'|] eqn:Hx'; [|exact H1]. eapply Q_rec; eauto.
      intros Hj. cbn in Hj. apply Hi in Hj. destruct (H c x Hc Hj) as [F1 F2]. rewrite E3 in Hx'. cbn in Hx'. rewrite nth_upd in Hx'.
      destruct (Nat.eqb_spec d c) as [->|N].
      - rewrite Hc in Hd. injection Hd as <-. destruct (_ <? _); [|discriminate]. injection Hx' as <-. cbn. split; congruence.
      - rewrite Hc in Hx'. injection Hx' as <-. cbn. auto. }
    destruct (r_caps y) as [|o l].
    + destruct (r_alloc y) as [a|]; [|exact Logic.I]. destruct b.
      * destruct rest as [|[] rest]; try exact Logic.I. cbn [qout]. apply (G (set_dead y)); try reflexivity; [intros []|]. rewrite Hf. inr.
      * cbn [qout]. apply (G (set_dead y)); try reflexivity; [intros []|]. rewrite Hf. inr.
    + assert (Hq : q (set_caps y l)) by (eapply q_frames; [| | |exact (H d y Hd)]; reflexivity).
      assert (X : exists x', nth_error (s_rec (put_rec s d (set_caps y l))) c = Some x' /\ r_frames x' = r_frames x).
      { cbn. rewrite nth_upd. destruct (Nat.eqb_spec d c) as [->|N].
        - pose proof (nth_some_lt _ _ _ Hc) as L. apply Nat.ltb_lt in L. rewrite L. rewrite Hc in Hd. injection Hd as <-. eexists. split; reflexivity.
        - rewrite Hc. eauto. }
      destruct X as (x' & X1 & X2). eapply destroy_q; [eapply Q_rec; eauto|exact X1|]. rewrite X2, Hf. inr.
Qed.

Lemma do_caps_rec l : forall s d acc s1 os, do_caps s d l acc = Some (s1, os) -> s_rec s1 = s_rec s.
Proof.
  induction l as [|[v|] l IH]; intros s d acc s1 os; cbn [do_caps].
  - injection 1 as <- _. reflexivity.
  - destruct (get_var s v) as [[b h]|]; [|discriminate]. intros H. apply IH in H. exact H.
  - intros H. apply IH in H. exact H.
Qed.
Lemma user_q s t c x f rest o : Q s -> nth_error (s_rec s) c = Some x -> r_frames x = FU f :: rest -> qout (user_step s t c f rest o).
Proof.
  intros H Hc Hf.
  assert (P : forall s1 fs, s_rec s1 = s_rec s -> (In FRunEnd fs -> In FRunEnd (r_frames x)) -> Q (put_frames s1 c fs)).
  { intros s1 fs E Hi. apply Q_put; [eapply Q_same; eauto|]. intros x' Hx'. rewrite E, Hc in Hx'. injection Hx' as <-. exact Hi. }
  assert (N : forall s1 b h, s_rec s1 = s_rec s -> qout (new_fib s1 c f rest b h)).
  { intros s1 b h E. unfold new_fib. destruct b; cbn [qout]; apply P; try exact E; rewrite Hf; inr. }
  unfold user_step. destruct (uf_mode f); try exact Logic.I.
  - destruct o; try exact Logic.I; try (cbn [qout]; apply P; [reflexivity|]; rewrite Hf; now inr).
    + apply N. reflexivity.
    + assert (C : forall b, qout (do_create s c f rest a caps b)).
      { intros b. unfold do_create. destruct (do_caps _ _ _ _) as [[s1 os]|] eqn:Hd; [|exact Logic.I]. apply do_caps_rec in Hd. cbn [emit s_rec] in Hd.
        assert (L : c < length (s_rec s)) by (eapply nth_some_lt; eauto).
        set (y := mk_r _ _ _ _ _ _ _ _ _). set (s2 := mk_s _ _ _ _ _). assert (R2 : s_rec s2 = s_rec s ++ [y]) by (cbn; rewrite Hd; reflexivity).
        assert (H2 : Q s2).
        { intros e z Hz. rewrite R2 in Hz. destruct (nth_app_cases _ _ _ _ Hz) as [[_ Hz']|[_ ->]]; [eauto|]. intros [E|[]]; discriminate. }
        assert (C2 : nth_error (s_rec s2) c = Some x) by (rewrite R2, nth_error_app1; auto).
        clearbody s2. destruct b.
        - unfold new_fib. cbn [qout]. apply Q_put; [eapply Q_same; [|exact H2]; reflexivity|].
          intros x' Hx'. cbn in Hx'. rewrite C2 in Hx'. injection Hx' as <-. rewrite Hf. inr.
        - cbn [qout]. apply Q_put; [eapply Q_same; [|exact H2]; reflexivity|].
          intros x' Hx'. cbn in Hx'. rewrite C2 in Hx'. injection Hx' as <-. rewrite Hf. inr. }
      destruct r; [apply C| |apply C]. cbn [qout]. apply P; [reflexivity|]. rewrite Hf. inr.
    + destruct (get_var s src) as [[b h]|]; [|exact Logic.I]. apply N. reflexivity.
    + destruct (get_var s dst) as [[bd hd]|]; [|exact Logic.I]. destruct (get_var s src) as [[bs hs]|]; [|exact Logic.I].
      destruct (Nat.eqb dst src); [exact H|]. eapply drop_q; [|exact Hc|rewrite Hf; auto]. eapply Q_same; [|exact H]. reflexivity.
    + destruct (get_var s a) as [[ba ha]|]; [|exact Logic.I]. destruct (get_var s b) as [[bb hb]|]; [|exact Logic.I].
      cbn [qout]. eapply Q_same; [|exact H]. reflexivity.
    + destruct (get_var s v) as [[[] h]|]; try exact Logic.I. eapply destroy_q; [exact H|exact Hc|]. rewrite Hf. auto.
    + destruct (uf_objs f); [exact Logic.I|]. eapply destroy_q; [exact H|exact Hc|]. rewrite Hf. inr.
    + destruct (get_var s src) as [[b [d|]]|]; try exact Logic.I. apply switch_q; [|discriminate]. apply P; [reflexivity|]. rewrite Hf. inr.
    + destruct (get_var s src) as [[b [d|]]|]; try exact Logic.I. apply switch_q; [|discriminate]. apply P; [reflexivity|]. rewrite Hf. inr.
    + destruct (uf_kind f); try exact Logic.I; destruct (forced_caught f); try exact Logic.I; destruct v as [v|]; try exact Logic.I;
        try (cbn [qout]; apply P; [reflexivity|]; rewrite Hf; now inr);
        (destruct (get_var s v) as [[b h]|]; [|exact Logic.I]; cbn [qout]; apply P; [reflexivity|]; rewrite Hf; now inr).
    + destruct (forced_caught f); [exact Logic.I|]. cbn [qout]. apply P; [reflexivity|]. rewrite Hf. inr.
    + destruct (uf_caught f) as [[]|]; try exact Logic.I. cbn [qout]. apply P; [reflexivity|]. rewrite Hf. inr.
    + destruct (uf_caught f) as [|]; try exact Logic.I. cbn [qout]. apply P; [reflexivity|]. rewrite Hf. inr.
  - destruct o; try exact Logic.I; [destruct (uf_caught f); [exact Logic.I|]|destruct (forced_caught f); [exact Logic.I|]]; cbn [qout]; (apply P; [reflexivity|]); rewrite Hf; inr.
Qed.
Lemma step_q s t a : Q s -> qout (step s t a).
Proof.
  intros H. unfold step. destruct (nth_error (s_thr s) t) as [c|]; [|exact Logic.I]. destruct (nth_error (s_rec s) c) as [x|] eqn:Hc; [|exact Logic.I].
  destruct a as [|o]; [eapply tau_q; eauto|]. destruct (r_frames x) as [|[] rest] eqn:Hf; try exact Logic.I. eapply user_q; eauto.
Qed.
Lemma run_q l : forall s s', Q s -> run s l = Next s' -> Q s'.
Proof.
  induction l as [|[t a] l IH]; intros s s' H; cbn [run]; [injection 1 as <-; exact H|].
  pose proof (step_q s t a H) as G. destruct (step s t a); try discriminate. apply IH. exact G.
Qed.
Lemma init_q n : Q (init n).
Proof.
  intros c x Hc. apply nth_error_In in Hc. cbn in Hc. apply in_map_iff in Hc. destruct Hc as (? & <- & _). intros [E|[]]. discriminate.
Qed.

(* ---- which library functions can terminate *)
Lemma arrive_nt s d : Q s -> arrive s d <> Terminate.
Proof.
  intros H. unfold arrive. destruct (nth_error (s_rec s) d) as [x|] eqn:Hd; [|discriminate].
  destruct (r_frames x) as [|[f| | |e| | |p| |p| |e b] rest] eqn:Hf; try discriminate.
  - destruct (r_force x) eqn:Hfo; [|destruct (r_ontop x)].
    + unfold raise_to. destruct rest as [|[] rest]; try discriminate. exfalso. destruct (H d x Hd) as [A _]; [rewrite Hf; cbn; auto|congruence].
    + discriminate.
    + unfold ret_to. destruct rest as [|[] rest]; discriminate.
  - destruct (nth_error (s_rec s) e) as [y|]; [|discriminate]. destruct (r_alive y); [|discriminate]. destruct (r_term y); discriminate.
Qed.
Lemma switch_nt s t c d k : Q s -> (k = SwUnwind -> term s d = false) -> switch s t c d k <> Terminate.
Proof.
  intros H Hk. unfold switch. destruct (nth_error (s_rec s) d) as [y|] eqn:Hd; [|discriminate]. destruct (_ && _); [|discriminate].
  apply arrive_nt. apply (Q_same (put_rec s d (match k with SwOntop g => set_ontop (set_from y (Some c)) (Some g) | SwUnwind => set_force (set_from y (Some c)) true | _ => set_from y (Some c) end))); [destruct k; reflexivity|].
  eapply Q_rec; eauto. pose proof (H d y Hd) as Hy. destruct k; try (eapply q_frames; [| | |exact Hy]; reflexivity).
  specialize (Hk eq_refl). unfold term in Hk. rewrite Hd in Hk. intros Hi. exfalso. cbn in Hi. apply Hy in Hi. destruct Hi. congruence.
Qed.
Lemma drop_nt s t c x fs h : Q s -> nth_error (s_rec s) c = Some x -> (In FRunEnd fs -> In FRunEnd (r_frames x)) -> drop s t c fs h <> Terminate.
Proof.
  intros H Hc Hi. unfold drop. destruct h as [d|]; [|discriminate]. destruct (nth_error (s_rec s) d) as [y|] eqn:Hd; [|discriminate].
  destruct (r_alive y); [|discriminate]. destruct (r_main y); [discriminate|]. destruct (r_term y) eqn:Ht; [discriminate|].
  apply switch_nt.
  - apply Q_put; auto. intros x' Hx'. rewrite Hc in Hx'. injection Hx' as <-. intros [E|E]; [congruence|auto].
  - intros _. unfold term, put_frames. rewrite Hc. cbn. rewrite nth_upd. destruct (Nat.eqb_spec c d) as [->|N].
    + rewrite Hd in Hc. injection Hc as <-. destruct (_ <? _); [exact Ht|reflexivity].
    + rewrite Hd. exact Ht.
Qed.
Lemma destroy_nt s t c x fs p o : Q s -> nth_error (s_rec s) c = Some x -> (In FRunEnd fs -> In FRunEnd (r_frames x)) -> destroy s t c fs p o <> Terminate.
Proof.
  intros H Hc Hi. unfold destroy. destruct o as [v|u]; [|discriminate].
  destruct (nth_error (s_vars s) v) as [[|b h]|]; try discriminate. eapply drop_nt; [|exact Hc|exact Hi]. eapply Q_same; [|exact H]. reflexivity.
Qed.

(** C49: The process is terminated exactly by an escaping exception; see [fatal].  In every history. *)
Theorem C49_terminate n l0 s t a : run (init n) l0 = Next s -> t < n ->
  (step s t a = Terminate <-> a = LTau /\ exists k e below, escapes s t k e below /\ fatal k e below).
Proof.
  intros Hr Ht. pose proof (run_q _ _ _ (init_q n) Hr) as H. destruct (step_frames n l0 s t a Hr Ht) as (c & H1 & H2 & ->).
  unfold escapes, frames_of. rewrite H2. destruct (nth_error (s_rec s) c) as [x|] eqn:Hc.
  2:{ split; [discriminate|]. intros (_ & k & e & b & (f & E & _) & _). discriminate. }
  split.
  - destruct a as [|o].
    + intros E. split; [reflexivity|]. unfold tau_step in E. destruct (r_frames x) as [|[f| | |e| | |p| |p| |d b] rest] eqn:Hf; try discriminate.
      * destruct (uf_mode f) eqn:Hm; try discriminate; destruct (uf_objs f) eqn:Ho;
          try (exfalso; eapply destroy_nt; [exact H|exact Hc| |exact E]; rewrite Hf; now inr).
        -- exfalso. unfold leave_ret in E. destruct (uf_kind f); try discriminate; destruct rest as [|[] rest]; try discriminate.
           unfold ret_to in E. destruct rest as [|[] rest]; discriminate.
        -- exists (uf_kind f), e, rest. split; [exists f; auto|]. unfold fatal. unfold leave_exn in E.
           destruct (uf_kind f); auto; destruct rest as [|[] rest]; try discriminate.
           ++ destruct e; [|discriminate]. eauto.
           ++ unfold raise_to in E. destruct rest as [|[] rest]; try discriminate. eauto.
      * exfalso. destruct p as [d|]; [|discriminate]. rewrite Hc in E. eapply switch_nt; [| |exact E]; [|discriminate]. eapply Q_rec; eauto. intros _. split; reflexivity.
      * exfalso. eapply drop_nt; [exact H|exact Hc| |exact E]. rewrite Hf. inr.
      * exfalso. unfold rel_step in E. destruct (nth_error (s_rec s) d) as [y|] eqn:Hd; [|discriminate]. destruct (r_alive y); [|discriminate].
        destruct (r_caps y) as [|o l].
        -- destruct (r_alloc y); [|discriminate]. destruct b; [|discriminate]. destruct rest as [|[] rest]; discriminate.
        -- assert (Hq : q (set_caps y l)) by (eapply q_frames; [| | |exact (H d y Hd)]; reflexivity).
           assert (X : exists x', nth_error (s_rec (put_rec s d (set_caps y l))) c = Some x' /\ r_frames x' = r_frames x).
           { cbn. rewrite nth_upd. destruct (Nat.eqb_spec d c) as [->|N].
             - pose proof (nth_some_lt _ _ _ Hc) as L. apply Nat.ltb_lt in L. rewrite L. rewrite Hc in Hd. injection Hd as <-. eexists. split; reflexivity.
             - rewrite Hc. eauto. }
           destruct X as (x' & X1 & X2). eapply destroy_nt; [eapply Q_rec; eauto|exact X1| |exact E]. rewrite X2, Hf. inr.
    + intros E. exfalso. destruct (r_frames x) as [|[] rest] eqn:Hf; try discriminate. unfold user_step in E.
      destruct (uf_mode f); try discriminate.
      * destruct o; try discriminate.
        -- unfold new_fib in E. destruct heap; discriminate.
        -- assert (C : forall b, do_create s c f rest a caps b <> Terminate).
           { intros b. unfold do_create. destruct (do_caps _ _ _ _) as [[s1 os]|]; [|discriminate]. destruct b; discriminate. }
           destruct r; [exact (C _ E)|discriminate|exact (C _ E)].
        -- destruct (get_var s src) as [[b h]|]; [|discriminate]. unfold new_fib in E. destruct heap; discriminate.
        -- destruct (get_var s dst) as [[bd hd]|]; [|discriminate]. destruct (get_var s src) as [[bs hs]|]; [|discriminate].
           destruct (Nat.eqb dst src); [discriminate|]. match type of E with drop ?z _ _ ?fs _ = _ => apply (drop_nt z t c x fs) in E; [exact E|eapply Q_same; [|exact H]; reflexivity|exact Hc|rewrite Hf; auto] end.
        -- destruct (get_var s a) as [[ba ha]|]; [|discriminate]. destruct (get_var s b) as [[bb hb]|]; discriminate.
        -- destruct (get_var s v) as [[[] h]|]; try discriminate. eapply destroy_nt; [exact H|exact Hc| |exact E]. rewrite Hf. auto.
        -- destruct (uf_objs f); [discriminate|]. eapply destroy_nt; [exact H|exact Hc| |exact E]. rewrite Hf. inr.
        -- destruct (get_var s src) as [[b [d|]]|]; try discriminate. eapply switch_nt; [| |exact E]; [|discriminate]. 
           apply Q_put; [eapply Q_same; [|exact H]; reflexivity|]. intros x' Hx'. cbn in Hx'. rewrite Hc in Hx'. injection Hx' as <-. rewrite Hf. inr.
        -- destruct (get_var s src) as [[b [d|]]|]; try discriminate. eapply switch_nt; [| |exact E]; [|discriminate].
           apply Q_put; [eapply Q_same; [|exact H]; reflexivity|]. intros x' Hx'. cbn in Hx'. rewrite Hc in Hx'. injection Hx' as <-. rewrite Hf. inr.
        -- destruct (uf_kind f); try discriminate; destruct (forced_caught f); try discriminate; destruct v as [v|]; try discriminate;
             destruct (get_var s v) as [[b h]|]; discriminate.
        -- destruct (forced_caught f); discriminate.
        -- destruct (uf_caught f) as [[]|]; discriminate.
        -- destruct (uf_caught f) as [|]; discriminate.
      * destruct o; try discriminate; [destruct (uf_caught f); discriminate|destruct (forced_caught f); discriminate].
  - intros [-> (k & e & below & (f & G1 & G2 & G3 & G4) & Hfa)]. rewrite G1. cbn [tau_step]. rewrite G3, G4. unfold leave_exn. rewrite G2.
    destruct k; cbn in Hfa; try contradiction.
    + reflexivity.
    + destruct Hfa as [[z ->] [r ->]]. reflexivity.
    + destruct Hfa as [r ->]. reflexivity.
    + reflexivity.
Qed.

(** A context-function throws: after the library has left it, the process is terminated. *)
Example C49_example : exists s, run (init 1) (map (fun o => (0, LUser o)) [UCreate 3 [CapUsr] CrOk; UResume 0; UMoveCtor 1 true; UThrow 4] ++ [(0, LTau)]) = Next s /\
  escapes s 0 KCtx (XUser 4) [FRun] /\ fatal KCtx (XUser 4) [FRun] /\ step s 0 LTau = Terminate /\ ~ user_turn s 0.
Proof.
  eexists. split; [vm_compute; reflexivity|]. split; [eexists; repeat split; reflexivity|]. split; [split; eauto|]. split; [reflexivity|].
  intros (f & rest & E & [M|(e & M)]); vm_compute in E; injection E as <- _; discriminate.
Qed.
(** The unwinding of a destroyed fiber with an object on its stack: the library alone brings control back to
    user code (here: the decision about the unwind request); letting it pass leads to the end. *)
Example C49_example2 : exists s1 s2 s3, run (init 1) (map (fun o => (0, LUser o)) [UCreate 3 [CapUsr] CrOk; UResume 0; UResume 1; UScope; UPropagate]) = Next s1 /\
  ~ user_turn s1 0 /\ run s1 (repeat (0, LTau) 4) = Next s2 /\ running (s_tr s2) 0 = 0 /\ user_turn s2 0 /\
  run s2 [(0, LUser (UReturn None)); (0, LTau); (0, LTau)] = Next s3 /\ user_turn s3 0 /\ freed (s_tr s3) 1.
Proof.
  eexists _, _, _. split; [vm_compute; reflexivity|]. split.
  { intros (f & rest & E & [M|(e & M)]); vm_compute in E; injection E as <- _; discriminate. }
  split; [vm_compute; reflexivity|]. split; [reflexivity|]. split.
  { eexists _, _. split; [vm_compute; reflexivity|left; reflexivity]. }
  split; [vm_compute; reflexivity|]. split.
  { eexists _, _. split; [vm_compute; reflexivity|left; reflexivity]. }
  unfold freed. cbn. eauto 30.
Qed.
