(** Progress: the library always gives control back (C42), destructors of fibers complete (C07), resume
    always switches (C02), construction of a fiber (C41), what a context-function returns (C03). *)
From Coq Require Import List Arith Bool Lia.
From Verif Require Import ListUtil Fiber FiberInv FiberInv2 FiberInv3 Micro MicroInv FiberSpec TraceInv CallInv CallInv2 StackInv ObjInv ExnInv HistInv HeapInv StepFacts Wind Settle P_Fiber P_Fiber2 P_Fiber3.
Import ListNotations.

(* ================================================================== C42 *)

(** it is the user's turn on thread t: user code executes there, or decides about an exception that has arrived *)
Definition user_turn (s : state) (t : nat) : Prop :=
  exists f rest, frames_of s (running (s_tr s) t) = FU f :: rest /\ (uf_mode f = MRun \/ exists e, uf_mode f = MLand e).
(** operations that only wind down: library steps, leaving a function by return or by exception, ending the
    scope of an automatic object, not handling an exception *)
Definition winds_down (l : label) : Prop :=
  l = LTau \/ (exists v, l = LUser (UReturn v)) \/ l = LUser UScope \/ l = LUser UPropagate \/ l = LUser URethrow \/ (exists e, l = LUser (UThrow e)).
Lemma winds_winding l : winds_down l -> winding l = true.
Proof. intros [->|[[v ->]|[->|[->|[->|[e ->]]]]]]; reflexivity. Qed.

(** In every reachable state there is a bound on the number of steps that all threads together can make
    without user code starting anything new: no cleanup, unwinding or deallocation goes on forever. *)
Theorem C42_winding_down_terminates n s : reachable n s ->
  exists bound, forall l s', (forall t a, In (t, a) l -> winds_down a) -> run s l = Next s' -> length l <= bound.
Proof.
  intros Hr. exists (weight s). intros l s' Hl E. apply run_weight in E; [lia|eapply reachable_inv; eauto|].
  apply Forall_forall. intros [t a] Hi. apply winds_winding. eapply Hl; eauto.
Qed.

(** outcomes of the library's own code *)
Definition lib_out (o : outcome) : Prop := match o with Next _ | AssertFail | Terminate | UB => True | _ => False end.
Lemma deliver_out s c fs r : lib_out (deliver s c fs r).
Proof. unfold deliver. destruct fs as [|[] rest]; try exact Logic.I; destruct rest as [|[] rest]; exact Logic.I. Qed.
Lemma raise_out s c fs x : lib_out (raise s c fs x).
Proof. unfold raise. destruct fs as [|[] rest]; try exact Logic.I; try (destruct rest as [|[] rest]; exact Logic.I); destruct x; exact Logic.I. Qed.
Lemma unwind_out s t c fs h : lib_out (do_unwind s t c fs h).
Proof. unfold do_unwind. destruct (switch _ _ _ _ _ _) as [[s1 me]|]; [apply raise_out|exact Logic.I]. Qed.
Lemma destroy_out s t c fs p o : lib_out (destroy s t c fs p o).
Proof. unfold destroy. destruct o as [v|u]; [|exact Logic.I]. destruct (nth_error (s_vars s) v) as [[|b [h|]]|]; try exact Logic.I. apply unwind_out. Qed.
Lemma exit_step_out s t c d rest : lib_out (exit_step s t c d rest).
Proof.
  unfold exit_step. destruct (nth_error (s_ctxs s) d) as [dx|]; [|exact Logic.I]. destruct (cx_status dx); try exact Logic.I.
  destruct (cx_caps dx); [destruct (cx_alloc dx); [apply deliver_out|exact Logic.I]|apply destroy_out].
Qed.
Lemma tau_out s t c fs : match fs with FU f :: _ => match uf_mode f with MRun | MLand _ => False | _ => True end | _ => True end -> lib_out (tau_step s t c fs).
Proof.
  destruct fs as [|f0 rest]; [intros _; exact Logic.I|]. destruct f0; cbn [tau_step]; intros H; try exact Logic.I.
  - destruct (uf_mode f); try contradiction; destruct (uf_objs f); try apply destroy_out.
    + unfold leave_ret. destruct (uf_kind f); try exact Logic.I; destruct rest as [|[] rest]; try exact Logic.I. apply deliver_out.
    + unfold leave_exn. destruct (uf_kind f); try exact Logic.I; destruct rest as [|[] rest]; try exact Logic.I; apply raise_out.
  - unfold do_jump. destruct (switch _ _ _ _ _ _) as [[s1 me]|]; [apply deliver_out|exact Logic.I].
  - destruct t0; [|exact Logic.I]. unfold do_exit. destruct (switch _ _ _ _ _ _) as [[s1 me]|]; exact Logic.I.
  - apply exit_step_out.
Qed.
Lemma tau_progress n s t : reachable n s -> t < n -> user_turn s t \/ match step s t LTau with Next s' => True | AssertFail | Terminate => True | _ => False end.
Proof.
  intros Hr Ht. destruct (step_frames n s t LTau Hr Ht) as [cx [G1 [G2 [G3 [G4 G5]]]]].
  pose proof (step_good s t LTau (reachable_inv _ _ Hr)) as SG. unfold user_turn. rewrite G4. rewrite G5 in *.
  assert (D : (exists f rest, cx_frames cx = FU f :: rest /\ (uf_mode f = MRun \/ exists e, uf_mode f = MLand e)) \/
    match cx_frames cx with FU f :: _ => match uf_mode f with MRun | MLand _ => False | _ => True end | _ => True end).
  { destruct (cx_frames cx) as [|[] rest]; auto. destruct (uf_mode f) eqn:E; auto; left; eexists _, _; (split; [reflexivity|]); rewrite E; eauto. }
  destruct D as [D|D]; [left; exact D|]. right. pose proof (tau_out s t (running (s_tr s) t) _ D) as O.
  destruct (tau_step _ _ _ _); auto.
Qed.

(** Whatever state a thread is in, after finitely many steps of the library alone its user code has control
    again - or the process has ended because a context-function returned an empty fiber (C14) or an
    exception escaped that must not (C13). *)
Theorem C42_control_returns n s t : reachable n s -> t < n ->
  exists k, match run s (repeat (t, LTau) k) with Next s' => user_turn s' t | AssertFail | Terminate => True | _ => False end.
Proof.
  intros Hr Ht. remember (weight s) as w eqn:Ew. revert s Ew Hr. induction w as [w IH] using lt_wf_ind. intros s -> Hr.
  destruct (tau_progress n s t Hr Ht) as [U|P]; [exists 0; exact U|].
  destruct (step s t LTau) as [s'| | | | |] eqn:E; try contradiction; try (exists 1; cbn; rewrite E; exact Logic.I).
  assert (Hr' : reachable n s') by (eapply reach_step; eauto).
  pose proof (step_weight _ _ _ _ (reachable_inv _ _ Hr) (eq_refl : winding LTau = true) E) as Hw.
  destruct (IH _ Hw s' eq_refl Hr') as [k Hk]. exists (S k). cbn. rewrite E. exact Hk.
Qed.
Example C42_example : exists s1 s2, run ex_state [(0, LUser (UResume 2)); (0, LUser (UReturn (Some 3)))] = Next s1 /\ ~ user_turn s1 0 /\
  run s1 (repeat (0, LTau) 2) = Next s2 /\ user_turn s2 0 /\ In (EvDtor (OnCtx 2) (OUsr 1)) (s_tr s2).
Proof.
  eexists _, _. split; [vm_compute; reflexivity|]. split; [|split; [vm_compute; reflexivity|split]].
  - intros [f [rest [H1 H2]]]. vm_compute in H1. injection H1 as <- _. vm_compute in H2. destruct H2 as [H|[e H]]; discriminate.
  - eexists _, _. split; [vm_compute; reflexivity|]. left. reflexivity.
  - vm_compute. tauto.
Qed.

(* ================================================================== C07: destructors complete *)

(** Step l of thread t destroys fiber object v, which lives at p; [below] is the call stack to which
    control returns after the destructor. *)
Inductive destroys (s : state) (t : nat) : label -> place -> nat -> list frame -> Prop :=
| ds_scope f v l rest : frames_of s (running (s_tr s) t) = FU f :: rest -> uf_mode f = MRun -> uf_objs f = OFib v :: l ->   (* end of scope *)
    destroys s t (LUser UScope) (OnCtx (running (s_tr s) t)) v (FU (set_objs f l) :: rest)
| ds_delete f v h rest : frames_of s (running (s_tr s) t) = FU f :: rest -> uf_mode f = MRun -> get_var s v = Some (true, h) ->   (* heap object *)
    destroys s t (LUser (UDelete v)) OnHeap v (FU f :: rest)
| ds_return f v l r rest : frames_of s (running (s_tr s) t) = FU f :: rest -> uf_mode f = MRet r -> uf_objs f = OFib v :: l ->   (* a function returns *)
    destroys s t LTau (OnCtx (running (s_tr s) t)) v (FU (set_objs f l) :: rest)
| ds_unwind f v l e rest : frames_of s (running (s_tr s) t) = FU f :: rest -> uf_mode f = MUnw e -> uf_objs f = OFib v :: l ->   (* an exception leaves a function *)
    destroys s t LTau (OnCtx (running (s_tr s) t)) v (FU (set_objs f l) :: rest)
| ds_capture d dx v l rest : frames_of s (running (s_tr s) t) = FExit d :: rest -> nth_error (s_ctxs s) d = Some dx -> cx_caps dx = OFib v :: l ->
    destroys s t LTau (OnCtx d) v (FExit d :: rest).                       (* captured by the function object of finished context d *)

Lemma destroys_form n s t l p v below : reachable n s -> t < n -> destroys s t l p v below -> exists cx s1,
  let c := running (s_tr s) t in
  nth_error (s_thr s) t = Some c /\ nth_error (s_ctxs s) c = Some cx /\ cx_status cx = SRun t /\
  step s t l = destroy s1 t c below p (OFib v) /\ side s s1 c /\ s_vars s1 = s_vars s /\ s_thr s1 = s_thr s /\ s_tr s1 = s_tr s /\
  incl (flat_map fobjs below) (flat_map fobjs (cx_frames cx)).
Proof.
  intros Hr Ht D. destruct (step_frames n s t l Hr Ht) as [cx [G1 [G2 [G3 [G4 G5]]]]]. cbn zeta. set (c := running (s_tr s) t) in *.
  destruct D as [f v l rest Hf Hm Ho|f v h rest Hf Hm Hv|f v l r rest Hf Hm Ho|f v l e rest Hf Hm Ho|d dx v l rest Hf Hd Hc]; fold c in Hf; rewrite G4 in Hf; rewrite Hf in G5.
  - exists cx, s. unfold user_step in G5. rewrite Hm, Ho in G5. repeat split; auto; [left; reflexivity|]. rewrite Hf. cbn [flat_map fobjs set_objs uf_objs]. rewrite Ho. intros o Hi; right; exact Hi.
  - exists cx, s. unfold user_step in G5. rewrite Hm, Hv in G5. repeat split; auto; [left; reflexivity|]. rewrite Hf. apply incl_refl.
  - exists cx, s. cbn [tau_step] in G5. rewrite Hm, Ho in G5. repeat split; auto; [left; reflexivity|]. rewrite Hf. cbn [flat_map fobjs set_objs uf_objs]. rewrite Ho. intros o Hi; right; exact Hi.
  - exists cx, s. cbn [tau_step] in G5. rewrite Hm, Ho in G5. repeat split; auto; [left; reflexivity|]. rewrite Hf. cbn [flat_map fobjs set_objs uf_objs]. rewrite Ho. intros o Hi; right; exact Hi.
  - exists cx, (put_ctx s d (set_caps dx l)). cbn [tau_step] in G5. unfold exit_step in G5. rewrite Hd, Hc in G5.
    pose proof (step_good s t LTau (reachable_inv _ _ Hr)) as SG. rewrite G5 in SG. destruct (cx_status dx) eqn:Hs; try (destruct SG; fail).
    repeat split; auto; [|rewrite Hf; apply incl_refl].
    right. exists d, dx. eexists. split; [intros ->; congruence|]. split; [exact Hd|]. split; [congruence|]. split; [|split; [|reflexivity]]; [cbn; congruence|].
    unfold objs. cbn [set_caps cx_frames cx_caps]. rewrite Hc. intros o' Hi. rewrite in_app_iff in *. cbn. tauto.
Qed.

(** the destructor of an empty fiber does nothing *)
Theorem C07_destructor_empty n s t l p v below b : reachable n s -> t < n -> destroys s t l p v below -> get_var s v = Some (b, None) ->
  exists s', step s t l = Next s' /\ s_tr s' = EvDtor p (OFib v) :: s_tr s /\ frames_of s' (running (s_tr s) t) = below /\
    get_var s' v = None /\ same_fibers_except s s' [v].
Proof.
  intros Hr Ht D Hv. destruct (destroys_form _ _ _ _ _ _ _ Hr Ht D) as [cx [s1 [G1 [G2 [G3 [G4 [G5 [G6 [G7 [G8 G9]]]]]]]]]].
  set (c := running (s_tr s) t) in *. pose proof (get_var_some _ _ _ _ Hv) as Hv'. unfold destroy in G4. rewrite G6, Hv' in G4. eexists. split; [exact G4|].
  rewrite put_frames_tr. cbn [put_var emit s_tr]. rewrite G8. split; [reflexivity|]. split; [|split].
  - unfold frames_of. erewrite put_frames_nth; [reflexivity|]. cbn. rewrite (side_nth _ _ _ G5). exact G2.
  - unfold get_var. rewrite put_frames_vars. cbn. rewrite G6, nth_upd_lt by (eapply nth_some_lt; eauto). reflexivity.
  - intros w Hw. unfold get_var. rewrite put_frames_vars. cbn. rewrite G6, nth_upd_ne; auto. intros ->. apply Hw. left. reflexivity.
Qed.

(** The contexts that are owned, directly or indirectly, by context c: their handles are in fiber objects on
    the stack of c (including those captured by its function object), and so on. *)
Definition stack_of (s : state) (c : nat) : list obj :=
  match nth_error (s_ctxs s) c with Some cx => flat_map (fun f => match f with FU u => uf_objs u | _ => [] end) (cx_frames cx) ++ cx_caps cx | None => [] end.
Inductive owned (s : state) (c : nat) : nat -> Prop :=
| ow_self : owned s c c
| ow_next d v b h : owned s c d -> In (OFib v) (stack_of s d) -> get_var s v = Some (b, Some h) -> owned s c (fc_ctx h).
(** an unwind request can pass through the call stack fs: it is not the stack of a thread, no function on it
    is a destructor, none is inside a handler of an earlier unwind request *)
Definition lets_pass (fs : list frame) : Prop :=
  forall f, In (FU f) fs -> uf_kind f <> KMain /\ (forall u, uf_kind f <> KDtor u) /\ (forall m, uf_caught f <> Some (EForced m)).
(** the contexts that destroying a fiber with context c may have to unwind let the request pass *)
Definition gentle (s : state) (c : nat) : Prop := forall d, owned s c d -> lets_pass (frames_of s d).

Lemma lets_pass_gfr fs : lets_pass fs -> Forall gfr fs.
Proof.
  intros H. apply Forall_forall. intros f Hi. destruct f; cbn; auto. destruct (H _ Hi) as [H1 [H2 H3]]. split; auto.
  unfold forced_caught. destruct (uf_caught f) as [[]|]; auto. exfalso. eapply H3; reflexivity.
Qed.

Lemma gentle_G s c : gentle s c -> G true (owned s c) s.
Proof.
  intros Hg. split.
  - intros _ d tx f r Hd Hn _ Hf _. apply lets_pass_gfr. specialize (Hg _ Hd). unfold frames_of in Hg. rewrite Hn, Hf in Hg. exact Hg.
  - intros _ d tx v bv h Hd Hn Hi Hv. eapply ow_next; [exact Hd| |unfold get_var; rewrite Hv; reflexivity]. unfold stack_of. rewrite Hn. exact Hi.
Qed.
Lemma rough_G s : G false (fun _ => True) s.
Proof. split; intros Hb; discriminate Hb. Qed.

(** ~fiber() is over: control is back in the context that executed it, the stack of the destroyed fiber's
    context d has been freed *)
Definition dtor_over (s : state) (t c d : nat) (below : list frame) : Prop :=
  (exists a old, s_tr s = EvDestroyed c :: EvFree d a c :: old) /\ running (s_tr s) t = c /\ frames_of s c = below.

Lemma settle_run k : forall s t s', settle k s t = Next s' -> exists l, run s l = Next s'.
Proof.
  induction k as [|k IH]; cbn; intros s t s' E; [injection E as <-; exists []; reflexivity|].
  destruct (cleanup s t) as [a|]; [|injection E as <-; exists []; reflexivity].
  destruct (step s t a) as [s1| | | | |] eqn:Es; try discriminate. destruct (IH _ _ _ E) as [l Hl]. exists ((t, a) :: l). cbn. rewrite Es. exact Hl.
Qed.

Lemma finished_over n s' c below d t k s2 : reachable n s' -> settle k s' t = Next s2 -> finished c below d t s2 -> dtor_over s2 t c d below.
Proof.
  intros R' Ek [F1 [F2 F3]]. split; [exact F1|]. split; [|exact F3]. destruct (settle_run _ _ _ _ Ek) as [lr Hl].
  assert (R2 : reachable n s2). { destruct R' as [l0 H0]. exists (l0 ++ lr). rewrite run_app, H0. exact Hl. }
  destruct (m_thread _ _ (reach_mreach _ _ R2)) as [T2 _]. apply (t_thr _ _ T2) in F2. apply F2.
Qed.

(* an unwinding that has been started comes to its end *)
Lemma started_ends n b P s s1 t c cx below v bv h : reachable n s -> t < n ->
  G1 b P s -> G2 b P s1 -> (b = true -> P (fc_ctx h)) -> nth_error (s_thr s) t = Some c -> nth_error (s_ctxs s) c = Some cx -> cx_status cx = SRun t ->
  side s s1 c -> s_thr s1 = s_thr s -> incl (flat_map fobjs below) (flat_map fobjs (cx_frames cx)) ->
  nth_error (s_vars s) v = Some (VLive bv (Some h)) ->
  exists s' ev, let me := mk_fc c (S (cx_ver cx)) in
    do_unwind s1 t c (FDtor :: below) h = Next s' /\
    s_tr s' = ev :: EvSwitch t c me h SwUnwind :: s_tr s1 /\ (ev = EvRaised (fc_ctx h) (EForced me) \/ ev = EvDone (fc_ctx h) (Some me)) /\
    s_vars s' = s_vars s1 /\
    (SInv s' -> exists k, match settle k s' t with Next s2 => finished c below (fc_ctx h) t s2 | Terminate | Violation => b = false | _ => False end).
Proof.
  intros Hr Ht HG HG2 HP H1 H2 H3 H4 H5 H7 H8.
  destruct (unwind_form b P (fc_ctx h) HP t s s1 c cx below v bv h (reachable_inv _ _ Hr) HG HG2 H1 H2 H3 H5 H8 H7 HP H4) as
    [s' [ev [E [HG' [T [He [[tx' [Q1 [Q2 [Q3 Q4]]]] [Sm [Keep [_ V]]]]]]]]]].
  exists s', ev. cbn zeta. split; [exact E|]. split; [exact T|]. split; [exact He|]. split; [exact V|]. intros I'.
  eapply (ok_settles b P c below (mk_fc c (S (cx_ver cx))) (fc_ctx h)); [exact HP|exact I'|].
  split; [exact HG'|]. exists (fc_ctx h), tx'. split; auto. split; auto. split; auto. apply lk_stop; auto.
Qed.

(** Destroying a non-empty fiber: first the object is gone and its context, and only that, has been asked to
    unwind. Then, if user code does not interfere - exceptions that arrive are not handled, destructors of
    user objects return - the unwinding ends: either the destructor has continued and the stack of the fiber
    has been freed, or the process has ended (std::terminate: the exception hits a destructor or a thread's
    main function; or the exception hit a handler of an earlier unwind request, which must rethrow). The
    latter do not happen if the contexts that are unwound let the request pass. *)
Theorem C07_destructor_completes n s t l p v below b h : reachable n s -> t < n -> destroys s t l p v below -> get_var s v = Some (b, Some h) ->
  let c := running (s_tr s) t in
  exists s' me ev, step s t l = Next s' /\
    s_tr s' = ev :: EvSwitch t c me h SwUnwind :: EvDtor p (OFib v) :: s_tr s /\
    (ev = EvRaised (fc_ctx h) (EForced me) \/ ev = EvDone (fc_ctx h) (Some me)) /\
    get_var s' v = None /\ same_fibers_except s s' [v] /\
    (exists k, match settle k s' t with Next s2 => dtor_over s2 t c (fc_ctx h) below | Terminate | Violation => True | _ => False end) /\
    (gentle s (fc_ctx h) -> exists k s2, settle k s' t = Next s2 /\ dtor_over s2 t c (fc_ctx h) below).
Proof.
  intros Hr Ht D Hv. cbn zeta. destruct (destroys_form _ _ _ _ _ _ _ Hr Ht D) as [cx [s1 [G1 [G2 [G3 [G4 [G5 [G6 [G7 [G8 G9]]]]]]]]]].
  set (c := running (s_tr s) t) in *. pose proof (get_var_some _ _ _ _ Hv) as Hv'. unfold destroy in G4. rewrite G6, Hv' in G4.
  set (s1' := put_var (emit s1 (EvDtor p (OFib v))) v VDead) in *.
  assert (V' : vdie s s1') by (eapply vdie_kill; [|unfold s1'; cbn; rewrite G6; reflexivity]; exact Logic.I).
  assert (G5' : side s s1' c) by exact G5.
  assert (A : forall b' P, G b' P s -> (b' = true -> P (fc_ctx h)) -> _) by
    (intros b' P HG HP; exact (started_ends n b' P s s1' t c cx below v b h Hr Ht (proj1 HG) (side_G2 _ _ _ _ _ G5' V' (proj2 HG)) HP G1 G2 G3 G5 G7 G9 Hv')).
  destruct (A _ _ (rough_G s) (fun _ => Logic.I)) as [s' [ev [E [T [He [Hvs S1]]]]]].
  assert (Es : step s t l = Next s') by (rewrite G4; exact E).
  assert (R' : reachable n s') by (eapply reach_step; eauto).
  assert (Over : forall k s2, settle k s' t = Next s2 -> finished c below (fc_ctx h) t s2 -> dtor_over s2 t c (fc_ctx h) below).
  { intros k s2. apply (finished_over n); exact R'. }
  exists s', (mk_fc c (S (cx_ver cx))), ev. split; [exact Es|]. split; [|split; [exact He|split; [|split; [|split]]]].
  - rewrite T. unfold s1'. cbn. rewrite G8. reflexivity.
  - unfold get_var. rewrite Hvs. unfold s1'. cbn. rewrite G6, nth_upd_lt by (eapply nth_some_lt; eauto). reflexivity.
  - intros w Hw. unfold get_var. rewrite Hvs. unfold s1'. cbn. rewrite G6, nth_upd_ne; auto. intros ->. apply Hw. left. reflexivity.
  - destruct (S1 (reachable_inv _ _ R')) as [k Hk]. exists k. destruct (settle k s' t) eqn:Ek; auto. eapply Over; eauto.
  - intros Hg. destruct (A _ _ (gentle_G _ _ Hg) (fun _ => ow_self _ _)) as [s'' [ev' [E' [_ [_ [_ S2]]]]]].
    assert (s'' = s') by congruence. subst s''. destruct (S2 (reachable_inv _ _ R')) as [k Hk]. exists k.
    destruct (settle k s' t) as [s2| | | | |] eqn:Ek; try discriminate; try contradiction. exists s2. split; [reflexivity|]. eapply Over; eauto.
Qed.

(** the same for the fiber that a move assignment replaces: at the end, dst has the value of src *)
Theorem C07_assignment_completes n s t dst src bd bs h hs : reachable n s -> t < n -> user_running s t -> dst <> src ->
  get_var s dst = Some (bd, Some h) -> get_var s src = Some (bs, hs) ->
  let c := running (s_tr s) t in
  exists s', step s t (LUser (UMoveAssign dst src)) = Next s' /\
    (exists k, match settle k s' t with Next s2 => dtor_over s2 t c (fc_ctx h) (frames_of s c) | Terminate | Violation => True | _ => False end) /\
    (gentle s (fc_ctx h) -> (forall h', hs = Some h' -> gentle s (fc_ctx h')) ->
      exists k s2, settle k s' t = Next s2 /\ dtor_over s2 t c (fc_ctx h) (frames_of s c)).
Proof.
  intros Hr Ht Hu N Hd Hs. cbn zeta. destruct (ur_step _ _ _ (UMoveAssign dst src) Hr Ht Hu) as [cx [f [rest [H1 [H2 [H3 [H4 H5]]]]]]].
  destruct (step_frames n s t (LUser (UMoveAssign dst src)) Hr Ht) as [cx' [J1 [J2 [J3 [J4 _]]]]]. assert (cx' = cx) by congruence. subst cx'.
  pose proof (get_var_some _ _ _ _ Hd) as Hv'.
  set (c := running (s_tr s) t) in *. unfold user_step in H5. rewrite H4, Hd, Hs in H5. apply Nat.eqb_neq in N as N'. rewrite N' in H5.
  set (s1 := put_var (put_var s src (VLive bs None)) dst (VLive bd hs)) in *. rewrite J4, H3.
  assert (Sd : side s s1 c) by (left; reflexivity).
  assert (A : forall b' P, G1 b' P s -> G2 b' P s1 -> (b' = true -> P (fc_ctx h)) -> _) by
    (intros b' P HG HG2 HP; exact (started_ends n b' P s s1 t c cx (FU f :: rest) dst bd h Hr Ht HG HG2 HP J1 H1 H2 Sd eq_refl
      (eq_ind_r (fun z => incl (flat_map fobjs (FU f :: rest)) (flat_map fobjs z)) (incl_refl _) H3) Hv')).
  assert (R0 : G1 false (fun _ => True) s /\ G2 false (fun _ => True) s1) by (split; intros Hb; discriminate Hb).
  destruct (A _ _ (proj1 R0) (proj2 R0) (fun _ => Logic.I)) as [s' [ev [E [T [He [Hvs S1]]]]]].
  assert (Es : step s t (LUser (UMoveAssign dst src)) = Next s') by (rewrite H5; exact E).
  assert (R' : reachable n s') by (eapply reach_step; eauto).
  exists s'. split; [exact Es|]. split.
  - destruct (S1 (reachable_inv _ _ R')) as [k Hk]. exists k. destruct (settle k s' t) eqn:Ek; auto. eapply finished_over; eauto.
  - intros Hg Hg'. set (P := fun d => owned s (fc_ctx h) d \/ exists h', hs = Some h' /\ owned s (fc_ctx h') d).
    assert (HP : forall d, P d -> lets_pass (frames_of s d)) by (intros d [X|[h' [X Y]]]; [apply Hg; auto|eapply Hg'; eauto]).
    assert (X1 : G1 true P s).
    { intros _ d tx f0 r Hd0 Hn _ Hf _. apply lets_pass_gfr. specialize (HP _ Hd0). unfold frames_of in HP. rewrite Hn, Hf in HP. exact HP. }
    assert (X2 : G2 true P s1).
    { intros _ d tx w bv h0 Hd0 Hn Hi Hw. unfold s1 in Hw. cbn [put_var s_vars] in Hw. apply nth_upd_inv in Hw. destruct Hw as [[-> [Q _]]|[_ Hw]].
      - injection Q as _ <-. right. exists h0. split; auto. apply ow_self.
      - apply nth_upd_inv in Hw. destruct Hw as [[-> [Q _]]|[_ Hw]]; [discriminate|].
        assert (Hi' : In (OFib w) (stack_of s d)) by (unfold stack_of; change (s_ctxs s1) with (s_ctxs s) in Hn; rewrite Hn; exact Hi).
        assert (Hw' : get_var s w = Some (bv, Some h0)) by (unfold get_var; rewrite Hw; reflexivity).
        destruct Hd0 as [X|[h' [X Y]]]; [left; eapply ow_next; eauto|right; exists h'; split; auto; eapply ow_next; eauto]. }
    destruct (A _ _ X1 X2 (fun _ => or_introl (ow_self _ _))) as [s'' [ev' [E' [_ [_ [_ S2]]]]]].
    assert (s'' = s') by congruence. subst s''. destruct (S2 (reachable_inv _ _ R')) as [k Hk]. exists k.
    destruct (settle k s' t) as [s2| | | | |] eqn:Ek; try discriminate; try contradiction. exists s2. split; [reflexivity|]. eapply finished_over; eauto.
Qed.

(** A fiber destroys, at the end of a scope, a fiber that owns a third one; main waits. Everything is gentle,
    although the thread's main function is suspended, too. *)
Definition ex7_ops : list (nat * label) :=
  [(0, LUser (UCreate 7 [] true)); (0, LTau); (0, LUser (UResume 0));                            (* main creates A and enters it *)
   (0, LUser (UCreate 8 [] true)); (0, LTau); (0, LUser (UCreate 9 [CapFib 2; CapUsr] true)); (0, LTau); (* A creates B, and C capturing B *)
   (0, LUser (UResume 4)); (0, LUser UNewUsr); (0, LUser (UResume 5)); (0, LUser (UMoveCtor 6 true))].   (* C runs and switches back *)
Definition ex7_state : state := Eval vm_compute in match run (init 1) ex7_ops with Next s => s | _ => init 0 end.
Example C07_destructor_example : reachable 1 ex7_state /\ destroys ex7_state 0 (LUser (UDelete 7)) OnHeap 7 (frames_of ex7_state 1) /\
  get_var ex7_state 7 = Some (true, Some (mk_fc 3 2)) /\ gentle ex7_state 3 /\ owned ex7_state 3 2 /\ suspended (s_tr ex7_state) (mk_fc 0 2).
Proof.
  assert (R : reachable 1 ex7_state) by (exists ex7_ops; vm_compute; reflexivity).
  split; [exact R|]. split; [|split; [reflexivity|split; [|split]]].
  - eapply ds_delete; vm_compute; reflexivity.
  - assert (D : forall d, owned ex7_state 3 d -> d = 3 \/ d = 2).
    { intros d H. induction H as [|d v b h _ IH Hi Hv]; auto. destruct IH as [->| ->]; vm_compute in Hi.
      - repeat (destruct Hi as [Hi|Hi]; [try discriminate; injection Hi as <-; vm_compute in Hv; try discriminate; injection Hv as _ <-; auto|]); destruct Hi.
      - destruct Hi. }
    intros d H f Hf. destruct (D _ H) as [->| ->]; vm_compute in Hf; repeat (destruct Hf as [Hf|Hf]; [try discriminate; injection Hf as <-; repeat split; discriminate|]); destruct Hf.
  - apply (ow_next _ _ 3 3 false (mk_fc 2 1)); [apply ow_self| |]; vm_compute; tauto.
  - apply (susp_nth 1 _ _ R). eexists. split; [reflexivity|]. split; reflexivity.
Qed.

(* ================================================================== C02: a non-empty fiber can always be resumed *)

(** resume() and resume_with() of a non-empty fiber never fail: the switch happens. (C02_resume and
    C02_resume_with say what it does; an empty fiber fails the assertion, C14.) *)
Theorem C02_can_resume n s t v b h g : reachable n s -> t < n -> user_running s t -> get_var s v = Some (b, Some h) ->
  (exists s', step s t (LUser (UResume v)) = Next s') /\ (exists s', step s t (LUser (UResumeWith v g)) = Next s').
Proof.
  intros Hr Ht Hu Hv. pose proof (reachable_inv _ _ Hr) as I. split.
  - destruct (ur_step _ _ _ (UResume v) Hr Ht Hu) as [cx [f [rest [H1 [H2 [H3 [H4 H5]]]]]]]. pose proof (step_good s t (LUser (UResume v)) I) as SG.
    rewrite H5 in *. unfold user_step in *. rewrite H4, Hv in *. unfold do_jump in *. destruct (switch _ _ _ _ _ _) as [[s1 me]|]; [|destruct SG].
    unfold deliver in *. destruct (frames_of s1 (fc_ctx h)) as [|f0 r0]; [destruct SG|].
    destruct f0; try (destruct SG; fail); eauto; destruct r0 as [|[] r0]; try (destruct SG; fail); eauto.
  - destruct (ur_step _ _ _ (UResumeWith v g) Hr Ht Hu) as [cx [f [rest [H1 [H2 [H3 [H4 H5]]]]]]]. pose proof (step_good s t (LUser (UResumeWith v g)) I) as SG.
    rewrite H5 in *. unfold user_step in *. rewrite H4, Hv in *. unfold do_ontop in *. destruct (switch _ _ _ _ _ _) as [[s1 me]|]; [|destruct SG]. eauto.
Qed.
Example C02_can_resume_example : user_running ex_state 0 /\ get_var ex_state 2 = Some (false, Some (mk_fc 2 2)).
Proof. split; [eexists _, _; split; vm_compute; reflexivity|reflexivity]. Qed.

(* ================================================================== C03: what is returned *)

(** A function f that is left by return; r is its return value, [objs] are its automatic objects still to be
    destroyed, [below] is its call stack. *)
Definition returning (s : state) (t : nat) (k : ukind) (r : hopt) (objs : list obj) (below : list frame) : Prop :=
  exists f, frames_of s (running (s_tr s) t) = FU f :: below /\ uf_kind f = k /\ uf_mode f = MRet r /\ uf_objs f = objs.

(** `return std::move( v);` in a context-function or in an injected function takes the value out of v, at
    once; nothing else happens *)
Theorem C03_return_statement n s t f below v b h : reachable n s -> t < n ->
  frames_of s (running (s_tr s) t) = FU f :: below -> uf_mode f = MRun -> (uf_kind f = KCtx \/ exists g, uf_kind f = KOntop g) ->
  (forall m, uf_caught f <> Some (EForced m)) -> get_var s v = Some (b, h) ->
  exists s', step s t (LUser (UReturn (Some v))) = Next s' /\ s_tr s' = s_tr s /\ get_var s' v = Some (b, None) /\ same_fibers_except s s' [v] /\
    returning s' t (uf_kind f) h (uf_objs f) below /\ same_contexts_except s s' [running (s_tr s) t].
Proof.
  intros Hr Ht Hf Hm Hk Hc Hv. destruct (step_frames n s t (LUser (UReturn (Some v))) Hr Ht) as [cx [G1 [G2 [G3 [G4 G5]]]]].
  set (c := running (s_tr s) t) in *. rewrite G4 in Hf. rewrite Hf in G5. unfold user_step in G5. rewrite Hm in G5.
  assert (Fc : forced_caught f = false) by (unfold forced_caught; destruct (uf_caught f) as [[]|]; auto; exfalso; eapply Hc; reflexivity).
  assert (E : step s t (LUser (UReturn (Some v))) = Next (put_frames (put_var s v (VLive b None)) c (FU (set_caught f None (MRet h)) :: below))).
  { rewrite G5, Fc, Hv. destruct Hk as [->|[g ->]]; reflexivity. }
  eexists. split; [exact E|]. rewrite put_frames_tr. split; [reflexivity|]. split; [|split; [|split]].
  - unfold get_var. rewrite put_frames_vars. apply put_live with (h := h). exact Hv.
  - intros w Hw. unfold get_var. rewrite put_frames_vars. apply get_put_ne. intros ->. apply Hw. left. reflexivity.
  - unfold returning. rewrite put_frames_tr. change (running (s_tr (put_var s v (VLive b None))) t) with c. unfold frames_of.
    erewrite put_frames_nth by exact G2. eexists. split; [reflexivity|]. repeat split.
  - intros d Hd. rewrite put_frames_other by exact Hd. reflexivity.
Qed.

(** When its automatic objects have been destroyed (C07_destructor_empty, C07_destructor_completes), a
    context-function that returned r is left for r, ... *)
Theorem C03_context_function_left n s t r below : reachable n s -> t < n -> returning s t KCtx r [] below ->
  exists s', step s t LTau = Next s' /\ s_tr s' = EvDone (running (s_tr s) t) r :: s_tr s.
Proof.
  intros Hr Ht [f [Hf [Hk [Hm Ho]]]]. destruct (step_frames n s t LTau Hr Ht) as [cx [G1 [G2 [G3 [G4 G5]]]]].
  pose proof (step_good s t LTau (reachable_inv _ _ Hr)) as SG.
  rewrite G4 in Hf. rewrite G5, Hf in *. cbn [tau_step] in *. rewrite Hm, Ho in *. unfold leave_ret in *. rewrite Hk in *.
  destruct below as [|[] below]; try (destruct SG; fail). eexists. split; [reflexivity|]. rewrite put_frames_tr. reflexivity.
Qed.
(** ... and an injected function that returned r makes the suspended call below it return r (or the
    context-function start with r). *)
Theorem C03_injected_function_left n s t g r below : reachable n s -> t < n -> returning s t (KOntop g) r [] below ->
  let c := running (s_tr s) t in
  exists s', step s t LTau = Next s' /\
    ((exists v, s_tr s' = EvCtor (OnCtx c) (OFib v) :: EvResumed c r :: EvOntopRet c g r :: s_tr s /\ get_var s' v = Some (false, r)) \/
     (exists v, s_tr s' = EvCtor (OnCtx c) (OFib v) :: EvEnter c r :: EvOntopRet c g r :: s_tr s /\ get_var s' v = Some (false, r))).
Proof.
  intros Hr Ht [f [Hf [Hk [Hm Ho]]]]. destruct (step_frames n s t LTau Hr Ht) as [cx [G1 [G2 [G3 [G4 G5]]]]]. cbn zeta.
  pose proof (step_good s t LTau (reachable_inv _ _ Hr)) as SG.
  assert (Hw : wfs (is_main cx) (cx_frames cx)). { pose proof (i_shape _ _ _ _ _ (reachable_inv _ _ Hr) _ _ G2) as S. unfold shape in S. rewrite G3 in S. apply S. }
  rewrite G4 in Hf. rewrite G5, Hf in *. cbn [tau_step] in *. rewrite Hm, Ho in *. unfold leave_ret in *. rewrite Hk in *.
  destruct below as [|[] below]; try (destruct SG; fail).
  apply wfs_tail in Hw. destruct below as [|w below]; [destruct Hw|]. rewrite wfs_cons in Hw. destruct Hw as [Hb _]. cbn in Hb.
  assert (V : forall x, nth_error (s_vars s ++ [x]) (length (s_vars s)) = Some x) by (intros; apply nth_app_last).
  unfold deliver in *. destruct w; try discriminate Hb.
  1-2: destruct below as [|[] below]; try (destruct SG; fail); eexists; (split; [reflexivity|]); left; exists (length (s_vars s)); rewrite put_frames_tr; (split; [reflexivity|]);
    unfold get_var; rewrite put_frames_vars; cbn [emit add_var s_vars]; rewrite V; reflexivity.
  eexists; (split; [reflexivity|]); right; exists (length (s_vars s)); rewrite put_frames_tr; (split; [reflexivity|]);
    unfold get_var; rewrite put_frames_vars; cbn [emit add_var s_vars]; rewrite V; reflexivity.
Qed.
Definition ex8_state : state := Eval vm_compute in match run ex_state [(0, LUser (UResumeWith 2 9)); (0, LUser (UReturn (Some 3)))] with Next s => s | _ => init 0 end.
Example C03_return_example : reachable 2 ex8_state /\ returning ex8_state 0 (KOntop 9) (Some (mk_fc 0 3)) [OFib 3] (tl (frames_of ex8_state 2)) /\
  get_var ex8_state 3 = Some (false, None).
Proof.
  split; [exists (ex_ops ++ [(0, LUser (UResumeWith 2 9)); (0, LUser (UReturn (Some 3)))]); vm_compute; reflexivity|]. split; [|reflexivity].
  eexists. split; [vm_compute; reflexivity|]. repeat split.
Qed.

(* ================================================================== C41: construction *)

(** The values that the captured fibers had before are in the function object of the new context d, in
    reverse order on the object stack. *)
Fixpoint captured (s s' : state) (caps : list cap) (objs : list obj) : Prop :=
  match caps, objs with
  | [], [] => True
  | CapUsr :: r, OUsr u :: l => captured s s' r l
  | CapFib v :: r, OFib w :: l => (exists b h, get_var s v = Some (b, h) /\ get_var s' w = Some (false, h) /\ get_var s' v = Some (b, None)) /\ captured s s' r l
  | _, _ => False
  end.
Fixpoint cap_fibers (l : list cap) : list nat := match l with [] => [] | CapFib v :: r => v :: cap_fibers r | CapUsr :: r => cap_fibers r end.
Lemma in_cap_fibers v l : In v (cap_fibers l) <-> In (CapFib v) l.
Proof.
  induction l as [|[w|] l IH]; cbn; [tauto| |].
  - rewrite IH. split; intros [H|H]; try (right; exact H); left; congruence.
  - rewrite IH. split; intros H; [right; auto|destruct H; [discriminate|auto]].
Qed.

Lemma get_emit s e x : get_var (emit s e) x = get_var s x.
Proof. reflexivity. Qed.
Lemma cap_step_var s v b h d x : x < next_fiber s -> x <> v -> get_var (emit (add_var (put_var s v (VLive b None)) (VLive false h)) (EvCtor (OnCtx d) (OFib (length (s_vars s))))) x = get_var s x.
Proof.
  intros L N. rewrite get_emit. rewrite get_add_lt; [rewrite get_put_ne; auto|]. unfold next_fiber in *. cbn. rewrite upd_length. lia.
Qed.
Lemma caps_keep l : forall s d acc s1 r, do_caps s d l acc = Some (s1, r) -> next_fiber s <= next_fiber s1 /\
  forall x, x < next_fiber s -> ~ In x (cap_fibers l) -> get_var s1 x = get_var s x.
Proof.
  induction l as [|[v|] l IH]; intros s d acc s1 r E; cbn in E.
  - injection E as <- _. split; auto.
  - destruct (get_var s v) as [[b h]|] eqn:Hv; [|discriminate]. destruct (IH _ _ _ _ _ E) as [A B].
    unfold next_fiber in *. cbn [emit add_var put_var s_vars] in *. rewrite app_length, upd_length in *. cbn [length] in *. split; [lia|].
    intros x Hx Hi. cbn in Hi. rewrite B by (try lia; tauto). apply cap_step_var; [exact Hx|]. intros ->. apply Hi. left; reflexivity.
  - destruct (IH _ _ _ _ _ E) as [A B]. unfold next_fiber in *. cbn in A. split; [exact A|]. intros x Hx Hi. cbn in Hi. apply (B x Hx Hi).
Qed.
Lemma captured_ext l : forall s0 s s' objs, (forall v, In v (cap_fibers l) -> get_var s0 v = get_var s v) -> captured s0 s' l objs -> captured s s' l objs.
Proof.
  induction l as [|[v|] l IH]; intros s0 s s' [|[w|u] objs] He H; cbn in *; auto.
  - destruct H as [[b [h [H1 [H2 H3]]]] H]. split; [exists b, h; rewrite <- He; auto|]. eapply IH; [|exact H]. auto.
  - eapply IH; [|exact H]. auto.
Qed.
Lemma caps_captured l : forall s d acc s1 r, NoDup (cap_fibers l) -> (forall x, In x (cap_fibers l) -> x < next_fiber s) -> do_caps s d l acc = Some (s1, r) ->
  exists objs, r = rev objs ++ acc /\ captured s s1 l objs.
Proof.
  induction l as [|[v|] l IH]; intros s d acc s1 r Hn Hl E; cbn in E.
  - injection E as <- <-. exists []. split; [reflexivity|exact Logic.I].
  - destruct (get_var s v) as [[b h]|] eqn:Hv; [|discriminate]. cbn in Hn. inversion Hn as [|? ? N1 N2]; subst.
    pose proof (get_lt _ _ _ _ Hv) as Lv. destruct (caps_keep _ _ _ _ _ _ E) as [A B].
    assert (Ln : next_fiber (emit (add_var (put_var s v (VLive b None)) (VLive false h)) (EvCtor (OnCtx d) (OFib (length (s_vars s))))) = S (next_fiber s)).
    { unfold next_fiber. cbn [emit add_var put_var s_vars]. rewrite app_length, upd_length. cbn. lia. }
    assert (Lr : forall x, In x (cap_fibers l) -> x < next_fiber s) by (intros x Hx; apply Hl; right; exact Hx).
    destruct (IH _ _ _ _ _ N2 (fun x Hx => eq_ind_r (fun z => x < z) (Nat.lt_lt_succ_r _ _ (Lr x Hx)) Ln) E) as [objs [-> C]].
    exists (OFib (length (s_vars s)) :: objs). split; [cbn; rewrite <- app_assoc; reflexivity|]. cbn. rewrite Ln in B. split.
    + exists b, h. split; auto. split.
      * rewrite B; [|unfold next_fiber; lia|intros X; apply Lr in X; unfold next_fiber in X; lia]. rewrite get_emit.
        assert (Q : length (s_vars s) = next_fiber (put_var s v (VLive b None))) by (unfold next_fiber; cbn; rewrite upd_length; reflexivity). rewrite Q. apply get_add_new.
      * rewrite B by (try lia; auto). rewrite get_emit. rewrite get_add_lt; [eapply put_live; eauto|]. unfold next_fiber in *. cbn. rewrite upd_length. lia.
    + eapply captured_ext; [|exact C]. intros x Hx. apply cap_step_var; auto. intros ->. auto.
  - pose proof (fun H => IH _ _ _ _ _ Hn H E) as X. destruct (X Hl) as [objs [-> C]]. exists (OUsr (s_nusr s) :: objs). split; [cbn; rewrite <- app_assoc; reflexivity|].
    cbn. eapply captured_ext; [|exact C]. reflexivity.
Qed.

(** fiber f{ std::allocator_arg, a, fn}: a stack is obtained from a for a new context d, the function object
    is moved there (the captured fibers are empty afterwards, their values are in the function object), d is
    suspended without its function being entered, f owns it, and the constructor returns to the caller, whose
    other objects are unchanged. *)
Theorem C41_constructor n s t a caps : reachable n s -> t < n -> user_running s t ->
  (forall v, In (CapFib v) caps -> exists b h, get_var s v = Some (b, h)) -> NoDup (cap_fibers caps) ->
  exists s' f h es me0, run s [(t, LUser (UCreate a caps true)); (t, LTau)] = Next s' /\
    let c := running (s_tr s) t in let d := fc_ctx h in
    s_tr s' = EvCtor (OnCtx c) (OFib f) :: EvResumed c (Some h) :: EvSwitch t d h me0 SwJump :: EvSwitch t c me0 (mk_fc d 0) SwCreate :: es ++ EvAlloc d a :: s_tr s /\
    (forall e, In e es -> exists o, e = EvCtor (OnCtx d) o) /\
    (forall e, In e (s_tr s) -> ~ involves e d) /\
    get_var s' f = Some (false, Some h) /\ suspended (s_tr s') h /\ ~ entered (s_tr s') d /\
    captured s s' caps (rev (stack_of s' d)) /\
    (forall x, x < next_fiber s -> ~ In (CapFib x) caps -> get_var s' x = get_var s x) /\
    running (s_tr s') t = c /\ same_contexts_except s s' [c; d] /\
    exists u rest, frames_of s c = FU u :: rest /\ frames_of s' c = FU (mk_uf (uf_kind u) (OFib f :: uf_objs u) MRun (uf_caught u)) :: rest.
Proof.
  intros Hr Ht Hu Hl Hnd. destruct (ur_step _ _ _ (UCreate a caps true) Hr Ht Hu) as [cx [f [rest [H1 [H2 [H3 [H4 H5]]]]]]].
  set (c := running (s_tr s) t) in *.
  destruct (m_thread _ _ (reach_mreach _ _ Hr)) as [T _]. assert (Hth : nth_error (s_thr s) t = Some c) by (apply (t_thr _ _ T); auto).
  assert (Lt : t < length (s_thr s)) by (eapply nth_some_lt; eauto). assert (Lc : c < length (s_ctxs s)) by (eapply nth_some_lt; eauto).
  destruct (caps_ok caps (emit s (EvAlloc (length (s_ctxs s)) a)) (length (s_ctxs s)) [] Hl) as [s1 [r [es [E [E1 [E2 [E3 E4]]]]]]].
  assert (Hlt : forall x, In x (cap_fibers caps) -> x < next_fiber (emit s (EvAlloc (length (s_ctxs s)) a))).
  { intros x Hx. apply in_cap_fibers in Hx. destruct (Hl _ Hx) as [bx [hx Qx]]. apply (get_lt s x _ _ Qx). }
  destruct (caps_captured caps _ _ _ _ _ Hnd Hlt E) as [objs [Er Ec]].
  rewrite app_nil_r in Er. destruct (caps_keep _ _ _ _ _ _ E) as [Lk Bk].
  cbn [emit s_ctxs s_thr s_tr] in E1, E2, E3.
  set (d := length (s_ctxs s)) in *.
  set (V := cx_ver cx).
  assert (S1 : step s t (LUser (UCreate a caps true)) = Next
     (mk_s (upd (s_ctxs s) c (mk_cx (FCreate :: FU f :: rest) SSusp (S V) (cx_alloc cx) (cx_caps cx)) ++ [mk_cx [FEntry0 (mk_fc c (S V))] (SRun t) 0 (Some a) r])
        (s_vars s1) (upd (s_thr s) t d) (s_nusr s1) (EvSwitch t c (mk_fc c (S V)) (mk_fc d 0) SwCreate :: es ++ EvAlloc d a :: s_tr s))).
  { rewrite H5. unfold user_step. rewrite H4. unfold do_create. fold d. rewrite E, E1, E2, E3, H1. reflexivity. }
  set (v0 := length (s_vars s1)).
  assert (S2 : step (mk_s (upd (s_ctxs s) c (mk_cx (FCreate :: FU f :: rest) SSusp (S V) (cx_alloc cx) (cx_caps cx)) ++ [mk_cx [FEntry0 (mk_fc c (S V))] (SRun t) 0 (Some a) r])
        (s_vars s1) (upd (s_thr s) t d) (s_nusr s1) (EvSwitch t c (mk_fc c (S V)) (mk_fc d 0) SwCreate :: es ++ EvAlloc d a :: s_tr s)) t LTau = Next
     (mk_s (upd (s_ctxs s) c (mk_cx (FU (set_objs f (OFib v0 :: uf_objs f)) :: rest) (SRun t) (S V) (cx_alloc cx) (cx_caps cx)) ++ [mk_cx [FEntry1] SSusp 1 (Some a) r])
        (s_vars s1 ++ [VLive false (Some (mk_fc d 1))]) (upd (s_thr s) t c) (s_nusr s1)
        (EvCtor (OnCtx c) (OFib v0) :: EvResumed c (Some (mk_fc d 1)) :: EvSwitch t d (mk_fc d 1) (mk_fc c (S V)) SwJump :: 
         EvSwitch t c (mk_fc c (S V)) (mk_fc d 0) SwCreate :: es ++ EvAlloc d a :: s_tr s))).
  { unfold step. cbn [s_thr s_ctxs]. rewrite nth_upd_lt by auto. unfold d at 1. rewrite nth_ua_last. cbn [cx_frames tau_step].
    unfold do_jump, put_frames, put_ctx, switch, frames_of, set_frames. cbn [s_ctxs s_thr s_vars s_nusr s_tr].
    unfold d. repeat (first [rewrite nth_ua_last|rewrite nth_ua_c by auto|rewrite upd_ua_c by auto|rewrite upd_ua_last]; cbn [fc_ctx fc_ver s_ctxs s_thr s_vars s_nusr s_tr cx_status cx_ver cx_frames cx_alloc cx_caps]).
    rewrite Nat.eqb_refl. cbn [fc_ctx fc_ver s_ctxs s_thr s_vars s_nusr s_tr cx_status cx_ver cx_frames cx_alloc cx_caps].
    repeat (first [rewrite nth_ua_last|rewrite nth_ua_c by auto|rewrite upd_ua_c by auto|rewrite upd_ua_last]; cbn [fc_ctx fc_ver s_ctxs s_thr s_vars s_nusr s_tr cx_status cx_ver cx_frames cx_alloc cx_caps]).
    unfold deliver, put_frames, put_ctx, emit, add_var, set_frames. cbn [fc_ctx fc_ver s_ctxs s_thr s_vars s_nusr s_tr cx_status cx_ver cx_frames cx_alloc cx_caps].
    repeat (first [rewrite nth_ua_last|rewrite nth_ua_c by auto|rewrite upd_ua_c by auto|rewrite upd_ua_last]; cbn [fc_ctx fc_ver s_ctxs s_thr s_vars s_nusr s_tr cx_status cx_ver cx_frames cx_alloc cx_caps]).
    rewrite P_Fiber3.upd_upd. reflexivity. }
  match type of S2 with _ = Next ?z => set (s2 := z) in * end.
  assert (R2 : reachable n s2) by (eapply reach_step; [eapply reach_step; [exact Hr|exact S1]|exact S2]).
  assert (Nd : Nat.eqb d c = false) by (apply Nat.eqb_neq; unfold d; lia).
  assert (Fresh : forall e, In e (s_tr s) -> ~ involves e d).
  { pose proof (C05_stack_life _ _ R2) as SL. unfold s2 in SL. cbn [s_tr] in SL.
    destruct (always_prefix _ (EvCtor (OnCtx c) (OFib v0) :: EvResumed c (Some (mk_fc d 1)) :: EvSwitch t d (mk_fc d 1) (mk_fc c (S V)) SwJump :: 
         EvSwitch t c (mk_fc c (S V)) (mk_fc d 0) SwCreate :: es) (EvAlloc d a) (s_tr s) _ eq_refl SL) as [[_ [_ X]] _]. exact X. }
  assert (Kp : forall x, x < next_fiber s1 -> get_var s2 x = get_var s1 x).
  { intros x Hx. unfold s2, get_var. cbn [s_vars]. rewrite nth_error_app1; auto. }
  exists s2, v0, (mk_fc d 1), es, (mk_fc c (S V)). split; [cbn [run]; rewrite S1, S2; reflexivity|]. cbn zeta. cbn [fc_ctx].
  split; [reflexivity|]. split; [rewrite Forall_forall in E4; exact E4|]. split; [exact Fresh|].
  split; [unfold get_var, s2; cbn [s_vars]; unfold v0; rewrite nth_app_last; reflexivity|].
  split; [apply (susp_nth n _ _ R2); unfold s2; cbn [s_ctxs fc_ctx]; unfold d; rewrite nth_ua_last; eexists; split; [reflexivity|split; reflexivity]|].
  split; [|split; [|split; [|split; [|split]]]].
  - intros [r0 Hi]. unfold s2 in Hi. cbn [s_tr] in Hi. destruct Hi as [Hi|[Hi|[Hi|[Hi|Hi]]]]; try discriminate. apply in_app_or in Hi. destruct Hi as [Hi|[Hi|Hi]]; try discriminate.
    + rewrite Forall_forall in E4. destruct (E4 _ Hi) as [o Q]. discriminate Q.
    + apply (Fresh _ Hi). reflexivity.
  - unfold stack_of. unfold s2 at 2. cbn [s_ctxs]. unfold d. rewrite nth_ua_last. cbn [cx_frames cx_caps flat_map app]. rewrite Er, rev_involutive.
    assert (X : forall l o, captured (emit s (EvAlloc (length (s_ctxs s)) a)) s1 l o -> captured s s2 l o).
    { induction l as [|[v|] l IH]; intros [|[w|u] o] H; cbn in *; auto. destruct H as [[b [h [Q1 [Q2 Q3]]]] H]. split; auto. exists b, h. split; auto.
      split; [rewrite Kp; auto; eapply get_lt; eauto|rewrite Kp; auto; eapply get_lt; eauto]. }
    apply X. exact Ec.
  - intros x Hx Hi. rewrite Kp by (eapply Nat.lt_le_trans; [exact Hx|exact Lk]). rewrite Bk; auto. rewrite in_cap_fibers. exact Hi.
  - unfold s2. cbn. rewrite Nat.eqb_refl. reflexivity.
  - intros e He. cbn in He. unfold s2. cbn [s_ctxs]. destruct (Nat.lt_ge_cases e d).
    + rewrite nth_error_app1 by (rewrite upd_length; auto). rewrite nth_upd_ne; intuition.
    + rewrite nth_error_app2 by (rewrite upd_length; auto). rewrite upd_length. fold d. destruct (e - d) eqn:Q; [lia|].
      destruct n0; cbn; symmetry; apply nth_error_None; auto.
  - exists f, rest. split; [unfold frames_of; rewrite H1; exact H3|]. unfold frames_of, s2. cbn [s_ctxs]. rewrite nth_ua_c by auto. cbn. unfold set_objs. rewrite H4. reflexivity.
Qed.
Example C41_example : user_running ex_state 0 /\ exists s', run ex_state [(0, LUser (UCreate 4 [CapFib 2; CapUsr] true)); (0, LTau)] = Next s' /\
  stack_of s' 3 = [OUsr 2; OFib 3] /\ get_var s' 3 = Some (false, Some (mk_fc 2 2)) /\ get_var s' 2 = Some (false, None) /\ get_var s' 4 = Some (false, Some (mk_fc 3 1)).
Proof. split; [eexists _, _; split; vm_compute; reflexivity|]. eexists. split; [vm_compute; reflexivity|]. repeat split. Qed.
