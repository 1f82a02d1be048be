(** Properties of fibers that speak about single API operations (C04, C13-C18). *)
From Coq Require Import List Arith Bool Lia.
From Verif Require Import ListUtil Fiber FiberInv FiberInv2 FiberInv3 Micro MicroInv FiberSpec TraceInv CallInv CallInv2 StackInv ObjInv ExnInv HistInv HeapInv StepFacts P_Fiber.
Import ListNotations.

(* ================================================================== C04 *)

Lemma susp_nth n s h : reachable n s -> suspended (s_tr s) h <->
  exists cx, nth_error (s_ctxs s) (fc_ctx h) = Some cx /\ cx_status cx = SSusp /\ cx_ver cx = fc_ver h.
Proof.
  intros Hr. rewrite (suspended_vs _ _ (m_vinv _ _ (reach_mreach _ _ Hr))). unfold vs.
  destruct (nth_error (s_ctxs s) (fc_ctx h)) as [cx|]; cbn.
  - unfold is_susp. split.
    + intros E. injection E as E1 E2. exists cx. destruct (cx_status cx); try discriminate. auto.
    + intros [cx' [E1 [E2 E3]]]. injection E1 as <-. rewrite E2. congruence.
  - split; [discriminate|]. intros [cx [E _]]. discriminate.
Qed.
Lemma reach_step n s t l s' : reachable n s -> step s t l = Next s' -> reachable n s'.
Proof. intros [l0 H0] E. exists (l0 ++ [(t, l)]). rewrite run_app, H0. cbn. rewrite E. reflexivity. Qed.

(** C04: as long as a context stays suspended nothing of it changes: its call stack with all local
    objects and pending exceptions, and its function object. *)
Theorem C04_untouched n s l s' h : reachable n s -> run s l = Next s' ->
  suspended (s_tr s) h -> suspended (s_tr s') h ->
  nth_error (s_ctxs s') (fc_ctx h) = nth_error (s_ctxs s) (fc_ctx h).
Proof.
  revert s. induction l as [|[t a] l IH]; intros s Hr Hrun Hs Hs'; cbn in Hrun; [injection Hrun as <-; reflexivity|].
  destruct (step s t a) as [s1| | | | |] eqn:E; try discriminate. pose proof (reach_step _ _ _ _ _ Hr E) as Hr1.
  pose proof (reachable_inv _ _ Hr) as I. pose proof (reachable_inv _ _ Hr1) as I1.
  assert (Hs1 : suspended (s_tr s1) h).
  { destruct (step_grows _ _ _ _ I E) as [e1 E1]. destruct (run_grows _ _ _ I1 Hrun) as [e2 E2]. split.
    - rewrite E1. apply created_app. apply Hs.
    - intros X. apply (proj2 Hs'). rewrite E2. apply consumed_app. exact X. }
  rewrite (IH _ Hr1 Hrun Hs1 Hs'). apply (susp_nth n) in Hs; auto. destruct Hs as [cx [H1 [H2 H3]]].
  destruct (step_oth _ _ _ _ I E _ _ H1 H2) as [X|[c [me [v [k [fs' [X1 [X2 X3]]]]]]]]; [congruence|].
  exfalso. apply (proj2 Hs1). rewrite H3, fctx_eta in X1. exists t, c, me, k. exact X1.
Qed.

(** When the context is continued, only the suspended call on top of its stack is affected: see
    [continued]. *)
Theorem C04_continued n s t l s' h : reachable n s -> step s t l = Next s' ->
  suspended (s_tr s) h -> ~ suspended (s_tr s') h ->
  exists c me v k cx fs', In (EvSwitch t c me h k) (s_tr s') /\
    nth_error (s_ctxs s) (fc_ctx h) = Some cx /\ continued c me v k (cx_frames cx) fs' /\
    nth_error (s_ctxs s') (fc_ctx h) = Some (mk_cx fs' (SRun t) (cx_ver cx) (cx_alloc cx) (cx_caps cx)).
Proof.
  intros Hr E Hs Hs'. pose proof (reachable_inv _ _ Hr) as I. pose proof (reach_step _ _ _ _ _ Hr E) as Hr1.
  apply (susp_nth n) in Hs; auto. destruct Hs as [cx [H1 [H2 H3]]].
  destruct (step_oth _ _ _ _ I E _ _ H1 H2) as [X|[c [me [v [k [fs' [X1 [X2 X3]]]]]]]].
  - exfalso. apply Hs'. apply (susp_nth n); auto. exists cx. auto.
  - rewrite H3, fctx_eta in X1. exists c, me, v, k, cx, fs'. repeat split; auto.
Qed.

Example C04_example : exists s', run ex_state [(0, LUser UNewUsr); (0, LUser (UNewFib true)); (1, LUser UCall)] = Next s' /\
  suspended (s_tr ex_state) (mk_fc 2 2) /\ suspended (s_tr s') (mk_fc 2 2).
Proof.
  eexists. split; [vm_compute; reflexivity|]. split; [apply C01_example|].
  assert (R : reachable 2 (match run ex_state [(0, LUser UNewUsr); (0, LUser (UNewFib true)); (1, LUser UCall)] with Next s => s | _ => ex_state end)).
  { exists (ex_ops ++ [(0, LUser UNewUsr); (0, LUser (UNewFib true)); (1, LUser UCall)]). vm_compute. reflexivity. }
  vm_compute in R. apply (susp_nth 2 _ (mk_fc 2 2) R). eexists. split; [reflexivity|]. split; reflexivity.
Qed.

(* ================================================================== C13, C14: exceptional outcomes *)

Definition plain_out (o : outcome) : Prop := o <> AssertFail /\ o <> Terminate.
Lemma po_next s : plain_out (Next s). Proof. split; discriminate. Qed.
Lemma po_ub : plain_out UB. Proof. split; discriminate. Qed.
Lemma po_inv : plain_out Invalid. Proof. split; discriminate. Qed.
Lemma po_viol : plain_out Violation. Proof. split; discriminate. Qed.
Local Hint Resolve po_next po_ub po_inv po_viol : core.

Lemma deliver_po s c fs r : plain_out (deliver s c fs r).
Proof. unfold deliver. destruct fs as [|[] rest]; auto; destruct rest as [|[] rest]; auto. Qed.
Lemma raise_po s c f1 r1 h : resumable_frame f1 = true -> plain_out (raise s c (f1 :: r1) (EForced h)).
Proof. intros H. destruct f1; try discriminate; cbn; auto; destruct r1 as [|[] r1]; auto. Qed.
Lemma jump_po s t c fs h : plain_out (do_jump s t c fs h).
Proof. unfold do_jump. destruct (switch _ _ _ _ _ _) as [[s1 me]|]; auto. apply deliver_po. Qed.
Lemma ontop_po s t c fs h g : plain_out (do_ontop s t c fs h g).
Proof. unfold do_ontop. destruct (switch _ _ _ _ _ _) as [[s1 me]|]; auto. Qed.
Lemma exit_po s t c h : plain_out (do_exit s t c h).
Proof. unfold do_exit. destruct (switch _ _ _ _ _ _) as [[s1 me]|]; auto. Qed.

Section Po.
  Variables (s : state) (t c : nat) (cx : ctx).
  Hypothesis (I : SInv s) (Hc : nth_error (s_ctxs s) c = Some cx) (Hr : cx_status cx = SRun t).

  (** unwinding a handle that a fiber object holds, from a state that agrees with s on suspended contexts *)
  Lemma unwind_po s0 cx0 fs v b h : nth_error (s_vars s) v = Some (VLive b (Some h)) ->
    nth_error (s_ctxs s0) c = Some cx0 -> cx_status cx0 = SRun t ->
    (forall d tx, nth_error (s_ctxs s0) d = Some tx -> cx_status tx = SSusp -> nth_error (s_ctxs s) d = Some tx) ->
    plain_out (do_unwind s0 t c fs h).
  Proof.
    intros Hv Hc0 Hr0 Hb. unfold do_unwind. destruct (switch _ _ _ _ _ _) as [[s1 me]|] eqn:Es; auto.
    destruct (sw_oth s0 t c cx0 h) with (5 := Es) as [tx [H1 [H2 [_ [H4 [_ [_ [H7 _]]]]]]]]; auto.
    { intros d tx H1 H2. eapply (shs s); eauto. }
    rewrite H7. destruct (cx_frames tx) as [|f1 r1] eqn:Ef; [destruct H4|]. apply raise_po.
    eapply (var_resumable s I v b h Hv); eauto.
  Qed.
  Lemma destroy_po s0 cx0 fs p o : s_vars s0 = s_vars s ->
    nth_error (s_ctxs s0) c = Some cx0 -> cx_status cx0 = SRun t ->
    (forall d tx, nth_error (s_ctxs s0) d = Some tx -> cx_status tx = SSusp -> nth_error (s_ctxs s) d = Some tx) ->
    plain_out (destroy s0 t c fs p o).
  Proof.
    intros Ev Hc0 Hr0 Hb. unfold destroy. destruct o as [v|u]; auto. rewrite Ev.
    destruct (nth_error (s_vars s) v) as [[|b [h|]]|] eqn:Hv; auto.
    eapply unwind_po; eauto.
  Qed.
  Lemma destroy_po' fs p o : plain_out (destroy s t c fs p o).
  Proof. eapply destroy_po; eauto. Qed.
  Lemma exit_step_po d rest : plain_out (exit_step s t c d rest).
  Proof.
    unfold exit_step. destruct (nth_error (s_ctxs s) d) as [dx|] eqn:Hd; auto. destruct (cx_status dx) eqn:Hds; auto.
    destruct (cx_caps dx) as [|o l].
    - destruct (cx_alloc dx); auto. apply deliver_po.
    - assert (Hdc : d <> c) by (intros ->; congruence).
      eapply (destroy_po _ cx); auto.
      + unfold put_ctx; cbn. rewrite nth_upd_ne; auto.
      + intros d' tx H1 H2. unfold put_ctx in H1; cbn in H1. apply nth_upd_inv in H1. destruct H1 as [[-> [-> _]]|[_ H1]]; auto. cbn in H2. congruence.
  Qed.
  Lemma lret_po f rest r : plain_out (leave_ret s c f rest r).
  Proof. unfold leave_ret. destruct (uf_kind f); auto; destruct rest as [|[] rest]; auto. apply deliver_po. Qed.
  Lemma caps_po f rest o : (forall v, o = UResume v -> exists b h, get_var s v = Some (b, Some h)) ->
     (forall v g, o = UResumeWith v g -> exists b h, get_var s v = Some (b, Some h)) -> cx_frames cx = FU f :: rest -> plain_out (user_step s t c f rest o).
  Proof.
    intros Ho1 Ho2 Hf. unfold user_step. destruct (uf_mode f); auto.
    - destruct o; auto.
      + unfold new_fib. destruct heap; auto.
      + destruct ok; auto. unfold do_create. destruct (do_caps _ _ _ _) as [[s1 r]|]; auto. destruct (nth_error (s_ctxs s1) c); auto.
      + destruct (get_var s src) as [[b h]|]; auto. unfold new_fib. destruct heap; auto.
      + destruct (get_var s dst) as [[bd hd]|] eqn:Ed; auto. destruct (get_var s src) as [[bs hs]|]; auto.
        destruct (Nat.eqb dst src); auto. destruct hd as [h|]; auto. apply get_var_some in Ed.
        eapply (unwind_po _ cx); eauto.
      + destruct (get_var s a) as [[ba ha]|]; auto. destruct (get_var s b) as [[bb hb]|]; auto.
      + destruct (get_var s v) as [[[] h]|]; auto. apply destroy_po'.
      + destruct (uf_objs f); auto. apply destroy_po'.
      + destruct (get_var s src) as [[b [h|]]|] eqn:Ev; auto; [apply jump_po|]. destruct (Ho1 _ eq_refl) as [b' [h' E]]. congruence.
      + destruct (get_var s src) as [[b [h|]]|] eqn:Ev; auto; [apply ontop_po|]. destruct (Ho2 _ _ eq_refl) as [b' [h' E]]. congruence.
      + destruct (uf_kind f); auto; destruct (forced_caught f); auto; destruct v as [v|]; auto; destruct (get_var s v) as [[b h]|]; auto.
      + destruct (forced_caught f); auto.
      + destruct (uf_caught f) as [[]|]; auto.
      + destruct (uf_caught f); auto.
    - destruct o; auto; [destruct (uf_caught f)|destruct (forced_caught f)]; auto.
  Qed.
End Po.

(** user code is executing on thread t *)
Definition user_running (s : state) (t : nat) : Prop :=
  exists f rest, frames_of s (running (s_tr s) t) = FU f :: rest /\ uf_mode f = MRun.
(** a user function on top of thread t has no live objects any more and is left by exception e *)
Definition escapes (s : state) (t : nat) (k : ukind) (e : exn) (below : list frame) : Prop :=
  exists f, frames_of s (running (s_tr s) t) = FU f :: below /\ uf_kind f = k /\ uf_mode f = MUnw e /\ uf_objs f = [].

Lemma step_frames n s t l : reachable n s -> t < n -> exists cx,
  nth_error (s_thr s) t = Some (running (s_tr s) t) /\ nth_error (s_ctxs s) (running (s_tr s) t) = Some cx /\ cx_status cx = SRun t /\
  frames_of s (running (s_tr s) t) = cx_frames cx /\
  step s t l = match l with
     | LTau => tau_step s t (running (s_tr s) t) (cx_frames cx)
     | LUser o => match cx_frames cx with FU f :: rest => user_step s t (running (s_tr s) t) f rest o | _ => Invalid end
     end.
Proof.
  intros Hr Ht. destruct (m_thread _ _ (reach_mreach _ _ Hr)) as [T _]. destruct (t_run _ _ T t Ht) as [cx [H1 H2]].
  exists cx. assert (H3 : nth_error (s_thr s) t = Some (running (s_tr s) t)) by (apply (t_thr _ _ T); auto).
  repeat split; auto. 
  - unfold frames_of. rewrite H1. reflexivity.
  - unfold step. rewrite H3, H1. reflexivity.
Qed.

(** C14: the library's assertions fail exactly if resume() or resume_with() is called on an empty fiber,
    or a context-function has returned an empty fiber. *)
Theorem C14_assertions n s t l : reachable n s -> t < n ->
  (step s t l = AssertFail <->
   (user_running s t /\ exists v b, get_var s v = Some (b, None) /\ (l = LUser (UResume v) \/ exists g, l = LUser (UResumeWith v g))) \/
   (l = LTau /\ In (EvDone (running (s_tr s) t) None) (s_tr s))).
Proof.
  intros Hr Ht. pose proof (reachable_inv _ _ Hr) as I. pose proof (m_xinv _ _ (reach_mreach _ _ Hr)) as X.
  destruct (step_frames n s t l Hr Ht) as [cx [H1 [H2 [H3 [H4 H5]]]]]. set (c := running (s_tr s) t) in *.
  pose proof (X _ _ H2) as [X1 _ _ X4]. split.
  - intros E. rewrite H5 in E. destruct l as [|o].
    + right. split; auto. unfold tau_step in E. destruct (cx_frames cx) as [|[] rest] eqn:Hf; try discriminate.
      * exfalso. destruct (uf_mode f); try discriminate; destruct (uf_objs f);
          try (apply (destroy_po' s t c cx I H2 H3) in E; exact E); try (apply (lret_po s c) in E; exact E).
        unfold leave_exn in E. destruct (uf_kind f); try discriminate; destruct rest as [|[] rest]; try discriminate;
          unfold raise in E; [destruct e; discriminate|]. destruct rest as [|[] rest]; try discriminate; try (destruct e; discriminate);
          destruct rest as [|[] rest]; discriminate.
      * exfalso. apply jump_po in E. exact E.
      * destruct t0; [exfalso; apply exit_po in E; exact E|]. inversion X1 as [|? ? Y1 Y2]; subst. apply Y1.
      * exfalso. apply (exit_step_po s t c cx I H2 H3) in E. exact E.
    + left. destruct (cx_frames cx) as [|[] rest] eqn:Hf; try discriminate.
      assert (Hm : uf_mode f = MRun).
      { unfold user_step in E. destruct (uf_mode f); try discriminate; auto. destruct o; try discriminate; [destruct (uf_caught f)|destruct (forced_caught f)]; discriminate. }
      split; [exists f, rest; auto|].
      assert (D : (exists v, (o = UResume v \/ exists g, o = UResumeWith v g)) \/ ~ (exists v, (o = UResume v \/ exists g, o = UResumeWith v g))).
      { destruct o; try (right; intros [v' [Q|[g' Q]]]; discriminate); left; eexists; eauto. }
      destruct D as [[v Hv]|D].
      * assert (G : get_var s v = None \/ (exists b h, get_var s v = Some (b, Some h)) \/ exists b, get_var s v = Some (b, None)).
        { destruct (get_var s v) as [[b [h|]]|]; eauto. }
        destruct G as [G|[[b [h G]]|[b G]]].
        -- exfalso. unfold user_step in E. rewrite Hm in E. destruct Hv as [->|[g ->]]; rewrite G in E; discriminate.
        -- exfalso. apply (caps_po s t c cx I H2 H3 f rest o) in E; auto;
             [intros v' Hv'|intros v' g' Hv']; destruct Hv as [->|[g ->]]; try discriminate; injection Hv'; intros; subst; eauto.
        -- exists v, b. split; auto. destruct Hv as [->|[g ->]]; eauto.
      * exfalso. apply (caps_po s t c cx I H2 H3 f rest o) in E; auto; intros; subst; exfalso; apply D; eauto.
  - intros [[[f [rest [G1 G2]]] [v [b [G3 G4]]]]|[-> G]]; rewrite H5.
    + fold c in G1; rewrite H4 in G1. destruct G4 as [->|[g ->]]; rewrite G1; unfold user_step; rewrite G2, G3; reflexivity.
    + apply X4 in G. pose proof (i_shape _ _ _ _ _ I _ _ H2) as Hsh. apply run_shape with (t := t) in Hsh; auto.
      destruct Hsh as [_ Ha]. destruct (cx_frames cx) as [|f1 r1]; [destruct Ha|]. inversion G as [|? ? G1 G2]; subst. reflexivity.
Qed.

(** the program of [ex_state], continued: thread 1 resumes an empty fiber *)
Example C14_example : exists s', step ex_state 1 (LUser (UNewFib false)) = Next s' /\ user_running s' 1 /\
  (exists v, get_var s' v = Some (false, None) /\ step s' 1 (LUser (UResume v)) = AssertFail).
Proof.
  eexists. split; [vm_compute; reflexivity|]. split.
  - eexists _, _. split; [vm_compute; reflexivity|reflexivity].
  - exists 3. split; vm_compute; reflexivity.
Qed.

(** C13: the program is terminated exactly if an exception escapes a destructor, a thread's main
    function, a context-function (exceptions other than the unwind request), or a function injected into
    a context that has not been started (other than the unwind request). *)
Definition fatal (k : ukind) (e : exn) (below : list frame) : Prop :=
  match k with
  | KDtor _ | KMain => True
  | KCtx => exists x, e = EUser x
  | KOntop _ => (exists x, e = EUser x) /\ below = [FOntop; FEntry1]
  | KPlain => False
  end.
Theorem C13_terminate n s t l : reachable n s -> t < n ->
  (step s t l = Terminate <-> l = LTau /\ exists k e below, escapes s t k e below /\ fatal k e below).
Proof.
  intros Hr Ht. pose proof (reachable_inv _ _ Hr) as I.
  destruct (step_frames n s t l Hr Ht) as [cx [H1 [H2 [H3 [H4 H5]]]]]. set (c := running (s_tr s) t) in *.
  pose proof (i_shape _ _ _ _ _ I _ _ H2) as Hsh. apply run_shape with (t := t) in Hsh; auto. destruct Hsh as [Hw _].
  unfold escapes. fold c. rewrite H4. split.
  - intros E. rewrite H5 in E. destruct l as [|o].
    + split; auto. unfold tau_step in E. destruct (cx_frames cx) as [|[] rest] eqn:Hf; try discriminate.
      * destruct (uf_mode f) eqn:Hm; try discriminate; destruct (uf_objs f) eqn:Ho;
          try (exfalso; apply (destroy_po' s t c cx I H2 H3) in E; exact E); try (exfalso; apply (lret_po s c) in E; exact E).
        exists (uf_kind f), e, rest. split; [exists f; auto|]. unfold fatal.
        unfold leave_exn in E. destruct (uf_kind f) eqn:Hk; auto; destruct rest as [|[] rest]; try discriminate;
          unfold raise in E; [destruct e; [eauto|discriminate]|].
        rewrite wfs_cons in Hw. destruct Hw as [_ Hw]. destruct rest as [|g1 rest]; [discriminate|].
        rewrite wfs_cons in Hw. destruct Hw as [Hb Hw]. cbn in Hb.
        destruct g1; try discriminate Hb; cbn in Hb; try (destruct rest as [|[] rest]; discriminate).
        apply wfs_entry1 in Hw. subst rest. destruct e; [|discriminate]. eauto.
      * exfalso. apply jump_po in E. exact E.
      * destruct t0; [exfalso; apply exit_po in E; exact E|discriminate].
      * exfalso. apply (exit_step_po s t c cx I H2 H3) in E. exact E.
    + exfalso. destruct (cx_frames cx) as [|[] rest] eqn:Hf; try discriminate.
      assert (D : (exists v g b, get_var s v = Some (b, None) /\ (o = UResume v \/ o = UResumeWith v g)) \/
                  ~ (exists v g b, get_var s v = Some (b, None) /\ (o = UResume v \/ o = UResumeWith v g))).
      { destruct o; try (right; intros [v' [g' [b' [_ [Q|Q]]]]]; discriminate);
        (destruct (get_var s src) as [[b [h|]]|] eqn:Ev; [right|left; solve [exists src, 0, b; auto|exists src, g, b; auto]|right]; intros [v' [g' [b' [Q1 [Q|Q]]]]]; inversion Q; subst; congruence). }
      destruct D as [[v [g [b [G [->| ->]]]]]|D].
      * unfold user_step in E. destruct (uf_mode f); try discriminate. rewrite G in E. discriminate.
      * unfold user_step in E. destruct (uf_mode f); try discriminate. rewrite G in E. discriminate.
      * destruct (uf_mode f) eqn:Hm; try (unfold user_step in E; rewrite Hm in E; discriminate).
        -- destruct o; try (match type of E with user_step _ _ _ _ _ ?o = _ => apply (caps_po s t c cx I H2 H3 f rest o) in E end; auto; discriminate).
           ++ destruct (get_var s src) as [[b [h|]]|] eqn:Ev.
              ** match type of E with user_step _ _ _ _ _ ?o = _ => apply (caps_po s t c cx I H2 H3 f rest o) in E end; auto; [|intros; discriminate]. intros v' Q; inversion Q; subst; eauto.
              ** apply D. exists src, 0, b. auto.
              ** unfold user_step in E. rewrite Hm, Ev in E. discriminate.
           ++ destruct (get_var s src) as [[b [h|]]|] eqn:Ev.
              ** match type of E with user_step _ _ _ _ _ ?o = _ => apply (caps_po s t c cx I H2 H3 f rest o) in E end; auto; [intros; discriminate|]. intros v' g' Q; inversion Q; subst; eauto.
              ** apply D. exists src, g, b. auto.
              ** unfold user_step in E. rewrite Hm, Ev in E. discriminate.
        -- unfold user_step in E. rewrite Hm in E. destruct o; try discriminate; [destruct (uf_caught f)|destruct (forced_caught f)]; discriminate.
  - intros [-> [k [e [below [[f [G1 [G2 [G3 G4]]]] Hfa]]]]]. rewrite H5, G1. unfold tau_step. rewrite G3, G4. unfold leave_exn. rewrite G2.
    destruct k; cbn in Hfa; auto; try tauto.
    + destruct Hfa as [x ->]. rewrite G1 in Hw. destruct below as [|g1 r1]; [destruct Hw as [_ [_ Hw]]; congruence|].
      rewrite wfs_cons in Hw. destruct Hw as [[_ Hb] _]. rewrite G2 in Hb. subst g1. reflexivity.
    + destruct Hfa as [[x ->] ->]. reflexivity.
Qed.

(** a context-function throws *)
Example C13_terminate_example : exists s', run ex_state [(0, LUser (UResume 2)); (0, LUser (UMoveCtor 3 true)); (0, LUser (UThrow 4)); (0, LTau); (0, LTau);
    (0, LUser (UReturn None)); (0, LTau); (0, LTau)] = Next s' /\
  escapes s' 0 KCtx (EUser 4) [FEntry2] /\ step s' 0 LTau = Terminate.
Proof. eexists. split; [vm_compute; reflexivity|]. split; [eexists; repeat split; vm_compute; reflexivity|vm_compute; reflexivity]. Qed.
