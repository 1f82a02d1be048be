(** Properties of fibers (C01-C19), as theorems about every reachable state of the fiber machine and
    every history of it: any number of threads and contexts, any user code, any interleaving. *)
From Coq Require Import List Arith Bool Lia.
From Verif Require Import ListUtil Fiber FiberInv FiberInv2 FiberInv3 Micro MicroInv FiberSpec TraceInv CallInv CallInv2 StackInv ObjInv ExnInv HistInv HeapInv StepFacts.
Import ListNotations.

(* ================================================================== C01 *)

Definition occ (k : fctx) (l : list fctx) : nat := sumf (w1 k) l.
Lemma occ_app k a b : occ k (a ++ b) = occ k a + occ k b.
Proof. apply sumf_app. Qed.
Lemma occ_flat {A} k (f : A -> list fctx) l : occ k (flat_map f l) = sumf (fun x => occ k (f x)) l.
Proof. induction l as [|x l IH]; auto. cbn [flat_map]. rewrite occ_app, IH. reflexivity. Qed.
Lemma occ_in k l : 0 < occ k l <-> In k l.
Proof.
  induction l as [|x l IH]; cbn; [lia|]. unfold occ in *. cbn. split.
  - intros H. destruct (Nat.eq_dec (w1 k x) 0) as [E|N]; [right; apply IH; lia|]. left. apply w1_pos. lia.
  - intros [->|H]; [rewrite w1_self; lia|]. apply IH in H. lia.
Qed.
Lemma occ_nodup l : (forall k, occ k l <= 1) -> NoDup l.
Proof.
  induction l as [|x l IH]; intros H; constructor.
  - intros Hi. apply occ_in in Hi. specialize (H x). unfold occ in *. cbn in H. rewrite w1_self in H. lia.
  - apply IH. intros k. specialize (H k). unfold occ in *. cbn in H. lia.
Qed.
Lemma occ_frame k f : occ k (frame_handles f) = wfr CR k f + wfr CD k f + wfr CC k f + wfr CX k f.
Proof.
  unfold frame_handles, occ. destruct f as [u| | | | |t| | |r| |]; cbn; try lia.
  - rewrite sumf_app. destruct (uf_mode u) as [|[]|[]|[]], (uf_caught u) as [[]|]; cbn; lia.
  - destruct r; cbn; lia.
Qed.
Lemma sumf_add {A} (f g : A -> nat) l : sumf (fun x => f x + g x) l = sumf f l + sumf g l.
Proof. induction l; cbn; auto. rewrite IHl. lia. Qed.
Lemma occ_handles k s : occ k (handles s) = cnt CR k s + cnt CD k s + cnt CC k s + cnt CX k s.
Proof.
  unfold handles. rewrite occ_app, !occ_flat.
  rewrite (sumf_ext _ (fun cx => wcx CR k cx + wcx CD k cx + wcx CC k cx + wcx CX k cx)).
  2:{ intros cx _. rewrite occ_flat. unfold wcx, wfs_. rewrite <- !sumf_add. apply sumf_ext. intros f _. apply occ_frame. }
  rewrite !sumf_add. rewrite (sumf_ext (fun x => occ k (var_handles x)) (wvar CR k)).
  2:{ intros v _. unfold occ. destruct v as [|b [h|]]; cbn; lia. }
  unfold cnt. assert (Z : forall cl, cl <> CR -> sumf (wvar cl k) (s_vars s) = 0).
  { intros cl N. apply sumf_zero. intros [|b h] _; destruct cl; try reflexivity; congruence. }
  rewrite (Z CD), (Z CC), (Z CX) by discriminate. lia.
Qed.
Lemma susp_vs k s : susp k s = 1 <-> vs s (fc_ctx k) = Some (fc_ver k, true).
Proof.
  unfold susp, vs. destruct (nth_error (s_ctxs s) (fc_ctx k)) as [cx|]; cbn; [|split; discriminate].
  unfold is_susp. destruct (cx_status cx); try (split; [discriminate|intros E; injection E; discriminate]).
  destruct (Nat.eqb_spec (cx_ver cx) (fc_ver k)) as [->|N]; cbn; split; auto; try discriminate. intros E; injection E. congruence.
Qed.

(** C01: the handles that exist are pairwise distinct, and they are exactly the suspended contexts. *)
Theorem C01_ownership n s : reachable n s ->
  NoDup (handles s) /\ (forall h, In h (handles s) <-> suspended (s_tr s) h).
Proof.
  intros Hr. pose proof (reachable_inv _ _ Hr) as I. pose proof (m_vinv _ _ (reach_mreach _ _ Hr)) as V.
  assert (C : forall k, occ k (handles s) = susp k s).
  { intros k. rewrite occ_handles. pose proof (i_cnt _ _ _ _ _ I k) as E. cbn in E. lia. }
  split.
  - apply occ_nodup. intros k. rewrite C. apply susp_le1.
  - intros h. rewrite <- occ_in, C, (suspended_vs _ _ V), <- susp_vs. pose proof (susp_le1 h s). lia.
Qed.

(** A handle never denotes a context that some thread executes, or that has terminated or whose stack
    is freed; two handles never denote the same context. *)
Theorem C01_handle_targets n s h : reachable n s -> In h (handles s) ->
  (forall t, t < n -> running (s_tr s) t <> fc_ctx h) /\ ~ exited (s_tr s) (fc_ctx h) /\ ~ freed (s_tr s) (fc_ctx h) /\
  (forall h', In h' (handles s) -> fc_ctx h' = fc_ctx h -> h' = h).
Proof.
  intros Hr Hi. pose proof (reach_mreach _ _ Hr) as M. pose proof (m_vinv _ _ M) as V.
  pose proof (C01_ownership _ _ Hr) as [_ Hs]. apply Hs in Hi. rewrite (suspended_vs _ _ V) in Hi.
  destruct (m_thread _ _ M) as [T _]. pose proof (m_kinv _ _ M) as K.
  unfold vs in Hi. destruct (nth_error (s_ctxs s) (fc_ctx h)) as [cx|] eqn:Hc; [|discriminate]. cbn in Hi. injection Hi as Hv Hss.
  assert (Hst : cx_status cx = SSusp) by (destruct (cx_status cx); try discriminate; reflexivity).
  repeat split.
  - intros t Ht E. destruct (t_run _ _ T t Ht) as [cx' [H1 H2]]. rewrite E in H1. congruence.
  - intros E. apply (k_exited _ K) in E. rewrite (st_some _ _ _ Hc), Hst in E. destruct E; discriminate.
  - intros E. apply (k_freed _ K) in E. rewrite (st_some _ _ _ Hc), Hst in E. discriminate.
  - intros h' Hi' Ec. apply Hs in Hi'. rewrite (suspended_vs _ _ V), Ec in Hi'. unfold vs in Hi'. rewrite Hc in Hi'. cbn in Hi'.
    injection Hi' as Hv' _. apply fctx_eq; congruence.
Qed.

(** No operation of the library uses a handle that does not denote a suspended context (nor reads a
    destroyed fiber object, nor returns into a stack that is not waiting): undefined behaviour is
    unreachable, whatever the users' code does. *)
Theorem C01_no_undefined_behaviour n l : run (init n) l <> UB.
Proof. pose proof (run_inv l _ (init_inv n)) as G. intros E. rewrite E in G. exact G. Qed.

(** the states of the theorems: thread 0 creates a fiber, enters it, the fiber constructs an object and
    switches back *)
Definition ex_ops : list (nat * label) :=
  [(0, LUser (UCreate 7 [CapUsr] true)); (0, LTau); (0, LUser (UResume 0)); (0, LUser UNewUsr); (0, LUser (UResume 1))].
Definition ex_state : state := Eval vm_compute in match run (init 2) ex_ops with Next s => s | _ => init 0 end.
Example ex_reachable : reachable 2 ex_state.
Proof. exists ex_ops. vm_compute. reflexivity. Qed.
Example C01_example : handles ex_state = [mk_fc 2 2] /\ suspended (s_tr ex_state) (mk_fc 2 2).
Proof. split; [reflexivity|]. apply (proj2 (C01_ownership 2 ex_state ex_reachable)). left. reflexivity. Qed.

(* ================================================================== C02 *)

(** C02: suspensions are one-shot: a switch creates a new suspension and continues one that has not
    been continued before. *)
Theorem C02_one_shot n s : reachable n s -> always switch_rule (s_tr s).
Proof. intros Hr. eapply always_switch. apply reach_mreach; eauto. Qed.

(** hence no two switches of a history continue the same suspension, and no two create the same *)
Theorem C02_no_reuse n s : reachable n s ->
  forall t1 c1 m1 h1 k1 t2 c2 m2 h2 k2, In (EvSwitch t1 c1 m1 h1 k1) (s_tr s) -> In (EvSwitch t2 c2 m2 h2 k2) (s_tr s) ->
  (h1 = h2 <-> m1 = m2) /\ (h1 = h2 -> t1 = t2 /\ c1 = c2 /\ k1 = k2).
Proof.
  intros Hr t1 c1 m1 h1 k1 t2 c2 m2 h2 k2 H1 H2. pose proof (C02_one_shot _ _ Hr) as Ha. split; [split|].
  - intros ->. destruct (consumer_unique _ Ha _ _ _ _ _ _ _ _ _ H1 H2) as [_ [_ [E _]]]. exact E.
  - intros ->. destruct (switch_unique _ Ha _ _ _ _ _ _ _ _ _ H1 H2) as [_ [_ [E _]]]. exact E.
  - intros ->. destruct (consumer_unique _ Ha _ _ _ _ _ _ _ _ _ H1 H2) as [E1 [E2 [_ E3]]]. auto.
Qed.

(** what resume() and resume_with() do to the handle: the fiber object is empty, and exactly its former
    value has been continued by a switch that makes a new suspension of the calling context; the next
    event on the target receives precisely this suspension *)
Lemma get_var_add s x v : v < length (s_vars s) -> get_var (add_var s x) v = get_var s v.
Proof. intros H. unfold get_var, add_var. cbn. rewrite nth_error_app1 by auto. reflexivity. Qed.
Lemma get_var_vars s s' v : s_vars s = s_vars s' -> get_var s v = get_var s' v.
Proof. unfold get_var. intros ->. reflexivity. Qed.
Lemma switch_vars s t c st h k s' me : switch s t c st h k = Some (s', me) ->
  s_vars s' = s_vars s /\ s_tr s' = EvSwitch t c me h k :: s_tr s /\ fc_ctx me = c.
Proof.
  unfold switch. intros E. destruct (nth_error (s_ctxs s) c) as [cx|]; [|discriminate]. destruct (nth_error (s_ctxs s) (fc_ctx h)) as [tx|]; [|discriminate].
  destruct (cx_status tx); try discriminate. destruct (Nat.eqb _ _); [|discriminate]. injection E as <- <-. cbn. auto.
Qed.
Lemma deliver_vars s c fs r s' : deliver s c fs r = Next s' -> exists l es, s_vars s' = s_vars s ++ l /\ s_tr s' = es ++ s_tr s /\ es <> [].
Proof.
  unfold deliver. intros E.
  assert (G : forall s1 fs', (exists l es, s_vars s1 = s_vars s ++ l /\ s_tr s1 = es ++ s_tr s /\ es <> []) ->
     exists l es, s_vars (put_frames s1 c fs') = s_vars s ++ l /\ s_tr (put_frames s1 c fs') = es ++ s_tr s /\ es <> []).
  { intros s1 fs'. rewrite put_frames_vars, put_frames_tr. auto. }
  destruct fs as [|[] rest]; try discriminate.
  1-3: destruct rest as [|[] rest]; try discriminate; injection E as <-; apply G; eexists _, [_; _]; repeat split; discriminate.
  - injection E as <-. apply G. exists [], [EvDestroyed c]. rewrite app_nil_r. repeat split; discriminate.
  - injection E as <-. apply G. eexists _, [_; _]; repeat split; discriminate.
Qed.
Lemma put_live s v b h : get_var s v = Some (b, h) -> get_var (put_var s v (VLive b None)) v = Some (b, None).
Proof.
  intros H. apply get_var_some in H. unfold get_var, put_var. cbn. rewrite nth_upd_lt by (eapply nth_some_lt; eauto). reflexivity.
Qed.

Lemma step_running n s t l s' : reachable n s -> step s t l = Next s' -> t < n /\ nth_error (s_thr s) t = Some (running (s_tr s) t).
Proof.
  intros Hr E. destruct (m_thread _ _ (reach_mreach _ _ Hr)) as [T _]. unfold step in E.
  destruct (nth_error (s_thr s) t) as [c|] eqn:Et; [|discriminate]. apply (t_thr _ _ T) in Et. destruct Et as [H1 <-]. auto.
Qed.

Lemma resume_form n s t v g k0 s' :
  reachable n s -> (k0 = SwJump /\ step s t (LUser (UResume v)) = Next s' \/ k0 = SwOntop g /\ step s t (LUser (UResumeWith v g)) = Next s') ->
  exists b h me rest_events,
    get_var s v = Some (b, Some h) /\ get_var s' v = Some (b, None) /\
    s_tr s' = rest_events ++ EvSwitch t (running (s_tr s) t) me h k0 :: s_tr s /\ rest_events <> [] /\
    fc_ctx me = running (s_tr s) t.
Proof.
  intros Hr E. assert (Ht : nth_error (s_thr s) t = Some (running (s_tr s) t)) by (destruct E as [[_ E]|[_ E]]; eapply step_running; eauto).
  unfold step in E. rewrite Ht in E. set (c := running (s_tr s) t) in *.
  destruct (nth_error (s_ctxs s) c) as [cx|]; [|destruct E as [[_ E]|[_ E]]; discriminate].
  destruct (cx_frames cx) as [|[] rest]; try (destruct E as [[_ E]|[_ E]]; discriminate).
  unfold user_step in E. destruct (uf_mode f); try (destruct E as [[_ E]|[_ E]]; discriminate).
  destruct (get_var s v) as [[b [h|]]|] eqn:Ev; try (destruct E as [[_ E]|[_ E]]; discriminate).
  assert (Hl : v < length (s_vars s)) by (apply get_var_some in Ev; eapply nth_some_lt; eauto).
  destruct E as [[-> E]|[-> E]].
  - unfold do_jump in E. destruct (switch _ _ _ _ _ _) as [[s1 me]|] eqn:Es; [|discriminate].
    apply switch_vars in Es. rewrite put_frames_vars, put_frames_tr in Es. destruct Es as [V1 [T1 M1]].
    apply deliver_vars in E. destruct E as [l [es [V2 [T2 N]]]].
    exists b, h, me, es. rewrite T2, T1. repeat split; auto.
    unfold get_var. rewrite V2, V1. rewrite nth_error_app1 by (cbn; rewrite upd_length; auto). fold (get_var (put_var s v (VLive b None)) v). eapply put_live; eauto.
  - unfold do_ontop in E. destruct (switch _ _ _ _ _ _) as [[s1 me]|] eqn:Es; [|discriminate].
    apply switch_vars in Es. rewrite put_frames_vars, put_frames_tr in Es. destruct Es as [V1 [T1 M1]]. injection E as <-.
    eexists b, h, me, [_; _]. rewrite put_frames_tr. cbn [s_tr emit add_var]. rewrite T1. repeat split; auto; [|discriminate].
    unfold get_var. rewrite put_frames_vars. cbn [s_vars emit add_var]. rewrite V1. rewrite nth_error_app1 by (cbn; rewrite upd_length; auto).
    fold (get_var (put_var s v (VLive b None)) v). eapply put_live; eauto.
Qed.
Theorem C02_resume n s t v s' :
  reachable n s -> step s t (LUser (UResume v)) = Next s' ->
  exists b h me rest_events,
    get_var s v = Some (b, Some h) /\ get_var s' v = Some (b, None) /\
    s_tr s' = rest_events ++ EvSwitch t (running (s_tr s) t) me h SwJump :: s_tr s /\ rest_events <> [] /\
    fc_ctx me = running (s_tr s) t.
Proof. intros Hr E. apply (resume_form n s t v 0); auto. Qed.
Theorem C02_resume_with n s t v g s' :
  reachable n s -> step s t (LUser (UResumeWith v g)) = Next s' ->
  exists b h me rest_events,
    get_var s v = Some (b, Some h) /\ get_var s' v = Some (b, None) /\
    s_tr s' = rest_events ++ EvSwitch t (running (s_tr s) t) me h (SwOntop g) :: s_tr s /\ rest_events <> [] /\
    fc_ctx me = running (s_tr s) t.
Proof. intros Hr E. apply (resume_form n s t v g); auto. Qed.

(** ... and the first of these events is the target's: the suspended call returns (or the
    context-function, or the injected function, is invoked with) a handle to that suspension *)
Theorem C02_receiver n s : reachable n s -> always next_rule (s_tr s) /\ settled (s_tr s).
Proof. intros Hr. eapply m_next. apply reach_mreach; eauto. Qed.

Example C02_example : exists s', step ex_state 0 (LUser (UResumeWith 2 9)) = Next s' /\
  firstn 3 (s_tr s') = [EvCtor (OnCtx 2) (OFib 3); EvOntop 2 9 (mk_fc 0 3); EvSwitch 0 0 (mk_fc 0 3) (mk_fc 2 2) (SwOntop 9)].
Proof. eexists. split; vm_compute; reflexivity. Qed.

(* ================================================================== C03, C10, C11, C12 *)

(** How every suspended call ends: see [completion_rule]. *)
Theorem C03_completion n s : reachable n s -> always completion_rule (s_tr s).
Proof. intros Hr. eapply m_completion. apply reach_mreach; eauto. Qed.

Lemma always_prefix P new e old tr : tr = new ++ e :: old -> always P tr -> P e old /\ always P old.
Proof. intros -> H. split; [eapply H; eauto|]. change (e :: old) with ([e] ++ old) in H. rewrite app_assoc in H. eapply always_app; eauto. Qed.

(** C03, read off: resume() (or resume_with) of context c returns r. Exactly one switch had continued
    this call; if it was a resume of context [from], r denotes [from], which is suspended; if [from]
    terminated, r is empty; if an injected function was run, r is what it returned. *)
Theorem C03_returns n s new c r old : reachable n s -> s_tr s = new ++ EvResumed c r :: old ->
  exists h t from me k, hd_error (open_calls old c) = Some h /\ In (EvSwitch t from me h k) old /\
    (forall t' from' me' k', In (EvSwitch t' from' me' h k') old -> from' = from /\ me' = me /\ k' = k) /\
    match k with
    | SwJump => r = Some me /\ fc_ctx me = from /\ suspended old me
    | SwExit => r = None /\ exited old from /\ freed old from
    | SwOntop g => hd_error old = Some (EvOntopRet c g r)
    | _ => False
    end.
Proof.
  intros Hr E. pose proof (C02_one_shot _ _ Hr) as Hsw.
  destruct (always_prefix _ _ _ _ _ E (C03_completion _ _ Hr)) as [H _]. destruct (always_prefix _ _ _ _ _ E Hsw) as [_ Hsw'].
  cbn in H. destruct H as [h [o [Ho [[t1 [to1 [k1 [_ Hk1]]]] [t [from [me [k [Hi Hk]]]]]]]]]. exists h, t, from, me, k.
  rewrite Ho. repeat split; auto.
  - destruct (consumer_unique _ Hsw' _ _ _ _ _ _ _ _ _ Hi H) as [_ [E1 [E2 E3]]]. auto.
  - destruct (consumer_unique _ Hsw' _ _ _ _ _ _ _ _ _ Hi H) as [_ [E1 [E2 E3]]]. auto.
  - destruct (consumer_unique _ Hsw' _ _ _ _ _ _ _ _ _ Hi H) as [_ [E1 [E2 E3]]]. auto.
  - destruct k.
    + destruct Hk.
    + destruct Hk as [E1 E2]. injection E1 as ->. destruct old as [|e old']; [discriminate|]. cbn in E2. injection E2 as ->.
      apply always_cons in Hsw'. destruct Hsw' as [[F1 [F2 [F3 _]]] _]. repeat split; auto.
      * apply created_cons. left. split; [reflexivity|discriminate].
      * rewrite consumed_cons. intros [->|X]; [|auto].
        (* a context cannot continue itself *)
        destruct (m_thread _ _ (reach_mreach _ _ Hr)) as [_ Ht].
        assert (E' : s_tr s = (new ++ [EvResumed c (Some h)]) ++ EvSwitch t from h h SwJump :: old') by (rewrite E, <- app_assoc; reflexivity).
        destruct (Ht _ _ _ E') as [[G1 [G2 G3]] _]. apply (G3 t G1). congruence.
    + destruct Hk as [E1 _]. discriminate.
    + destruct Hk as [[r' [E1 E2]]|[x [E1 E2]]]; [|discriminate]. injection E1 as <-. exact E2.
    + destruct Hk as [[E1|E1] [a E2]]; [|discriminate]. injection E1 as ->. repeat split; auto.
      * exists t, me, h. auto.
      * exists a, c. destruct old; [discriminate|]. cbn in E2. injection E2 as ->. left. reflexivity.
Qed.

Example C03_example : exists s', step ex_state 0 (LUser (UResume 2)) = Next s' /\
  s_tr s' = [EvCtor (OnCtx 2) (OFib 3)] ++ EvResumed 2 (Some (mk_fc 0 3)) :: EvSwitch 0 0 (mk_fc 0 3) (mk_fc 2 2) SwJump :: s_tr ex_state.
Proof. eexists. split; vm_compute; reflexivity. Qed.

(** C10: a context-function is invoked at most once, never after its context has been asked to unwind;
    it is invoked because a switch continued the fresh context, with the handle that this switch says. *)
Theorem C10_enter_once n s new c arg old : reachable n s -> s_tr s = new ++ EvEnter c arg :: old ->
  ~ entered old c /\ ~ entered new c /\ ~ unwound old c /\
  exists h t from me k, hd_error (open_calls old c) = Some h /\ In (EvSwitch t from me h k) old /\
    match k with
    | SwJump => arg = Some me /\ fc_ctx me = from
    | SwOntop g => hd_error old = Some (EvOntopRet c g arg)
    | SwExit => arg = None /\ freed old from
    | _ => False
    end.
Proof.
  intros Hr E. pose proof (m_life _ _ (reach_mreach _ _ Hr)) as HL.
  destruct (always_prefix _ _ _ _ _ E HL) as [[L1 [L2 L3]] _]. split; [exact L1|]. split.
  - intros [r Hi]. apply in_split in Hi. destruct Hi as [a [b Hi]].
    assert (E' : s_tr s = a ++ EvEnter c r :: (b ++ EvEnter c arg :: old)) by (rewrite E, Hi, <- app_assoc; reflexivity).
    destruct (HL _ _ _ E') as [X _]. apply X. exists arg. apply in_or_app. right; left; reflexivity.
  - split; [exact L2|]. pose proof (C02_one_shot _ _ Hr) as Hsw.
    destruct (always_prefix _ _ _ _ _ E (C03_completion _ _ Hr)) as [H _]. destruct (always_prefix _ _ _ _ _ E Hsw) as [_ Hsw'].
    cbn in H. destruct H as [h [o [Ho [[t1 [to1 [k1 [_ Hk1]]]] [t [from [me [k [Hi Hk]]]]]]]]]. exists h, t, from, me, k.
    rewrite Ho. repeat split; auto. destruct k.
    + destruct Hk.
    + destruct Hk as [E1 E2]. injection E1 as ->. destruct old as [|e old']; [discriminate|]. cbn in E2. injection E2 as ->.
      apply always_cons in Hsw'. destruct Hsw' as [[F1 _] _]. auto.
    + destruct Hk as [E1 _]. discriminate.
    + destruct Hk as [[r' [E1 E2]]|[x [E1 E2]]]; [|discriminate]. injection E1 as <-. exact E2.
    + destruct Hk as [[E1|E1] [a E2]]; [|discriminate]. injection E1 as ->. split; auto.
      exists a, c. destruct old; [discriminate|]. cbn in E2. injection E2 as ->. left. reflexivity.
Qed.
Example C10_example : exists new old, s_tr ex_state = new ++ EvEnter 2 (Some (mk_fc 0 2)) :: old.
Proof. exists (firstn 5 (s_tr ex_state)), (skipn 6 (s_tr ex_state)). vm_compute. reflexivity. Qed.

(** C11: an injected function is invoked directly after the switch of exactly one resume_with, and every
    such switch is directly followed by the invocation; injected functions on a context end in LIFO
    order; the suspended call (or the context-function) gets exactly what the function returned. *)
Theorem C11_injected n s : reachable n s -> always ontop_rule (s_tr s) /\ always next_rule (s_tr s) /\ settled (s_tr s).
Proof. intros Hr. pose proof (reach_mreach _ _ Hr) as M. split; [eapply m_inj; eauto|eapply m_next; eauto]. Qed.

Theorem C11_runs_once n s t from me to g : reachable n s -> In (EvSwitch t from me to (SwOntop g)) (s_tr s) ->
  exists new old, s_tr s = new ++ EvOntop (fc_ctx to) g me :: EvSwitch t from me to (SwOntop g) :: old /\
    (forall c' g', ~ In (EvOntop c' g' me) new) /\ (forall c' g', ~ In (EvOntop c' g' me) old).
Proof.
  intros Hr Hi. destruct (C11_injected _ _ Hr) as [Ho [Hn Hs]]. apply in_split in Hi. destruct Hi as [a [b E]].
  pose proof (C02_one_shot _ _ Hr) as Hsw.
  destruct a as [|e a] using rev_ind; [rewrite E in Hs; destruct Hs|]. clear IHa. rewrite <- app_assoc in E.
  pose proof (Hn _ _ _ E) as Hnx. cbn in Hnx. subst e. exists a, b. split; [exact E|].
  assert (U : forall l1 c' g' l2, s_tr s = l1 ++ EvOntop c' g' me :: l2 -> hd_error l2 = Some (EvSwitch t from me to (SwOntop g))).
  { intros l1 c' g' l2 E2. destruct (Ho _ _ _ E2) as [t2 [f2 [to2 [H1 H2]]]]. 
    assert (I1 : In (EvSwitch t2 f2 me to2 (SwOntop g')) (s_tr s)) by (rewrite E2; destruct l2; [discriminate|]; cbn in H1; injection H1 as ->; apply in_or_app; right; right; left; reflexivity).
    assert (I2 : In (EvSwitch t from me to (SwOntop g)) (s_tr s)) by (rewrite E; apply in_or_app; right; right; left; reflexivity).
    destruct (switch_unique _ Hsw _ _ _ _ _ _ _ _ _ I1 I2) as [-> [-> [-> E3]]]. rewrite <- E3. exact H1. }
  (* the switch occurs once *)
  assert (W : forall l, s_tr s = l ++ EvSwitch t from me to (SwOntop g) :: b -> True) by auto.
  assert (N1 : ~ In (EvSwitch t from me to (SwOntop g)) b).
  { assert (E2 : s_tr s = (a ++ [EvOntop (fc_ctx to) g me]) ++ EvSwitch t from me to (SwOntop g) :: b) by (rewrite E, <- app_assoc; reflexivity).
    destruct (Hsw _ _ _ E2) as [_ [H _]]. apply H. }
  assert (N2 : ~ In (EvSwitch t from me to (SwOntop g)) a).
  { intros Hi. apply in_split in Hi. destruct Hi as [a1 [a2 E2]].
    assert (E3 : s_tr s = a1 ++ EvSwitch t from me to (SwOntop g) :: (a2 ++ EvOntop (fc_ctx to) g me :: EvSwitch t from me to (SwOntop g) :: b)) by (rewrite E, E2, <- app_assoc; reflexivity).
    destruct (Hsw _ _ _ E3) as [_ [H _]]. apply (H t from to (SwOntop g)). apply in_or_app. right; right; left; reflexivity. }
  split; intros c' g' Hi; apply in_split in Hi; destruct Hi as [l1 [l2 E2]].
  - assert (E3 : s_tr s = l1 ++ EvOntop c' g' me :: (l2 ++ EvOntop (fc_ctx to) g me :: EvSwitch t from me to (SwOntop g) :: b)) by (rewrite E, E2, <- app_assoc; reflexivity).
    apply U in E3. destruct l2 as [|e2 l2]; cbn in E3; [discriminate|]. injection E3 as ->. apply N2. rewrite E2. apply in_or_app. right; right; left; reflexivity.
  - assert (E3 : s_tr s = (a ++ EvOntop (fc_ctx to) g me :: EvSwitch t from me to (SwOntop g) :: l1) ++ EvOntop c' g' me :: l2) by (rewrite E, E2, <- app_assoc; reflexivity).
    apply U in E3. destruct l2 as [|e2 l2]; cbn in E3; [discriminate|]. injection E3 as ->. apply N1. rewrite E2. apply in_or_app. right; right; left; reflexivity.
Qed.

(** a run in which a function is injected; it saves the caller's handle on the heap and returns *)
Definition ex2_ops : list (nat * label) :=
  ex_ops ++ [(0, LUser (UResumeWith 2 9)); (0, LUser (UMoveCtor 3 true)); (0, LUser (UReturn None)); (0, LTau); (0, LTau)].
Definition ex2_state : state := Eval vm_compute in match run (init 2) ex2_ops with Next s => s | _ => init 0 end.
Example ex2_reachable : reachable 2 ex2_state.
Proof. exists ex2_ops. vm_compute. reflexivity. Qed.
Example C11_example : In (EvSwitch 0 0 (mk_fc 0 3) (mk_fc 2 2) (SwOntop 9)) (s_tr ex2_state) /\
  firstn 3 (s_tr ex2_state) = [EvCtor (OnCtx 2) (OFib 5); EvResumed 2 None; EvOntopRet 2 9 None].
Proof. split; [cbn; tauto|reflexivity]. Qed.

(** C12: an exception that leaves an injected function leaves, next, the suspended call of the context
    the function ran on; if that context had not been started it is the unwind request (any other
    exception terminates the program: C13). The caller of resume_with, suspension [me], is not
    continued by this. *)
Theorem C12_exception_in_target n s new c g x old : reachable n s -> s_tr s = new ++ EvOntopExn c g x :: old ->
  exists new' e, new = new' ++ [e] /\ (e = EvRaised c x \/ exists h, x = EForced h /\ e = EvDone c (Some h)).
Proof.
  intros Hr E. destruct (C11_injected _ _ Hr) as [_ [Hn Hs]].
  destruct new as [|e new] using rev_ind; [rewrite E in Hs; destruct Hs|]. clear IHnew. exists new, e. split; auto.
  rewrite <- app_assoc in E. pose proof (Hn _ _ _ E) as X. exact X.
Qed.

Theorem C12_raised_by n s new c x old : reachable n s -> s_tr s = new ++ EvRaised c x :: old ->
  exists h t from me k, hd_error (open_calls old c) = Some h /\ In (EvSwitch t from me h k) old /\
    match k with
    | SwUnwind => x = EForced me
    | SwOntop g => hd_error old = Some (EvOntopExn c g x)
    | _ => False
    end.
Proof.
  intros Hr E. destruct (always_prefix _ _ _ _ _ E (C03_completion _ _ Hr)) as [H _].
  cbn in H. destruct H as [h [o [Ho [_ [t [from [me [k [Hi Hk]]]]]]]]]. exists h, t, from, me, k. rewrite Ho. repeat split; auto.
  destruct k.
  - exact Hk.
  - destruct Hk as [E1 _]. discriminate.
  - destruct Hk as [E1 _]. injection E1 as ->. reflexivity.
  - destruct Hk as [[r' [E1 E2]]|[y [E1 E2]]]; [discriminate|]. injection E1 as <-. exact E2.
  - destruct Hk as [[E1|E1] _]; discriminate.
Qed.

(** the injected function throws after it has put the caller's handle into a safe place *)
Definition ex3_ops : list (nat * label) :=
  ex_ops ++ [(0, LUser (UResumeWith 2 9)); (0, LUser (UMoveCtor 3 true)); (0, LUser (UThrow 5)); (0, LTau); (0, LTau)].
Definition ex3_state : state := Eval vm_compute in match run (init 2) ex3_ops with Next s => s | _ => init 0 end.
Example C12_example : reachable 2 ex3_state /\ firstn 2 (s_tr ex3_state) = [EvRaised 2 (EUser 5); EvOntopExn 2 9 (EUser 5)] /\
  handles ex3_state = [mk_fc 0 3].
Proof. split; [exists ex3_ops; vm_compute; reflexivity|split; reflexivity]. Qed.

(* ================================================================== C05, C08 *)

(** C05: see [stack_rule]. *)
Theorem C05_stack_life n s : reachable n s -> always stack_rule (s_tr s).
Proof. intros Hr. eapply m_stack. apply reach_mreach; eauto. Qed.

(** C05, read off: when a stack is freed it was allocated by that allocator, has not been freed before
    and is not freed again; the freeing code runs elsewhere; no handle to the context exists, no thread
    executes it, and nothing happens on it later. *)
Theorem C05_freed_once n s new c a on old : reachable n s -> s_tr s = new ++ EvFree c a on :: old ->
  In (EvAlloc c a) old /\ (forall a', In (EvAlloc c a') (s_tr s) -> a' = a) /\ on <> c /\
  ~ freed old c /\ ~ freed new c /\ exited old c /\ (forall e, In e new -> ~ involves e c) /\
  (forall h, In h (handles s) -> fc_ctx h <> c) /\ (forall t, t < n -> running (s_tr s) t <> c).
Proof.
  intros Hr E. pose proof (C05_stack_life _ _ Hr) as Ha. pose proof (reach_mreach _ _ Hr) as M.
  destruct (always_prefix _ _ _ _ _ E Ha) as [[_ [_ [H1 [H2 [H3 [t [me [to [H4 [H5 H6]]]]]]]]]] _].
  assert (N : forall e, In e new -> ~ involves e c).
  { intros e Hi. apply in_split in Hi. destruct Hi as [l1 [l2 El]].
    assert (E' : s_tr s = l1 ++ e :: (l2 ++ EvFree c a on :: old)) by (rewrite E, El, <- app_assoc; reflexivity).
    destruct (Ha _ _ _ E') as [_ [X _]]. apply X. exists a, on. apply in_or_app. right; left; reflexivity. }
  assert (Hf : freed (s_tr s) c) by (exists a, on; rewrite E; apply in_or_app; right; left; reflexivity).
  repeat split; auto.
  - intros a' Hi. pose proof (m_kinv _ _ M) as K. apply (k_alloc _ K) in Hi.
    assert (Hi2 : In (EvAlloc c a) (s_tr s)) by (rewrite E; apply in_or_app; right; right; auto).
    apply (k_alloc _ K) in Hi2. congruence.
  - intros [a' [on' Hi]]. eapply N; eauto. cbn. auto.
  - exists t, me, to. auto.
  - intros h Hi <-. destruct (C01_handle_targets _ _ _ Hr Hi) as [_ [_ [X _]]]. auto.
  - intros t' Ht' Er. destruct (m_thread _ _ M) as [T _]. destruct (t_run _ _ T t' Ht') as [cx [G1 G2]]. rewrite Er in G1.
    apply (k_freed _ (m_kinv _ _ M)) in Hf. rewrite (st_some _ _ _ G1) in Hf. congruence.
Qed.

(** C08: see [object_rule]. *)
Theorem C08_objects n s : reachable n s -> always object_rule (s_tr s).
Proof. apply reach_object. Qed.

(** C08, read off: when the stack of c is freed, every object that was ever constructed on it, or inside
    its function object, has been destroyed exactly once. *)
Theorem C08_all_destroyed n s new c a on old o : reachable n s -> s_tr s = new ++ EvFree c a on :: old ->
  In (EvCtor (OnCtx c) o) (s_tr s) ->
  exists l1 l2, old = l1 ++ EvDtor (OnCtx c) o :: l2 /\ In (EvCtor (OnCtx c) o) l2 /\
    (forall p, ~ In (EvDtor p o) l2) /\ (forall p, ~ In (EvDtor p o) l1) /\ (forall p, ~ In (EvDtor p o) new).
Proof.
  intros Hr E Hi. pose proof (C08_objects _ _ Hr) as Ha.
  destruct (C05_freed_once _ _ _ _ _ _ _ Hr E) as [_ [_ [_ [_ [_ [_ [N _]]]]]]].
  destruct (always_prefix _ _ _ _ _ E Ha) as [[H1 H2] Ha'].
  assert (Hi' : In (EvCtor (OnCtx c) o) old).
  { rewrite E in Hi. apply in_app_or in Hi. destruct Hi as [Hi|[Hi|Hi]]; auto; [|discriminate]. exfalso. eapply N; eauto. reflexivity. }
  apply H2 in Hi'. apply in_split in Hi'. destruct Hi' as [l1 [l2 El]]. exists l1, l2.
  destruct (Ha' _ _ _ El) as [G1 [G2 G3]].
  assert (U : forall a1 p a2, s_tr s = a1 ++ EvDtor p o :: a2 -> ~ In (EvDtor (OnCtx c) o) a2).
  { intros a1 p a2 E2. pose proof (Ha _ _ _ E2) as X. destruct p; cbn in X; apply X. }
  repeat split; auto.
  - intros p Hp. apply in_split in Hp. destruct Hp as [b1 [b2 Eb]].
    apply (U (new ++ EvFree c a on :: b1) p (b2 ++ EvDtor (OnCtx c) o :: l2)).
    + rewrite E, El, Eb. rewrite <- !app_assoc. cbn. reflexivity.
    + apply in_or_app. right; left; reflexivity.
  - intros p Hp. apply in_split in Hp. destruct Hp as [b1 [b2 Eb]].
    apply (U b1 p (b2 ++ EvFree c a on :: old)).
    + rewrite E, Eb, <- app_assoc. reflexivity.
    + apply in_or_app. right; right. rewrite El. apply in_or_app. right; left; reflexivity.
Qed.

(** The destructor of the handle to the suspended fiber of [ex_state], run to its end: the fiber's local
    object is destroyed (its destructor is user code), then its parameter, then the captured object,
    then the stack is freed. *)
Definition ex4_ops : list (nat * label) := ex_ops ++
  [(0, LUser UScope); (0, LUser UPropagate); (0, LTau); (0, LUser (UReturn None)); (0, LTau); (0, LTau); (0, LTau); (0, LTau); (0, LTau);
   (0, LUser (UReturn None)); (0, LTau); (0, LTau)].
Definition ex4_state : state := Eval vm_compute in match run (init 2) ex4_ops with Next s => s | _ => init 0 end.
Example C05_example : reachable 2 ex4_state /\ firstn 11 (s_tr ex4_state) =
  [EvDestroyed 0; EvFree 2 7 0; EvRecord 2; EvDtor (OnCtx 2) (OUsr 0);
   EvSwitch 0 2 (mk_fc 2 3) (mk_fc 0 3) SwExit; EvDone 2 (Some (mk_fc 0 3)); EvDtor (OnCtx 2) (OFib 1);
   EvDtor (OnCtx 2) (OUsr 1); EvRaised 2 (EForced (mk_fc 0 3)); EvSwitch 0 0 (mk_fc 0 3) (mk_fc 2 2) SwUnwind; EvDtor (OnCtx 0) (OFib 2)].
Proof. split; [exists ex4_ops; vm_compute; reflexivity|reflexivity]. Qed.

(* ================================================================== C06 *)

(** C06: where the stack of a context can be: freed; in use by a running thread; suspended, and then a
    handle owns it; or the context has terminated and its release is the pending work of exactly the
    call stack it switched to. *)
Theorem C06_no_stack_is_lost n s c a : reachable n s -> In (EvAlloc c a) (s_tr s) ->
  freed (s_tr s) c \/
  (exists t, t < n /\ running (s_tr s) t = c) \/
  (exists h, fc_ctx h = c /\ In h (handles s)) \/
  (exited (s_tr s) c /\ exists d cx, nth_error (s_ctxs s) d = Some cx /\ In (FExit c) (cx_frames cx) /\
     (forall d' cx', nth_error (s_ctxs s) d' = Some cx' -> In (FExit c) (cx_frames cx') -> d' = d)).
Proof.
  intros Hr Hi. pose proof (reach_mreach _ _ Hr) as M. pose proof (m_kinv _ _ M) as K. pose proof (reachable_inv _ _ Hr) as I.
  pose proof Hi as Hb. apply (k_bound _ K _ c) in Hb; [|reflexivity].
  destruct (nth_error (s_ctxs s) c) as [cx|] eqn:Hc; [|apply nth_error_None in Hc; lia].
  destruct (cx_status cx) as [t| | |] eqn:Hst.
  - right; left. destruct (m_thread _ _ M) as [T _]. exists t. eapply (t_st _ _ T); eauto.
  - right; right; left. exists (mk_fc c (cx_ver cx)). split; [reflexivity|]. apply (C01_ownership _ _ Hr).
    apply (suspended_vs _ _ (m_vinv _ _ M)). cbn. rewrite (vs_some _ _ _ Hc), Hst. reflexivity.
  - right; right; right. split; [apply (k_exited _ K); left; rewrite (st_some _ _ _ Hc); congruence|].
    pose proof (i_exit _ _ _ _ _ I c) as Hx. unfold dying in Hx. rewrite Hc, Hst in Hx. cbn in Hx. unfold exits in Hx.
    assert (Hp : 0 < sumf (wexcx c) (s_ctxs s)) by lia. apply sumf_pos in Hp. destruct Hp as [d [dx [Hd Hp]]].
    assert (W : forall cx0, 0 < wexcx c cx0 <-> In (FExit c) (cx_frames cx0)).
    { intros cx0. unfold wexcx, wexs. split.
      - intros H. apply sumf_pos in H. destruct H as [i [f [H1 H2]]]. apply nth_error_In in H1. destruct f; cbn in H2; try lia.
        destruct (Nat.eqb_spec c0 c) as [->|]; [exact H1|cbn in H2; lia].
      - intros H. apply In_nth_error in H. destruct H as [i H]. pose proof (sumf_le (wex c) _ _ _ H) as H2. cbn in H2. rewrite Nat.eqb_refl in H2. cbn in H2. lia. }
    exists d, dx. split; [exact Hd|]. split; [apply W; exact Hp|].
    intros d' cx' Hd' Hin. destruct (Nat.eq_dec d' d) as [|N]; auto. apply W in Hin.
    pose proof (sumf_le2 (wexcx c) _ _ _ _ _ N Hd' Hd). lia.
  - left. apply (k_freed _ K). rewrite (st_some _ _ _ Hc). congruence.
Qed.

(** In a quiescent state - no handle exists and every thread is in a plain call of its own stack - all
    stacks have been freed. *)
Theorem C06_quiescent n s : reachable n s -> handles s = [] ->
  (forall t, t < n -> running (s_tr s) t < n /\ forall d, ~ In (FExit d) (frames_of s (running (s_tr s) t))) ->
  forall c a, In (EvAlloc c a) (s_tr s) -> freed (s_tr s) c.
Proof.
  intros Hr Hh Hq c a Hi. pose proof (reach_mreach _ _ Hr) as M.
  destruct (C06_no_stack_is_lost _ _ _ _ Hr Hi) as [H|[[t [Ht E]]|[[h [_ H]]|[_ [d [cx [H1 [H2 _]]]]]]]]; auto; exfalso.
  - destruct (Hq t Ht) as [Hlt _]. rewrite E in Hlt.
    pose proof (m_kinv _ _ M) as K. apply (k_alloc _ K) in Hi.
    assert (X : al s c = Some None); [|congruence].
    clear -M Hlt. induction M as [|t s s' M IH Hs].
    + unfold al. cbn. rewrite nth_error_map, nth_error_seq_0 by auto. reflexivity.
    + unfold al in *. destruct (nth_error (s_ctxs s) c) as [cx0|] eqn:E0; [|discriminate]. cbn in IH. injection IH as IH.
      assert (Hl : c < length (s_ctxs s)) by (eapply nth_some_lt; eauto).
      destruct Hs; rewrite Ectx; rewrite ?(nth_error_app1 (upd _ _ _)) by (rewrite upd_length; auto); rewrite !nth_upd, ?upd_length;
        repeat match goal with |- context [Nat.eqb ?a ?b] => destruct (Nat.eqb_spec a b) end;
        repeat match goal with |- context [Nat.ltb ?a ?b] => destruct (Nat.ltb_spec a b) end; subst; try lia; rewrite ?E0; cbn [option_map cx_alloc set_frames set_caps]; congruence.
  - rewrite Hh in H. destruct H.
  - destruct (cx_status cx) as [t| | |] eqn:Hst.
    + destruct (m_thread _ _ M) as [T _]. destruct (t_st _ _ T _ _ _ H1 Hst) as [Ht E]. destruct (Hq t Ht) as [_ Hn]. apply (Hn c).
      unfold frames_of. rewrite E, H1. exact H2.
    + assert (X : In (mk_fc d (cx_ver cx)) (handles s)); [|rewrite Hh in X; destruct X].
      apply (C01_ownership _ _ Hr). apply (suspended_vs _ _ (m_vinv _ _ M)). cbn. rewrite (vs_some _ _ _ H1), Hst. reflexivity.
    + pose proof (m_shapes _ _ M _ _ H1) as X. unfold shape in X. rewrite Hst in X. destruct X as [X _]. rewrite X in H2. destruct H2.
    + pose proof (m_shapes _ _ M _ _ H1) as X. unfold shape in X. rewrite Hst in X. destruct X as [X _]. rewrite X in H2. destruct H2.
Qed.
Example C06_example : handles ex4_state = [] /\ In (EvAlloc 2 7) (s_tr ex4_state) /\
  (forall t, t < 2 -> running (s_tr ex4_state) t < 2 /\ forall d, ~ In (FExit d) (frames_of ex4_state (running (s_tr ex4_state) t))).
Proof.
  split; [reflexivity|]. split; [cbn; tauto|]. intros t Ht. destruct t as [|[|t]]; [| |lia]; cbn; split; try lia; intros d [X|[]]; discriminate.
Qed.

(** When a context terminates, its stack is freed before the suspended call it switches to ends. *)
Theorem C06_before_next_call n s new e old t c me to res : reachable n s -> s_tr s = new ++ e :: old ->
  In (EvSwitch t c me to SwExit) old -> completes e = Some (fc_ctx to, res) -> hd_error (open_calls old (fc_ctx to)) = Some to ->
  exists a, hd_error old = Some (EvFree c a (fc_ctx to)).
Proof.
  intros Hr E Hi Hc Ho. destruct (always_prefix _ _ _ _ _ E (C03_completion _ _ Hr)) as [H _].
  destruct (always_prefix _ _ _ _ _ E (C02_one_shot _ _ Hr)) as [_ Hsw].
  unfold completion_rule in H. rewrite Hc in H. destruct H as [h [o [Ho' [_ [t' [from [m' [k [Hi' Hk]]]]]]]]].
  rewrite Ho' in Ho. injection Ho as ->. destruct (consumer_unique _ Hsw _ _ _ _ _ _ _ _ _ Hi Hi') as [_ [<- [_ <-]]]. tauto.
Qed.

(* ================================================================== C07, C09 *)

(** C07: a destructor that unwinds a context continues only after that context has left its stack, all
    objects on it have been destroyed (in reverse order: C08) and the stack has been freed. *)
Theorem C07_unwinds_completely n s new c old : reachable n s -> s_tr s = new ++ EvDestroyed c :: old ->
  exists h t to a, hd_error (open_calls old c) = Some h /\ In (EvSwitch t c h to SwUnwind) old /\
    hd_error old = Some (EvFree (fc_ctx to) a c) /\
    (forall o, In (EvCtor (OnCtx (fc_ctx to)) o) old -> In (EvDtor (OnCtx (fc_ctx to)) o) old).
Proof.
  intros Hr E. destruct (always_prefix _ _ _ _ _ E (C03_completion _ _ Hr)) as [H _].
  destruct (always_prefix _ _ _ _ _ E (m_life _ _ (reach_mreach _ _ Hr))) as [_ HL].
  destruct (always_prefix _ _ _ _ _ E (C08_objects _ _ Hr)) as [_ HO].
  cbn in H. destruct H as [h [o [Ho [[t1 [to1 [k1 [Hi1 Hk1]]]] [t [from [me [k [Hi Hk]]]]]]]]].
  assert (Ek : k1 = SwUnwind) by (apply Hk1; reflexivity). subst k1.
  assert (U : unwinds old h (fc_ctx to1)) by (exists t1, c, to1; auto).
  exists h, t1, to1.
  assert (L : k = SwExit /\ from = fc_ctx to1).
  { apply in_split in Hi. destruct Hi as [l1 [l2 El]].
    pose proof (HL _ _ _ El) as X. cbn in X. destruct X as [_ X]. apply X.
    (* the destructor's switch is older *)
    rewrite El in Hi1. apply in_app_or in Hi1. destruct Hi1 as [Hi1|[Hi1|Hi1]].
    - exfalso. apply in_split in Hi1. destruct Hi1 as [m1 [m2 Em]].
      destruct (always_prefix _ _ _ _ _ E (C02_one_shot _ _ Hr)) as [_ Hsw].
      assert (Ex : old = m1 ++ EvSwitch t1 c h to1 SwUnwind :: (m2 ++ EvSwitch t from me h k :: l2)) by (rewrite El, Em, <- app_assoc; reflexivity).
      destruct (Hsw _ _ _ Ex) as [_ [_ [Hnc _]]]. apply Hnc. exists t, from, me, k. apply in_or_app. right; left; reflexivity.
    - injection Hi1 as -> -> -> <- ->. exfalso. rewrite El in Hk. cbn in Hk. destruct Hk as [Hk _]. discriminate.
    - exists t1, c, to1. auto. }
  destruct L as [-> ->]. destruct Hk as [_ [a Ha]]. exists a. rewrite Ho. repeat split; auto.
  intros ob Hob. destruct old as [|e old']; [discriminate|]. cbn in Ha. injection Ha as ->.
  destruct (HO [] _ _ eq_refl) as [_ X]. destruct Hob as [Hob|Hob]; [discriminate|]. right. apply X. exact Hob.
Qed.
Example C07_example : exists new old, s_tr ex4_state = new ++ EvDestroyed 0 :: old.
Proof. exists [], (tl (s_tr ex4_state)). reflexivity. Qed.

(** C09: if a fiber is asked to unwind before its function was entered, the function is never entered. *)
Theorem C09_never_started n s l s' c : reachable n s -> run s l = Next s' ->
  unwound (s_tr s) c -> ~ entered (s_tr s) c -> ~ entered (s_tr s') c.
Proof.
  intros Hr Hrun U N [r Hi].
  assert (Hr' : reachable n s') by (destruct Hr as [l0 H0]; exists (l0 ++ l); rewrite run_app, H0; exact Hrun).
  destruct (run_grows _ _ _ (reachable_inv _ _ Hr) Hrun) as [es E]. rewrite E in Hi. apply in_app_or in Hi. destruct Hi as [Hi|Hi].
  - apply in_split in Hi. destruct Hi as [a [b Eb]].
    assert (E' : s_tr s' = a ++ EvEnter c r :: (b ++ s_tr s)) by (rewrite E, Eb, <- app_assoc; reflexivity).
    pose proof (m_life _ _ (reach_mreach _ _ Hr') _ _ _ E') as [_ [X _]]. apply X.
    destruct U as [m [t [from [to [H1 H2]]]]]. exists m, t, from, to. split; auto. apply in_or_app; auto.
  - apply N. exists r. exact Hi.
Qed.
(** a fiber is created and destroyed *)
Definition ex5_ops : list (nat * label) :=
  [(0, LUser (UCreate 7 [] true)); (0, LTau); (0, LUser UScope); (0, LTau); (0, LTau)].
Definition ex5_state : state := Eval vm_compute in match run (init 1) ex5_ops with Next s => s | _ => init 0 end.
Example C09_example : reachable 1 ex5_state /\ unwound (s_tr ex5_state) 1 /\ ~ entered (s_tr ex5_state) 1 /\
  firstn 3 (s_tr ex5_state) = [EvDestroyed 0; EvFree 1 7 0; EvRecord 1].
Proof.
  split; [exists ex5_ops; vm_compute; reflexivity|]. split; [|split].
  - exists (mk_fc 0 2), 0, 0, (mk_fc 1 1). split; [cbn; tauto|reflexivity].
  - intros [r H]. cbn in H. repeat (destruct H as [H|H]; [discriminate|]). destruct H.
  - reflexivity.
Qed.

(* ================================================================== C13, C19 *)

(** C13: exceptions that are seen in a context were thrown by code running in it, or are the request to
    unwind that very context. *)
Theorem C13_exceptions_stay n s : reachable n s -> always exn_rule (s_tr s).
Proof. intros Hr. eapply m_exn. apply reach_mreach; eauto. Qed.
Example C13_example : exists new old, s_tr ex3_state = new ++ EvRaised 2 (EUser 5) :: old /\ In (EvThrow 2 5) old.
Proof. exists [], (tl (s_tr ex3_state)). split; [reflexivity|cbn; tauto]. Qed.

(** C19: see [thread_rule]: a context runs on one thread at a time, whichever threads resume it. *)
Theorem C19_threads n s : reachable n s ->
  always (thread_rule n) (s_tr s) /\
  (forall t1 t2, t1 < n -> t2 < n -> running (s_tr s) t1 = running (s_tr s) t2 -> t1 = t2).
Proof.
  intros Hr. destruct (m_thread _ _ (reach_mreach _ _ Hr)) as [T Ha]. split; auto.
  intros t1 t2 H1 H2 E. destruct (t_run _ _ T t1 H1) as [cx1 [G1 G2]]. destruct (t_run _ _ T t2 H2) as [cx2 [G3 G4]].
  rewrite E in G1. congruence.
Qed.
(** the fiber created by thread 0 is resumed by thread 1 *)
Definition ex6_ops : list (nat * label) := ex_ops ++ [(0, LUser (UMoveCtor 2 true)); (1, LUser (UResume 3))].
Definition ex6_state : state := Eval vm_compute in match run (init 2) ex6_ops with Next s => s | _ => init 0 end.
Example C19_example : reachable 2 ex6_state /\ running (s_tr ex6_state) 0 = 0 /\ running (s_tr ex6_state) 1 = 2 /\
  handles ex6_state = [mk_fc 1 1].
Proof. split; [exists ex6_ops; vm_compute; reflexivity|repeat split]. Qed.
