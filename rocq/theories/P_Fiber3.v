(** Single operations on fiber objects: C15 (move, swap), C16 (comparison), C17 (failed allocation),
    C18 (callcc). *)
From Coq Require Import List Arith Bool Lia.
From Verif Require Import ListUtil Fiber FiberInv FiberInv2 FiberInv3 Micro MicroInv FiberSpec TraceInv CallInv CallInv2 StackInv ObjInv ExnInv HistInv HeapInv StepFacts P_Fiber P_Fiber2.
Import ListNotations.

(* ------------------------------------------------------------------ specification *)

(** the fiber objects other than those listed have the same value in s and s' *)
Definition same_fibers_except (s s' : state) (l : list nat) : Prop :=
  forall v, ~ In v l -> get_var s' v = get_var s v.
(** the contexts other than those listed are the same in s and s' *)
Definition same_contexts_except (s s' : state) (l : list nat) : Prop :=
  forall d, ~ In d l -> nth_error (s_ctxs s') d = nth_error (s_ctxs s) d.
(** fiber objects that have not been constructed yet *)
Definition next_fiber (s : state) : nat := length (s_vars s).

(* ------------------------------------------------------------------ facts about variables *)

Lemma get_put_eq s v x b h : get_var s v = Some (b, h) -> get_var (put_var s v x) v = match x with VLive b h => Some (b, h) | VDead => None end.
Proof. intros H. apply get_var_some in H. unfold get_var, put_var. cbn. rewrite nth_upd_lt by (eapply nth_some_lt; eauto). reflexivity. Qed.
Lemma get_put_ne s v w x : v <> w -> get_var (put_var s v x) w = get_var s w.
Proof. intros H. unfold get_var, put_var. cbn. rewrite nth_upd_ne; auto. Qed.
Lemma get_lt s v b h : get_var s v = Some (b, h) -> v < next_fiber s.
Proof. intros H. apply get_var_some in H. unfold next_fiber. eapply nth_some_lt; eauto. Qed.
Lemma get_add_lt s x v : v <> next_fiber s -> get_var (add_var s x) v = get_var s v.
Proof.
  unfold next_fiber. intros H. unfold get_var, add_var. cbn. destruct (Nat.lt_ge_cases v (length (s_vars s))).
  - rewrite nth_error_app1 by auto. reflexivity.
  - rewrite nth_error_app2 by lia. destruct (v - length (s_vars s)) eqn:E; [lia|]. cbn.
    replace (nth_error (s_vars s) v) with (@None var) by (symmetry; apply nth_error_None; auto). destruct n; reflexivity.
Qed.
Lemma get_add_new s x : get_var (add_var s x) (next_fiber s) = match x with VLive b h => Some (b, h) | VDead => None end.
Proof. unfold get_var, add_var, next_fiber. cbn. rewrite nth_app_last. reflexivity. Qed.
Lemma get_new s : get_var s (next_fiber s) = None.
Proof. unfold get_var, next_fiber. rewrite (proj2 (nth_error_None _ _)); auto. Qed.

Lemma ur_step n s t o : reachable n s -> t < n -> user_running s t -> exists cx f rest,
  nth_error (s_ctxs s) (running (s_tr s) t) = Some cx /\ cx_status cx = SRun t /\ cx_frames cx = FU f :: rest /\ uf_mode f = MRun /\
  step s t (LUser o) = user_step s t (running (s_tr s) t) f rest o.
Proof.
  intros Hr Ht [f [rest [H1 H2]]]. destruct (step_frames n s t (LUser o) Hr Ht) as [cx [G1 [G2 [G3 [G4 G5]]]]].
  rewrite G4 in H1. rewrite H1 in G5. exists cx, f, rest. auto.
Qed.

Lemma put_frames_other s c fs : same_contexts_except s (put_frames s c fs) [c].
Proof.
  intros d Hd. unfold put_frames. destruct (nth_error (s_ctxs s) c) as [cx|]; [|reflexivity]. unfold put_ctx. cbn. rewrite nth_upd_ne; auto.
  intros ->. apply Hd. left. reflexivity.
Qed.

Lemma nodup_app {A} (l r : list A) : NoDup (l ++ r) -> NoDup l /\ NoDup r /\ forall x, In x l -> ~ In x r.
Proof.
  induction l as [|a l IH]; cbn; intros H; [repeat split; auto; constructor|]. inversion H as [|? ? H1 H2]; subst.
  destruct (IH H2) as [A1 [A2 A3]]. repeat split; auto.
  - constructor; auto. intros X. apply H1. apply in_or_app; auto.
  - intros x [->|X]; auto. intros Y. apply H1. apply in_or_app; auto.
Qed.
Lemma flat_map_nodup {A B} (f : A -> list B) l : NoDup (flat_map f l) -> forall i j x y h,
  nth_error l i = Some x -> nth_error l j = Some y -> In h (f x) -> In h (f y) -> i = j.
Proof.
  induction l as [|a l IH]; intros Hn i j x y h Hi Hj Hx Hy; [destruct i; discriminate|].
  cbn in Hn. apply nodup_app in Hn. destruct Hn as [Hn1 [Hn2 Hn3]].
  destruct i as [|i], j as [|j]; cbn in Hi, Hj.
  - reflexivity.
  - exfalso. injection Hi as <-. apply (Hn3 h Hx). apply in_flat_map. exists y. split; auto. eapply nth_error_In; eauto.
  - exfalso. injection Hj as <-. apply (Hn3 h Hy). apply in_flat_map. exists x. split; auto. eapply nth_error_In; eauto.
  - f_equal. eapply IH; eauto.
Qed.
Lemma two_vars n s v w bv bw h : reachable n s -> get_var s v = Some (bv, Some h) -> get_var s w = Some (bw, Some h) -> v = w.
Proof.
  intros Hr Hv Hw. destruct (C01_ownership _ _ Hr) as [Hn _]. unfold handles in Hn. apply nodup_app in Hn. destruct Hn as [_ [Hn _]].
  apply get_var_some in Hv, Hw. eapply (flat_map_nodup _ _ Hn); eauto; left; reflexivity.
Qed.
Lemma var_handle s v b h : get_var s v = Some (b, Some h) -> In h (handles s).
Proof.
  intros H. apply get_var_some in H. unfold handles. apply in_or_app. right. apply in_flat_map. eexists. split; [eapply nth_error_In; eauto|left; reflexivity].
Qed.

(* ================================================================== C15 *)

(** Move construction: the source is empty, the new object has its value, nothing else changes; no
    context is resumed. *)
Theorem C15_move_construct n s t src heap b h : reachable n s -> t < n -> user_running s t -> get_var s src = Some (b, h) ->
  exists s', step s t (LUser (UMoveCtor src heap)) = Next s' /\
    get_var s' src = Some (b, None) /\ get_var s' (next_fiber s) = Some (heap, h) /\
    same_fibers_except s s' [src; next_fiber s] /\ same_contexts_except s s' [running (s_tr s) t] /\
    s_tr s' = EvCtor (if heap then OnHeap else OnCtx (running (s_tr s) t)) (OFib (next_fiber s)) :: s_tr s.
Proof.
  intros Hr Ht Hu Hg. destruct (ur_step _ _ _ (UMoveCtor src heap) Hr Ht Hu) as [cx [f [rest [H1 [H2 [H3 [H4 H5]]]]]]].
  rewrite H5. unfold user_step. rewrite H4, Hg. unfold new_fib. set (c := running (s_tr s) t) in *.
  assert (N : src <> next_fiber s) by (apply get_lt in Hg; lia).
  assert (L : next_fiber (put_var s src (VLive b None)) = next_fiber s) by (unfold next_fiber, put_var; cbn; apply upd_length).
  assert (G : forall e fs, let s' := put_frames (emit (add_var (put_var s src (VLive b None)) (VLive heap h)) e) c fs in
    get_var s' src = Some (b, None) /\ get_var s' (next_fiber s) = Some (heap, h) /\
    same_fibers_except s s' [src; next_fiber s] /\ same_contexts_except s s' [c] /\ s_tr s' = e :: s_tr s).
  { intros e fs s'. assert (V : forall v, get_var s' v = get_var (add_var (put_var s src (VLive b None)) (VLive heap h)) v).
    { intros v. apply get_var_vars. unfold s'. rewrite put_frames_vars. reflexivity. }
    repeat split.
    - rewrite V, get_add_lt, (get_put_eq _ _ _ _ _ Hg) by (rewrite L; auto). reflexivity.
    - rewrite V, <- L, get_add_new. reflexivity.
    - intros v Hv. cbn in Hv. rewrite V, get_add_lt, get_put_ne; rewrite ?L; intuition.
    - unfold s'. intros d Hd. rewrite put_frames_other; auto.
    - unfold s'. rewrite put_frames_tr. reflexivity. }
  assert (E : length (s_vars (put_var s src (VLive b None))) = next_fiber s) by exact L. rewrite E.
  destruct heap; eexists; (split; [reflexivity|apply G]).
Qed.

(** Self-move-assignment is a no-op; move assignment to an empty fiber transfers the value. *)
Theorem C15_self_move n s t v b h : reachable n s -> t < n -> user_running s t -> get_var s v = Some (b, h) ->
  step s t (LUser (UMoveAssign v v)) = Next s.
Proof.
  intros Hr Ht Hu Hg. destruct (ur_step _ _ _ (UMoveAssign v v) Hr Ht Hu) as [cx [f [rest [H1 [H2 [H3 [H4 H5]]]]]]].
  rewrite H5. unfold user_step. rewrite H4, Hg, Nat.eqb_refl. reflexivity.
Qed.

Lemma assign_vars s dst src bd bs hd hs : dst <> src -> get_var s dst = Some (bd, hd) -> get_var s src = Some (bs, hs) ->
  let s' := put_var (put_var s src (VLive bs None)) dst (VLive bd hs) in
  get_var s' dst = Some (bd, hs) /\ get_var s' src = Some (bs, None) /\ same_fibers_except s s' [dst; src].
Proof.
  intros N Hd Hs s'. repeat split.
  - unfold s'. erewrite get_put_eq; [reflexivity|]. rewrite get_put_ne; eauto.
  - unfold s'. rewrite get_put_ne by auto. erewrite get_put_eq; eauto. 
  - intros v Hv. cbn in Hv. unfold s'. rewrite !get_put_ne; intuition.
Qed.

Theorem C15_move_assign_empty n s t dst src bd bs hs : reachable n s -> t < n -> user_running s t -> dst <> src ->
  get_var s dst = Some (bd, None) -> get_var s src = Some (bs, hs) ->
  exists s', step s t (LUser (UMoveAssign dst src)) = Next s' /\
    get_var s' dst = Some (bd, hs) /\ get_var s' src = Some (bs, None) /\ same_fibers_except s s' [dst; src] /\
    s_ctxs s' = s_ctxs s /\ s_tr s' = s_tr s.
Proof.
  intros Hr Ht Hu N Hd Hs. destruct (ur_step _ _ _ (UMoveAssign dst src) Hr Ht Hu) as [cx [f [rest [H1 [H2 [H3 [H4 H5]]]]]]].
  rewrite H5. unfold user_step. rewrite H4, Hd, Hs. apply Nat.eqb_neq in N as N'. rewrite N'.
  eexists. split; [reflexivity|]. destruct (assign_vars s dst src bd bs None hs N Hd Hs) as [A [B C]]. auto.
Qed.

(** Move assignment over a fiber that owns context h: the values have been transferred when the switch
    to h happens, h is asked to unwind (C07 says how this goes on), the transferred context stays
    suspended and untouched. *)
Theorem C15_move_assign_unwinds n s t dst src bd bs h hs : reachable n s -> t < n -> user_running s t -> dst <> src ->
  get_var s dst = Some (bd, Some h) -> get_var s src = Some (bs, hs) ->
  exists s' me e, step s t (LUser (UMoveAssign dst src)) = Next s' /\
    get_var s' dst = Some (bd, hs) /\ get_var s' src = Some (bs, None) /\ same_fibers_except s s' [dst; src] /\
    s_tr s' = e :: EvSwitch t (running (s_tr s) t) me h SwUnwind :: s_tr s /\
    (e = EvRaised (fc_ctx h) (EForced me) \/ e = EvDone (fc_ctx h) (Some me)) /\
    same_contexts_except s s' [running (s_tr s) t; fc_ctx h] /\
    (forall h', hs = Some h' -> fc_ctx h' <> fc_ctx h /\ fc_ctx h' <> running (s_tr s) t /\ suspended (s_tr s') h').
Proof.
  intros Hr Ht Hu N Hd Hs. pose proof (reachable_inv _ _ Hr) as I.
  destruct (ur_step _ _ _ (UMoveAssign dst src) Hr Ht Hu) as [cx [f [rest [H1 [H2 [H3 [H4 H5]]]]]]].
  pose proof (get_var_some _ _ _ _ Hd) as Vd.
  set (c := running (s_tr s) t) in *.
  pose proof Vd as Dn. apply var_cnt in Dn. apply inv_denotes in Dn; auto. destruct Dn as [tx [f1 [r1 [T1 [T2 [T3 [T4 [T5 T6]]]]]]]].
  assert (Nc : fc_ctx h <> c) by (intros Q; rewrite Q in T1; congruence).
  destruct (assign_vars s dst src bd bs (Some h) hs N Hd Hs) as [A [B C]].
  assert (Step : exists s' me e, step s t (LUser (UMoveAssign dst src)) = Next s' /\
      s_vars s' = s_vars (put_var (put_var s src (VLive bs None)) dst (VLive bd hs)) /\
      s_tr s' = e :: EvSwitch t c me h SwUnwind :: s_tr s /\
      (e = EvRaised (fc_ctx h) (EForced me) \/ e = EvDone (fc_ctx h) (Some me)) /\ same_contexts_except s s' [c; fc_ctx h]).
  { rewrite H5. unfold user_step. rewrite H4, Hd, Hs. apply Nat.eqb_neq in N as N'. rewrite N'. 
    set (s0 := put_var (put_var s src (VLive bs None)) dst (VLive bd hs)). unfold do_unwind.
    set (s1 := put_frames s0 c (FDtor :: FU f :: rest)).
    assert (C1 : s_ctxs s1 = upd (s_ctxs s) c (set_frames cx (FDtor :: FU f :: rest))).
    { unfold s1. erewrite put_frames_ctxs; [reflexivity|exact H1]. }
    unfold switch. rewrite C1, nth_upd_lt by (eapply nth_some_lt; eauto). rewrite nth_upd_ne, T1, T2, T3, Nat.eqb_refl by auto.
    cbn [set_frames cx_ver cx_frames cx_alloc cx_caps].
    match goal with |- context [raise ?x] => set (s2 := x) end.
    assert (F2 : nth_error (s_ctxs s2) (fc_ctx h) = Some (mk_cx (cx_frames tx) (SRun t) (fc_ver h) (cx_alloc tx) (cx_caps tx))).
    { unfold s2. cbn. rewrite nth_upd_lt by (rewrite !upd_length; eapply nth_some_lt; eauto). reflexivity. }
    assert (F2' : frames_of s2 (fc_ctx h) = f1 :: r1) by (unfold frames_of; rewrite F2; exact T4). rewrite F2'.
    assert (O2 : same_contexts_except s s2 [c; fc_ctx h]).
    { intros d Hnd. cbn in Hnd. unfold s2. cbn. rewrite !nth_upd_ne by intuition. reflexivity. }
    assert (Fin : forall e fs', let s' := put_frames (emit s2 e) (fc_ctx h) fs' in
       s_vars s' = s_vars s0 /\ s_tr s' = e :: EvSwitch t c (mk_fc c (S (cx_ver cx))) h SwUnwind :: s_tr s /\ same_contexts_except s s' [c; fc_ctx h]).
    { intros e fs' s'. unfold s'. rewrite put_frames_vars, put_frames_tr. repeat split.
      - unfold s2. cbn. unfold s1. rewrite put_frames_vars. reflexivity.
      - unfold s2. cbn. unfold s1. rewrite put_frames_tr. reflexivity.
      - intros d Hnd. rewrite put_frames_other; [|cbn in *; tauto]. apply O2. auto. }
    unfold raise.
    destruct f1; try discriminate T5.
    1-2: destruct r1 as [|[] r1]; try (exfalso; rewrite T4 in T6; cbn in T6; tauto).
    1-2: eexists _, (mk_fc c (S (cx_ver cx))), _; split; [reflexivity|]; destruct (Fin (EvRaised (fc_ctx h) (EForced (mk_fc c (S (cx_ver cx))))) (FU (set_mode f0 (MLand (EForced (mk_fc c (S (cx_ver cx)))))) :: r1)) as [X [Y Z]]; split; [exact X|]; split; [exact Y|]; split; [auto|exact Z].
    eexists _, (mk_fc c (S (cx_ver cx))), _; split; [reflexivity|]. destruct (Fin (EvDone (fc_ctx h) (Some (mk_fc c (S (cx_ver cx))))) (FEntry3 (Some (mk_fc c (S (cx_ver cx)))) :: r1)) as [X [Y Z]]; split; [exact X|]; split; [exact Y|]; split; [auto|exact Z]. }
  destruct Step as [s' [me [e [E [V [T [He O]]]]]]]. exists s', me, e. split; [exact E|].
  rewrite !(get_var_vars _ _ _ V). split; [auto|]. split; [auto|]. split; [|split; [auto|split; [auto|split; [auto|]]]]; [|intros h' Eh; split; [|split]].
  - intros v Hv. rewrite (get_var_vars _ _ _ V). apply C. exact Hv.
  - subst hs. intros Q. destruct (C01_handle_targets _ _ _ Hr (var_handle _ _ _ _ Hd)) as [_ [_ [_ X]]].
    pose proof (X _ (var_handle _ _ _ _ Hs) Q). subst h'. apply N. eapply two_vars; eauto.
  - subst hs. intros Q. destruct (C01_handle_targets _ _ _ Hr (var_handle _ _ _ _ Hs)) as [X _]. apply (X t Ht). auto.
  - subst hs. assert (Hr' : reachable n s') by (eapply reach_step; eauto).
    apply (proj2 (C01_ownership _ _ Hr')). apply (var_handle _ dst bd). rewrite (get_var_vars _ _ _ V). exact A.
Qed.

(** swap exchanges the values *)
Theorem C15_swap n s t a b ba bb ha hb : reachable n s -> t < n -> user_running s t ->
  get_var s a = Some (ba, ha) -> get_var s b = Some (bb, hb) ->
  exists s', step s t (LUser (USwap a b)) = Next s' /\
    get_var s' a = Some (ba, hb) /\ get_var s' b = Some (bb, ha) /\ same_fibers_except s s' [a; b] /\
    s_ctxs s' = s_ctxs s /\ s_tr s' = s_tr s.
Proof.
  intros Hr Ht Hu Ha Hb. destruct (ur_step _ _ _ (USwap a b) Hr Ht Hu) as [cx [f [rest [H1 [H2 [H3 [H4 H5]]]]]]].
  rewrite H5. unfold user_step. rewrite H4, Ha, Hb. eexists. split; [reflexivity|].
  destruct (Nat.eqb_spec a b) as [->|N].
  - rewrite Ha in Hb. injection Hb as <- <-. repeat split.
    + erewrite get_put_eq; [reflexivity|]. erewrite get_put_eq; [reflexivity|]. eauto.
    + erewrite get_put_eq; [reflexivity|]. erewrite get_put_eq; [reflexivity|]. eauto.
    + intros v Hv. cbn in Hv. rewrite !get_put_ne; intuition.
  - repeat split.
    + rewrite get_put_ne by auto. erewrite get_put_eq; eauto.
    + erewrite get_put_eq; [reflexivity|]. rewrite get_put_ne by auto. eauto.
    + intros v Hv. cbn in Hv. rewrite !get_put_ne; intuition.
Qed.

(** In [ex5a_state] thread 0 has two fibers: variable 2 owns the suspended context 2, variable 3 owns the
    never-started context 3. All theorems above apply; the move assignment unwinds context 2. *)
Definition ex5a_ops := ex_ops ++ [(0, LUser (UCreate 8 [] true)); (0, LTau)].
Definition ex5a_state : state := Eval vm_compute in match run (init 2) ex5a_ops with Next s => s | _ => init 0 end.
Example C15_example : reachable 2 ex5a_state /\ user_running ex5a_state 0 /\
  get_var ex5a_state 2 = Some (false, Some (mk_fc 2 2)) /\ get_var ex5a_state 3 = Some (false, Some (mk_fc 3 1)) /\
  exists s', step ex5a_state 0 (LUser (UMoveAssign 2 3)) = Next s' /\ get_var s' 2 = Some (false, Some (mk_fc 3 1)) /\
    hd_error (s_tr s') = Some (EvRaised 2 (EForced (mk_fc 0 4))).
Proof.
  split; [exists ex5a_ops; vm_compute; reflexivity|]. split; [eexists _, _; split; vm_compute; reflexivity|].
  split; [reflexivity|]. split; [reflexivity|]. eexists. split; [vm_compute; reflexivity|]. split; reflexivity.
Qed.

(* ================================================================== C16 *)

(** fiber_fcontext.hpp L349-359: operator bool, operator!, operator< compare fctx_ with nullptr (0) and with
    another fctx_; [addr h] is the address that the assembler code stored for suspension h. *)
Definition value (addr : fctx -> nat) (h : hopt) : nat := match h with None => 0 | Some h => addr h end.
Definition op_bool (x : nat) : bool := negb (Nat.eqb x 0).
Definition op_not (x : nat) : bool := Nat.eqb x 0.
Definition op_less (x y : nat) : bool := Nat.ltb x y.

(** Addresses of suspended contexts: the stacks of contexts that have not been freed occupy disjoint
    address ranges that do not contain nullptr, and the fcontext_t of a suspended context points into
    its own stack (C20, C26). *)
Definition placed (s : state) (addr : fctx -> nat) : Prop :=
  exists lo hi : nat -> nat,
    (forall h, suspended (s_tr s) h -> 0 < lo (fc_ctx h) <= addr h /\ addr h < hi (fc_ctx h)) /\
    (forall c d, c <> d -> ~ freed (s_tr s) c -> ~ freed (s_tr s) d -> hi c <= lo d \/ hi d <= lo c).

Theorem C16_bool n s addr v b h : reachable n s -> placed s addr -> get_var s v = Some (b, h) ->
  (op_bool (value addr h) = true <-> exists h', h = Some h' /\ suspended (s_tr s) h') /\
  op_not (value addr h) = negb (op_bool (value addr h)).
Proof.
  intros Hr [lo [hi [P1 _]]] Hv. unfold op_not, op_bool. rewrite negb_involutive. split; [|reflexivity].
  rewrite negb_true_iff, Nat.eqb_neq. destruct h as [h|]; cbn.
  - pose proof (proj1 (proj2 (C01_ownership _ _ Hr) h) (var_handle _ _ _ _ Hv)) as Hs. destruct (P1 _ Hs). split; [eauto|lia].
  - split; [lia|]. intros [h' [Q _]]. discriminate.
Qed.

(** operator< is a strict weak ordering; two fiber objects are equivalent exactly if both are empty or
    they are the same object. *)
Theorem C16_less_order x y z :
  op_less x x = false /\ (op_less x y = true -> op_less y x = false) /\
  (op_less x y = true -> op_less y z = true -> op_less x z = true) /\
  (op_less x y = false -> op_less y x = false -> op_less y z = false -> op_less z y = false -> op_less x z = false /\ op_less z x = false).
Proof. unfold op_less. rewrite ?Nat.ltb_lt, ?Nat.ltb_ge. lia. Qed.

Theorem C16_less_distinct n s addr v w bv bw hv hw : reachable n s -> placed s addr ->
  get_var s v = Some (bv, hv) -> get_var s w = Some (bw, hw) ->
  ((op_less (value addr hv) (value addr hw) = false /\ op_less (value addr hw) (value addr hv) = false) <->
   (v = w \/ hv = None /\ hw = None)).
Proof.
  intros Hr [lo [hi [P1 P2]]] Hv Hw. unfold op_less. rewrite !Nat.ltb_ge.
  assert (S : forall v b h, get_var s v = Some (b, Some h) -> suspended (s_tr s) h /\ ~ freed (s_tr s) (fc_ctx h)).
  { intros v0 b0 h0 Hg. apply var_handle in Hg. split; [apply (proj2 (C01_ownership _ _ Hr)); auto|apply (C01_handle_targets _ _ _ Hr Hg)]. }
  split.
  - intros [L1 L2]. destruct hv as [hv|], hw as [hw|]; cbn in *; auto.
    + destruct (S _ _ _ Hv) as [S1 F1], (S _ _ _ Hw) as [S2 F2]. destruct (P1 _ S1), (P1 _ S2).
      destruct (Nat.eq_dec (fc_ctx hv) (fc_ctx hw)) as [E|N]; [|destruct (P2 _ _ N F1 F2); lia].
      destruct (C01_handle_targets _ _ _ Hr (var_handle _ _ _ _ Hw)) as [_ [_ [_ X]]].
      pose proof (X _ (var_handle _ _ _ _ Hv) E). subst hw. left. eapply two_vars; eauto.
    + destruct (S _ _ _ Hv) as [S1 F1]. destruct (P1 _ S1). lia.
    + destruct (S _ _ _ Hw) as [S1 F1]. destruct (P1 _ S1). lia.
  - intros [->|[-> ->]]; [|cbn; lia]. rewrite Hv in Hw. injection Hw as <- <-. lia.
Qed.
Lemma suspended_live n s h : reachable n s -> suspended (s_tr s) h -> In h (handles s).
Proof. intros Hr H. apply (proj2 (C01_ownership _ _ Hr)). exact H. Qed.
Example C16_example : exists addr, placed ex5a_state addr /\ addr (mk_fc 2 2) <> addr (mk_fc 3 1).
Proof.
  exists (fun h => 1000 * fc_ctx h + 500). split; [|vm_compute; discriminate].
  exists (fun c => 1000 * c + 1), (fun c => 1000 * c + 1000). split; [intros; lia|]. intros c d N _ _. lia.
Qed.

(* ================================================================== C17 *)

(** If allocate() throws, the exception arrives in the caller of the constructor; nothing else has
    happened: no allocation, no object constructed or destroyed, no fiber object or context changed. *)
Theorem C17_failed_allocation n s t a caps : reachable n s -> t < n -> user_running s t ->
  exists s' cx f rest, step s t (LUser (UCreate a caps false)) = Next s' /\
    s_tr s' = EvThrow (running (s_tr s) t) 0 :: s_tr s /\ s_vars s' = s_vars s /\ length (s_ctxs s') = length (s_ctxs s) /\
    same_contexts_except s s' [running (s_tr s) t] /\
    nth_error (s_ctxs s) (running (s_tr s) t) = Some cx /\ cx_frames cx = FU f :: rest /\ uf_mode f = MRun /\
    nth_error (s_ctxs s') (running (s_tr s) t) = Some (set_frames cx (FU (set_mode f (MLand (EUser 0))) :: rest)).
Proof.
  intros Hr Ht Hu. destruct (ur_step _ _ _ (UCreate a caps false) Hr Ht Hu) as [cx [f [rest [H1 [H2 [H3 [H4 H5]]]]]]].
  rewrite H5. unfold user_step. rewrite H4. eexists _, cx, f, rest. split; [reflexivity|].
  rewrite put_frames_tr, put_frames_vars. erewrite put_frames_ctxs by exact H1. cbn [emit s_ctxs]. rewrite upd_length. repeat split; auto.
  - intros d Hd. rewrite put_frames_other; auto.
  - rewrite nth_upd_lt by (eapply nth_some_lt; eauto). reflexivity.
Qed.
(** consequently stacks and handles are what they were *)
Theorem C17_nothing_lost n s t a caps s' : reachable n s -> step s t (LUser (UCreate a caps false)) = Next s' ->
  (forall h, In h (handles s') <-> In h (handles s)) /\ (forall c a', In (EvAlloc c a') (s_tr s') <-> In (EvAlloc c a') (s_tr s)) /\
  (forall p o, In (EvCtor p o) (s_tr s') <-> In (EvCtor p o) (s_tr s)) /\ (forall p o, In (EvDtor p o) (s_tr s') <-> In (EvDtor p o) (s_tr s)).
Proof.
  intros Hr E. assert (T : s_tr s' = EvThrow (running (s_tr s) t) 0 :: s_tr s).
  { destruct (step_running _ _ _ _ _ Hr E) as [Ht Hth]. destruct (step_frames n s t (LUser (UCreate a caps false)) Hr Ht) as [cx [G1 [G2 [G3 [G4 G5]]]]].
    rewrite G5 in E. destruct (cx_frames cx) as [|[] rest]; try discriminate. unfold user_step in E. destruct (uf_mode f); try discriminate.
    injection E as <-. rewrite put_frames_tr. reflexivity. }
  assert (G : forall (P : Prop), P <-> P) by tauto. rewrite T.
  repeat split; try (intros [Q|Q]; [discriminate|exact Q]); try (right; assumption).
  - intros Hi. apply (C01_ownership _ _ (reach_step _ _ _ _ _ Hr E)) in Hi. rewrite T in Hi. apply (C01_ownership _ _ Hr).
    destruct Hi as [[t1 [c1 [h1 [k1 [[Q|Q] R]]]]] Hc]; [discriminate|]. split; [exists t1, c1, h1, k1; auto|].
    intros [t2 [c2 [m2 [k2 Q2]]]]. apply Hc. exists t2, c2, m2, k2. right; auto.
  - intros Hi. apply (C01_ownership _ _ Hr) in Hi. apply (C01_ownership _ _ (reach_step _ _ _ _ _ Hr E)). rewrite T.
    destruct Hi as [[t1 [c1 [h1 [k1 [Q R]]]]] Hc]. split; [exists t1, c1, h1, k1; split; auto; right; auto|].
    intros [t2 [c2 [m2 [k2 [Q2|Q2]]]]]; [discriminate|]. apply Hc. exists t2, c2, m2, k2. auto.
Qed.
Example C17_example : user_running ex_state 0 /\ exists s', step ex_state 0 (LUser (UCreate 3 [CapFib 2; CapUsr] false)) = Next s' /\
  get_var s' 2 = Some (false, Some (mk_fc 2 2)) /\ hd_error (s_tr s') = Some (EvThrow 0 0).
Proof. split; [eexists _, _; split; vm_compute; reflexivity|]. eexists. split; [vm_compute; reflexivity|]. split; reflexivity. Qed.

(* ================================================================== C18 *)

(** continuation_fcontext.hpp L388-405: callcc( fn) creates the context and resumes the temporary *)
Definition callcc (s : state) (t a : nat) (caps : list cap) : outcome :=
  match run s [(t, LUser (UCreate a caps true)); (t, LTau)] with
  | Next s1 => match tmp_of s1 t with Some v => step s1 t (LUser (UResume v)) | None => UB end
  | o => o
  end.

Lemma upd_upd {A} (l : list A) n x y : upd (upd l n x) n y = upd l n y.
Proof. revert n; induction l; intros [|n]; cbn; f_equal; auto. Qed.
Lemma nth_ua_c {A} (l : list A) c x y : c < length l -> nth_error (upd l c x ++ [y]) c = Some x.
Proof. intros H. rewrite nth_error_app1 by (rewrite upd_length; auto). apply nth_upd_lt; auto. Qed.
Lemma nth_ua_last {A} (l : list A) c x y : nth_error (upd l c x ++ [y]) (length l) = Some y.
Proof. rewrite <- (upd_length l c x). apply nth_app_last. Qed.
Lemma upd_ua_c {A} (l : list A) c x x' y : c < length l -> upd (upd l c x ++ [y]) c x' = upd l c x' ++ [y].
Proof. revert c; induction l; intros [|c] H; cbn in *; try lia; auto. f_equal. apply IHl; lia. Qed.
Lemma upd_ua_last {A} (l : list A) c x y y' : upd (upd l c x ++ [y]) (length l) y' = upd l c x ++ [y'].
Proof. revert c; induction l; intros [|c]; cbn; auto; f_equal; auto. clear. induction l; cbn; f_equal; auto. Qed.

Definition ctor_on (d : nat) (e : event) : Prop := exists o, e = EvCtor (OnCtx d) o.
Lemma caps_ok l : forall s d acc, (forall v, In (CapFib v) l -> exists b h, get_var s v = Some (b, h)) ->
  exists s1 r es, do_caps s d l acc = Some (s1, r) /\ s_ctxs s1 = s_ctxs s /\ s_thr s1 = s_thr s /\ s_tr s1 = es ++ s_tr s /\ Forall (ctor_on d) es.
Proof.
  induction l as [|[v|] l IH]; intros s d acc Hl; cbn.
  - exists s, acc, []. repeat split; auto.
  - destruct (Hl v (or_introl eq_refl)) as [b [h Hv]]. rewrite Hv.
    edestruct IH with (s := emit (add_var (put_var s v (VLive b None)) (VLive false h)) (EvCtor (OnCtx d) (OFib (length (s_vars s)))))
      as [s1 [r [es [E [E1 [E2 [E3 E4]]]]]]].
    + intros v' Hi. assert (v' < next_fiber s) by (destruct (Hl v' (or_intror Hi)) as [b' [h' X]]; eapply get_lt; eauto).
      assert (E : get_var (emit (add_var (put_var s v (VLive b None)) (VLive false h)) (EvCtor (OnCtx d) (OFib (length (s_vars s))))) v' = get_var (put_var s v (VLive b None)) v').
      { erewrite get_var_vars; [apply get_add_lt|reflexivity]. unfold next_fiber in *. cbn. rewrite upd_length. lia. }
      rewrite E. destruct (Nat.eq_dec v v') as [<-|N]; [erewrite get_put_eq by eauto; eauto|rewrite get_put_ne by auto]. apply Hl. right; auto.
    + exists s1, r, (es ++ [EvCtor (OnCtx d) (OFib (length (s_vars s)))]). rewrite E, E3, <- app_assoc. repeat split; auto.
      apply Forall_app. split; auto. constructor; auto. eexists; reflexivity.
  - edestruct IH as [s1 [r [es [E [E1 [E2 [E3 E4]]]]]]]; [|rewrite E].
    + intros v' Hi. apply Hl. right; auto.
    + exists s1, r, (es ++ [EvCtor (OnCtx d) (OUsr (s_nusr s))]). rewrite E3, <- app_assoc. repeat split; auto.
      apply Forall_app. split; auto. constructor; auto. eexists; reflexivity.
Qed.

(** callcc: a new context d is allocated, the function object is moved there, and its function is entered
    with the caller's continuation [me] as argument; the caller is suspended in callcc; thread t executes
    d; all other contexts are untouched. [callcc] returns when the suspension [me] is continued: it is
    the caller's innermost suspended call, so C03_returns applies to it. *)
Theorem C18_callcc n s t a caps : reachable n s -> t < n -> user_running s t ->
  (forall v, In (CapFib v) caps -> exists b h, get_var s v = Some (b, h)) ->
  exists s' me es, callcc s t a caps = Next s' /\
    let c := running (s_tr s) t in let d := length (s_ctxs s) in
    s_tr s' = es ++ EvAlloc d a :: s_tr s /\
    (exists v es', es = EvCtor (OnCtx d) (OFib v) :: EvEnter d (Some me) :: es' /\ get_var s' v = Some (false, Some me) /\
      forall e, In e es' -> is_switch e = true \/ (exists o, e = EvCtor (OnCtx d) o) \/ (exists h, e = EvResumed c (Some h) /\ fc_ctx h = d) \/ (exists o, e = EvCtor (OnCtx c) o)) /\
    fc_ctx me = c /\ suspended (s_tr s') me /\ running (s_tr s') t = d /\
    open_calls (s_tr s') c = me :: open_calls (s_tr s) c /\
    same_contexts_except s s' [c; d].
Proof.
  intros Hr Ht Hu Hl. destruct (ur_step _ _ _ (UCreate a caps true) Hr Ht Hu) as [cx [f [rest [H1 [H2 [H3 [H4 H5]]]]]]].
  set (c := running (s_tr s) t) in *.
  destruct (m_thread _ _ (reach_mreach _ _ Hr)) as [T _]. assert (Hth : nth_error (s_thr s) t = Some c) by (apply (t_thr _ _ T); auto).
  assert (Lt : t < length (s_thr s)) by (eapply nth_some_lt; eauto). assert (Lc : c < length (s_ctxs s)) by (eapply nth_some_lt; eauto).
  destruct (caps_ok caps (emit s (EvAlloc (length (s_ctxs s)) a)) (length (s_ctxs s)) [] Hl) as [s1 [r [es [E [E1 [E2 [E3 E4]]]]]]].
  cbn [emit s_ctxs s_thr s_tr] in E1, E2, E3.
  set (d := length (s_ctxs s)) in *.
  set (V := cx_ver cx).
  (* step 1 *)
  assert (S1 : step s t (LUser (UCreate a caps true)) = Next
     (mk_s (upd (s_ctxs s) c (mk_cx (FCreate :: FU f :: rest) SSusp (S V) (cx_alloc cx) (cx_caps cx)) ++ [mk_cx [FEntry0 (mk_fc c (S V))] (SRun t) 0 (Some a) r])
        (s_vars s1) (upd (s_thr s) t d) (s_nusr s1) (EvSwitch t c (mk_fc c (S V)) (mk_fc d 0) SwCreate :: es ++ EvAlloc d a :: s_tr s))).
  { rewrite H5. unfold user_step. rewrite H4. unfold do_create. fold d. rewrite E, E1, E2, E3, H1. reflexivity. }
  set (v0 := length (s_vars s1)).
  assert (S2 : step (mk_s (upd (s_ctxs s) c (mk_cx (FCreate :: FU f :: rest) SSusp (S V) (cx_alloc cx) (cx_caps cx)) ++ [mk_cx [FEntry0 (mk_fc c (S V))] (SRun t) 0 (Some a) r])
        (s_vars s1) (upd (s_thr s) t d) (s_nusr s1) (EvSwitch t c (mk_fc c (S V)) (mk_fc d 0) SwCreate :: es ++ EvAlloc d a :: s_tr s)) t LTau = Next
     (mk_s (upd (s_ctxs s) c (mk_cx (FU (set_objs f (OFib v0 :: uf_objs f)) :: rest) (SRun t) (S V) (cx_alloc cx) (cx_caps cx)) ++ [mk_cx [FEntry1] SSusp 1 (Some a) r])
        (s_vars s1 ++ [VLive false (Some (mk_fc d 1))]) (upd (s_thr s) t c) (s_nusr s1)
        (EvCtor (OnCtx c) (OFib v0) :: EvResumed c (Some (mk_fc d 1)) :: EvSwitch t d (mk_fc d 1) (mk_fc c (S V)) SwJump :: 
         EvSwitch t c (mk_fc c (S V)) (mk_fc d 0) SwCreate :: es ++ EvAlloc d a :: s_tr s))).
  { unfold step. cbn [s_thr s_ctxs]. rewrite nth_upd_lt by auto. unfold d at 1. rewrite nth_ua_last. cbn [cx_frames tau_step].
    unfold do_jump, put_frames, put_ctx, switch, frames_of, set_frames. cbn [s_ctxs s_thr s_vars s_nusr s_tr].
    unfold d. repeat (first [rewrite nth_ua_last|rewrite nth_ua_c by auto|rewrite upd_ua_c by auto|rewrite upd_ua_last]; cbn [fc_ctx fc_ver s_ctxs s_thr s_vars s_nusr s_tr cx_status cx_ver cx_frames cx_alloc cx_caps]).
    rewrite Nat.eqb_refl. cbn [fc_ctx fc_ver s_ctxs s_thr s_vars s_nusr s_tr cx_status cx_ver cx_frames cx_alloc cx_caps].
    repeat (first [rewrite nth_ua_last|rewrite nth_ua_c by auto|rewrite upd_ua_c by auto|rewrite upd_ua_last]; cbn [fc_ctx fc_ver s_ctxs s_thr s_vars s_nusr s_tr cx_status cx_ver cx_frames cx_alloc cx_caps]).
    unfold deliver, put_frames, put_ctx, emit, add_var, set_frames. cbn [fc_ctx fc_ver s_ctxs s_thr s_vars s_nusr s_tr cx_status cx_ver cx_frames cx_alloc cx_caps].
    repeat (first [rewrite nth_ua_last|rewrite nth_ua_c by auto|rewrite upd_ua_c by auto|rewrite upd_ua_last]; cbn [fc_ctx fc_ver s_ctxs s_thr s_vars s_nusr s_tr cx_status cx_ver cx_frames cx_alloc cx_caps]).
    rewrite upd_upd. reflexivity. }
  set (s2 := mk_s (upd (s_ctxs s) c (mk_cx (FU (set_objs f (OFib v0 :: uf_objs f)) :: rest) (SRun t) (S V) (cx_alloc cx) (cx_caps cx)) ++ [mk_cx [FEntry1] SSusp 1 (Some a) r])
        (s_vars s1 ++ [VLive false (Some (mk_fc d 1))]) (upd (s_thr s) t c) (s_nusr s1)
        (EvCtor (OnCtx c) (OFib v0) :: EvResumed c (Some (mk_fc d 1)) :: EvSwitch t d (mk_fc d 1) (mk_fc c (S V)) SwJump :: 
         EvSwitch t c (mk_fc c (S V)) (mk_fc d 0) SwCreate :: es ++ EvAlloc d a :: s_tr s)) in *.
  assert (Tmp : tmp_of s2 t = Some v0).
  { unfold tmp_of, s2, frames_of. cbn [s_thr s_ctxs]. rewrite nth_upd_lt by auto. rewrite nth_ua_c by auto. reflexivity. }
  assert (G2 : get_var s2 v0 = Some (false, Some (mk_fc d 1))).
  { unfold get_var, s2. cbn [s_vars]. unfold v0. rewrite nth_app_last. reflexivity. }
  set (me := mk_fc c (S (S V))). set (v1 := S v0).
  assert (S3 : step s2 t (LUser (UResume v0)) = Next
     (mk_s (upd (s_ctxs s) c (mk_cx (FResume :: FU (set_objs f (OFib v0 :: uf_objs f)) :: rest) SSusp (S (S V)) (cx_alloc cx) (cx_caps cx)) ++
              [mk_cx [FU (mk_uf KCtx [OFib v1] MRun None); FEntry2] (SRun t) 1 (Some a) r])
        (s_vars s1 ++ [VLive false None; VLive false (Some me)]) (upd (s_thr s) t d) (s_nusr s1)
        (EvCtor (OnCtx d) (OFib v1) :: EvEnter d (Some me) :: EvSwitch t c me (mk_fc d 1) SwJump :: s_tr s2))).
  { assert (Q1 : nth_error (s_thr s2) t = Some c) by (unfold s2; cbn [s_thr]; apply nth_upd_lt; auto).
    assert (Q2 : nth_error (s_ctxs s2) c = Some (mk_cx (FU (set_objs f (OFib v0 :: uf_objs f)) :: rest) (SRun t) (S V) (cx_alloc cx) (cx_caps cx))) by (unfold s2; cbn [s_ctxs]; apply nth_ua_c; auto).
    unfold step. rewrite Q1, Q2. cbn [cx_frames]. unfold user_step. cbn [set_objs uf_mode]. rewrite H4, G2. unfold s2.
    unfold do_jump, put_frames, put_ctx, put_var, switch, frames_of, set_frames. cbn [s_ctxs s_thr s_vars s_nusr s_tr].
    unfold d. repeat (first [rewrite nth_ua_last|rewrite nth_ua_c by auto|rewrite upd_ua_c by auto|rewrite upd_ua_last]; cbn [fc_ctx fc_ver s_ctxs s_thr s_vars s_nusr s_tr cx_status cx_ver cx_frames cx_alloc cx_caps]).
    rewrite Nat.eqb_refl. cbn [fc_ctx fc_ver s_ctxs s_thr s_vars s_nusr s_tr cx_status cx_ver cx_frames cx_alloc cx_caps].
    repeat (first [rewrite nth_ua_last|rewrite nth_ua_c by auto|rewrite upd_ua_c by auto|rewrite upd_ua_last]; cbn [fc_ctx fc_ver s_ctxs s_thr s_vars s_nusr s_tr cx_status cx_ver cx_frames cx_alloc cx_caps]).
    unfold deliver, put_frames, put_ctx, emit, add_var, set_frames. cbn [fc_ctx fc_ver s_ctxs s_thr s_vars s_nusr s_tr cx_status cx_ver cx_frames cx_alloc cx_caps].
    repeat (first [rewrite nth_ua_last|rewrite nth_ua_c by auto|rewrite upd_ua_c by auto|rewrite upd_ua_last]; cbn [fc_ctx fc_ver s_ctxs s_thr s_vars s_nusr s_tr cx_status cx_ver cx_frames cx_alloc cx_caps]).
    rewrite upd_upd. assert (Ev : upd (s_vars s1 ++ [VLive false (Some (mk_fc (length (s_ctxs s)) 1))]) v0 (VLive false None) = s_vars s1 ++ [VLive false None]).
    { unfold v0. clear. induction (s_vars s1); cbn; f_equal; auto. }
    rewrite Ev. assert (El : length (s_vars s1 ++ [VLive false None]) = v1) by (rewrite app_length; cbn; unfold v1, v0; lia). rewrite El.
    rewrite <- app_assoc. reflexivity. }
  eexists _, me, _. split; [|split].
  - unfold callcc. cbn [run]. rewrite S1, S2, Tmp. exact S3.
  - cbn [s_tr s2]. rewrite !app_comm_cons. reflexivity.
  - split; [|split; [reflexivity|split; [|split; [|split]]]].
    + exists v1. eexists. split; [reflexivity|]. split.
      * unfold get_var. cbn [s_vars]. rewrite nth_error_app2 by (unfold v1, v0; lia). replace (v1 - length (s_vars s1)) with 1 by (unfold v1, v0; lia). reflexivity.
      * intros e [<-|Hi]; [left; reflexivity|]. cbn in Hi. destruct Hi as [<-|[<-|[<-|[<-|Hi]]]]; eauto 8.
        rewrite Forall_forall in E4. right; left. apply E4. exact Hi.
    + assert (R' : reachable n (mk_s (upd (s_ctxs s) c (mk_cx (FResume :: FU (set_objs f (OFib v0 :: uf_objs f)) :: rest) SSusp (S (S V)) (cx_alloc cx) (cx_caps cx)) ++
              [mk_cx [FU (mk_uf KCtx [OFib v1] MRun None); FEntry2] (SRun t) 1 (Some a) r])
        (s_vars s1 ++ [VLive false None; VLive false (Some me)]) (upd (s_thr s) t d) (s_nusr s1)
        (EvCtor (OnCtx d) (OFib v1) :: EvEnter d (Some me) :: EvSwitch t c me (mk_fc d 1) SwJump :: s_tr s2))).
      { eapply reach_step; [|exact S3]. eapply reach_step; [|exact S2]. eapply reach_step; [|exact S1]. exact Hr. }
      apply (susp_nth n _ me R'). cbn [s_ctxs fc_ctx me]. rewrite nth_ua_c by auto. eexists. split; [reflexivity|]. split; reflexivity.
    + cbn. rewrite Nat.eqb_refl. reflexivity.
    + cbn. assert (Nd : Nat.eqb d c = false) by (apply Nat.eqb_neq; unfold d; lia). rewrite !Nat.eqb_refl, Nd. cbn. f_equal.
      clear - E4. induction E4 as [|e es [o ->] _ IH]; cbn; auto.
    + intros e He. cbn in He. cbn [s_ctxs]. destruct (Nat.lt_ge_cases e d).
      * rewrite nth_error_app1 by (rewrite upd_length; auto). rewrite nth_upd_ne; intuition.
      * rewrite nth_error_app2 by (rewrite upd_length; auto). rewrite upd_length. fold d. destruct (e - d) eqn:Q; [lia|].
        destruct n0; cbn; symmetry; apply nth_error_None; auto.
Qed.
Example C18_example : user_running ex_state 0 /\ exists s', callcc ex_state 0 4 [CapFib 2; CapUsr] = Next s' /\
  hd_error (skipn 1 (s_tr s')) = Some (EvEnter 3 (Some (mk_fc 0 4))).
Proof. split; [eexists _, _; split; vm_compute; reflexivity|]. eexists. split; [vm_compute; reflexivity|]. reflexivity. Qed.
