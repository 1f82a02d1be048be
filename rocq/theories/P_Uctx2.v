(** * fiber_ucontext: objects, results and exceptions; the single operations on fibers

    Theorems about the machine of Uctx.v.  The first part is about calm histories (UctxSpec.v); the
    theorems about single operations hold in every state. *)
From Coq Require Import List Arith Bool Lia.
From Verif Require Import ListUtil Uctx UctxSpec UctxInv UctxInv2 UctxInv3 UctxInv4 UctxInv5 UctxInv6 UctxInv7 UctxInj UctxObj UctxObj2 UctxObj3 P_Uctx.
Import ListNotations.

(* ------------------------------------------------------------------ histories *)

(** C46: see [object_rule]. *)
Theorem C46_objects_partial n l s : run (init n) l = Next s -> calm (s_tr s) -> always object_rule (s_tr s).
Proof.
  intros H Hc. destruct (calm_k n l s H Hc) as [_ K]. apply object_of_base. eapply always_impl; [|exact (k_rule _ K)]. intros e old [A _]. exact A.
Qed.
(** C46: see [result_rule]. *)
Theorem C46_results_partial n l s : run (init n) l = Next s -> calm (s_tr s) -> always result_rule (s_tr s).
Proof.
  intros H Hc. destruct (calm_k n l s H Hc) as [_ K]. eapply always_impl; [|exact (k_rule _ K)]. intros e old (_ & A & _). exact A.
Qed.
(** C46: see [exn_rule]. *)
Theorem C46_exceptions_partial n l s : run (init n) l = Next s -> calm (s_tr s) -> always exn_rule (s_tr s).
Proof.
  intros H Hc. destruct (calm_k n l s H Hc) as [_ K]. eapply always_impl; [|exact (k_rule _ K)]. intros e old (_ & _ & A). exact A.
Qed.

(* ------------------------------------------------------------------ specification *)

(** thread t executes user code of context c, which is about to perform its next operation *)
Definition user_on (s : state) (t c : nat) : Prop :=
  nth_error (s_thr s) t = Some c /\ exists x f rest, nth_error (s_rec s) c = Some x /\ r_frames x = FU f :: rest /\ uf_mode f = MRun.

(** the fiber objects other than those listed have the same value in s and s' *)
Definition same_fibers_except (s s' : state) (l : list nat) : Prop :=
  forall v, ~ In v l -> get_var s' v = get_var s v.
(** the records other than those listed are the same in s and s' *)
Definition same_records_except (s s' : state) (l : list nat) : Prop :=
  forall d, ~ In d l -> nth_error (s_rec s') d = nth_error (s_rec s) d.
Definition next_fiber (s : state) : nat := length (s_vars s).
Definition next_context (s : state) : nat := length (s_rec s).

(* ------------------------------------------------------------------ facts about variables *)

Lemma get_put_eq s v x b h : get_var s v = Some (b, h) -> get_var (put_var s v x) v = match x with VLive b h => Some (b, h) | VDead => None end.
Proof. intros H. apply get_var_some in H. unfold get_var, put_var. cbn. rewrite nth_upd_lt by (eapply nth_some_lt; eauto). reflexivity. Qed.
Lemma get_put_ne s v w x : v <> w -> get_var (put_var s v x) w = get_var s w.
Proof. intros H. unfold get_var, put_var. cbn. rewrite nth_upd_ne; auto. Qed.
Lemma get_lt s v b h : get_var s v = Some (b, h) -> v < next_fiber s.
Proof. intros H. apply get_var_some in H. unfold next_fiber. eapply nth_some_lt; eauto. Qed.
Lemma get_add_lt s x v : v <> next_fiber s -> get_var (add_var s x) v = get_var s v.
Proof.
  unfold next_fiber. intros H. unfold get_var, add_var. cbn. destruct (Nat.lt_ge_cases v (length (s_vars s))).
  - rewrite nth_error_app1 by auto. reflexivity.
  - rewrite nth_error_app2 by lia. destruct (v - length (s_vars s)) eqn:E; [lia|]. cbn.
    replace (nth_error (s_vars s) v) with (@None var) by (symmetry; apply nth_error_None; auto). destruct n; reflexivity.
Qed.
Lemma get_add_new s x : get_var (add_var s x) (next_fiber s) = match x with VLive b h => Some (b, h) | VDead => None end.
Proof. unfold get_var, add_var, next_fiber. cbn. rewrite nth_app_last. reflexivity. Qed.
Lemma get_var_vars s s' v : s_vars s' = s_vars s -> get_var s' v = get_var s v.
Proof. unfold get_var. intros ->. reflexivity. Qed.
Lemma put_frames_vars s c fs : s_vars (put_frames s c fs) = s_vars s.
Proof. unfold put_frames. destruct (nth_error (s_rec s) c); reflexivity. Qed.

Lemma put_frames_thr' s c fs : s_thr (put_frames s c fs) = s_thr s.
Proof. unfold put_frames. destruct (nth_error (s_rec s) c); reflexivity. Qed.

Lemma user_on_step s t c o : user_on s t c -> exists x f rest, nth_error (s_thr s) t = Some c /\ nth_error (s_rec s) c = Some x /\
  r_frames x = FU f :: rest /\ uf_mode f = MRun /\ step s t (LUser o) = user_step s t c f rest o.
Proof. intros [H (x & f & rest & H1 & H2 & H3)]. exists x, f, rest. unfold step. rewrite H, H1, H2. auto 10. Qed.
Lemma put_frames_other s c fs : same_records_except s (put_frames s c fs) [c].
Proof.
  intros d Hd. unfold put_frames. destruct (nth_error (s_rec s) c) as [cx|]; [|reflexivity]. cbn. rewrite nth_upd_ne; auto.
  intros ->. apply Hd. left. reflexivity.
Qed.

(* ------------------------------------------------------------------ C45: fibers are values *)

(** Move construction, L471-473. *)
Theorem C45_move_construct s t c src heap b h : user_on s t c -> get_var s src = Some (b, h) ->
  exists s', step s t (LUser (UMoveCtor src heap)) = Next s' /\
    get_var s' src = Some (b, None) /\ get_var s' (next_fiber s) = Some (heap, h) /\
    same_fibers_except s s' [src; next_fiber s] /\ same_records_except s s' [c] /\ s_thr s' = s_thr s /\
    s_tr s' = EvCtor (if heap then OnHeap else OnCtx c) (OFib (next_fiber s)) :: s_tr s.
Proof.
  intros Hu Hg. destruct (user_on_step s t c (UMoveCtor src heap) Hu) as (x & f & rest & H0 & H1 & H2 & H3 & ->).
  unfold user_step. rewrite H3, Hg. unfold new_fib.
  assert (N : src <> next_fiber s) by (apply get_lt in Hg; lia).
  assert (L : next_fiber (put_var s src (VLive b None)) = next_fiber s) by (unfold next_fiber, put_var; cbn; apply upd_length).
  assert (G : forall e fs, let s' := put_frames (emit (add_var (put_var s src (VLive b None)) (VLive heap h)) e) c fs in
    get_var s' src = Some (b, None) /\ get_var s' (next_fiber s) = Some (heap, h) /\
    same_fibers_except s s' [src; next_fiber s] /\ same_records_except s s' [c] /\ s_thr s' = s_thr s /\ s_tr s' = e :: s_tr s).
  { intros e fs s'. assert (V : forall v, get_var s' v = get_var (add_var (put_var s src (VLive b None)) (VLive heap h)) v).
    { intros v. apply get_var_vars. unfold s'. rewrite put_frames_vars. reflexivity. }
    split; [|split; [|split; [|split; [|split]]]].
    - rewrite V, get_add_lt, (get_put_eq _ _ _ _ _ Hg) by (rewrite L; auto). reflexivity.
    - rewrite V, <- L, get_add_new. reflexivity.
    - intros v Hv. cbn in Hv. rewrite V, get_add_lt, get_put_ne; rewrite ?L; intuition.
    - unfold s'. intros d Hd. rewrite put_frames_other; auto.
    - unfold s'. rewrite put_frames_thr'. reflexivity.
    - unfold s'. rewrite put_frames_tr. reflexivity. }
  assert (E : length (s_vars (put_var s src (VLive b None))) = next_fiber s) by exact L. rewrite E.
  destruct heap; eexists; (split; [reflexivity|apply G]).
Qed.

(** Self-move-assignment, L475-481: nothing happens. *)
Theorem C45_self_move s t c v b h : user_on s t c -> get_var s v = Some (b, h) -> step s t (LUser (UMoveAssign v v)) = Next s.
Proof.
  intros Hu Hg. destruct (user_on_step s t c (UMoveAssign v v) Hu) as (x & f & rest & H0 & H1 & H2 & H3 & ->).
  unfold user_step. rewrite H3, Hg, Nat.eqb_refl. reflexivity.
Qed.

(** swap, L557-559 *)
Theorem C45_swap s t c a b ba bb ha hb : user_on s t c -> get_var s a = Some (ba, ha) -> get_var s b = Some (bb, hb) ->
  exists s', step s t (LUser (USwap a b)) = Next s' /\
    get_var s' a = Some (ba, hb) /\ get_var s' b = Some (bb, ha) /\ same_fibers_except s s' [a; b] /\
    s_rec s' = s_rec s /\ s_thr s' = s_thr s /\ s_tr s' = s_tr s.
Proof.
  intros Hu Ha Hb. destruct (user_on_step s t c (USwap a b) Hu) as (x & f & rest & H0 & H1 & H2 & H3 & ->).
  unfold user_step. rewrite H3, Ha, Hb. eexists. split; [reflexivity|].
  destruct (Nat.eqb_spec a b) as [->|N].
  - rewrite Ha in Hb. injection Hb as <- <-. repeat split.
    + erewrite get_put_eq; [reflexivity|]. erewrite get_put_eq; [reflexivity|]. eauto.
    + erewrite get_put_eq; [reflexivity|]. erewrite get_put_eq; [reflexivity|]. eauto.
    + intros v Hv. cbn in Hv. rewrite !get_put_ne; intuition.
  - repeat split.
    + rewrite get_put_ne by auto. erewrite get_put_eq; eauto.
    + erewrite get_put_eq; [reflexivity|]. rewrite get_put_ne by auto. eauto.
    + intros v Hv. cbn in Hv. rewrite !get_put_ne; intuition.
Qed.

Lemma assign_vars s dst src bd bs hd hs : dst <> src -> get_var s dst = Some (bd, hd) -> get_var s src = Some (bs, hs) ->
  let s' := put_var (put_var s src (VLive bs None)) dst (VLive bd hs) in
  get_var s' dst = Some (bd, hs) /\ get_var s' src = Some (bs, None) /\ same_fibers_except s s' [dst; src].
Proof.
  intros N Hd Hs s'. repeat split.
  - unfold s'. erewrite get_put_eq; [reflexivity|]. rewrite get_put_ne; eauto.
  - unfold s'. rewrite get_put_ne by auto. erewrite get_put_eq; eauto. 
  - intros v Hv. cbn in Hv. unfold s'. rewrite !get_put_ne; intuition.
Qed.

(** what a switch leaves of the variables and the history *)
Lemma ret_to_eff s c fs p s' : ret_to s c fs p = Next s' ->
  (exists x, s_vars s' = s_vars s \/ s_vars s' = s_vars s ++ [x]) /\ exists new, s_tr s' = new ++ s_tr s.
Proof.
  unfold ret_to. destruct fs as [|[] rest]; try discriminate; injection 1 as <-; rewrite put_frames_vars, put_frames_tr; cbn.
  - split; [eexists; right; reflexivity|]. eexists [_; _]. reflexivity.
  - split; [exists VDead; left; reflexivity|]. eexists [_]. reflexivity.
Qed.
Lemma raise_to_eff s c fs p s' : raise_to s c fs p = Next s' -> s_vars s' = s_vars s /\ exists new, s_tr s' = new ++ s_tr s.
Proof.
  unfold raise_to. destruct fs as [|[] rest]; try discriminate; injection 1 as <-; rewrite put_frames_vars, put_frames_tr; cbn.
  split; [reflexivity|]. eexists [_]. reflexivity.
Qed.
Lemma arrive_eff s d s' : arrive s d = Next s' ->
  (exists x, s_vars s' = s_vars s \/ s_vars s' = s_vars s ++ [x]) /\ exists new, s_tr s' = new ++ s_tr s.
Proof.
  unfold arrive. destruct (nth_error (s_rec s) d) as [y|] eqn:Hd; [|discriminate]. destruct (r_frames y) as [|[] rest]; try discriminate.
  - injection 1 as <-. rewrite put_frames_vars, put_frames_tr. cbn. split; [eexists; right; reflexivity|]. eexists [_; _]. reflexivity.
  - destruct (r_force y).
    + intros H. apply raise_to_eff in H. cbn in H. destruct H as [-> H]. split; [exists VDead; auto|exact H].
    + destruct (r_ontop y).
      * injection 1 as <-. rewrite put_frames_vars, put_frames_tr. cbn. split; [eexists; right; reflexivity|]. eexists [_; _]. reflexivity.
      * intros H. apply ret_to_eff in H. exact H.
  - destruct (nth_error (s_rec s) d0) as [z|]; [|discriminate]. destruct (r_alive z); [|discriminate]. destruct (r_term z); [|discriminate].
    injection 1 as <-. rewrite put_frames_vars, put_frames_tr. cbn. split; [exists VDead; auto|]. eexists [_]. reflexivity.
Qed.
Lemma switch_eff s t c d k s' : switch s t c d k = Next s' ->
  (exists x, s_vars s' = s_vars s \/ s_vars s' = s_vars s ++ [x]) /\ exists new, s_tr s' = new ++ EvSwitch t c d k :: s_tr s.
Proof.
  unfold switch. destruct (nth_error (s_rec s) d) as [y|]; [|discriminate]. destruct (_ && _); [|discriminate]. intros H.
  apply arrive_eff in H. exact H.
Qed.
Lemma get_more s s' v x : s_vars s' = s_vars s \/ s_vars s' = s_vars s ++ [x] -> v < next_fiber s -> get_var s' v = get_var s v.
Proof.
  intros H L. unfold get_var. destruct H as [-> | ->]; [reflexivity|]. rewrite nth_error_app1; auto.
Qed.
Lemma get_more_ne s s' v x : s_vars s' = s_vars s \/ s_vars s' = s_vars s ++ [x] -> v <> next_fiber s -> get_var s' v = get_var s v.
Proof.
  intros H L. destruct H as [H|H]; [apply get_var_vars; exact H|]. rewrite <- (get_add_lt s x v L). apply get_var_vars. exact H.
Qed.

(** Move assignment, L475-481, over a fiber with value hd: at the time the old value is dropped, the
    values have been transferred.  What happens to the old value: nothing if there is none or if it
    denotes a main context; if its context has finished, no switch takes place and the stack is
    released next; otherwise the context is asked to unwind. *)
Theorem C45_move_assign s t c dst src bd bs hd hs s' : user_on s t c -> dst <> src ->
  get_var s dst = Some (bd, hd) -> get_var s src = Some (bs, hs) -> step s t (LUser (UMoveAssign dst src)) = Next s' ->
  get_var s' dst = Some (bd, hs) /\ get_var s' src = Some (bs, None) /\ same_fibers_except s s' [dst; src; next_fiber s] /\
  match hd with
  | None => s_rec s' = s_rec s /\ s_tr s' = s_tr s
  | Some d =>
      exists y, nth_error (s_rec s) d = Some y /\
        if r_main y then s_rec s' = s_rec s /\ s_tr s' = s_tr s
        else if r_term y then s_tr s' = s_tr s /\ s_thr s' = s_thr s /\ same_records_except s s' [c] /\
               exists x fs, nth_error (s_rec s) c = Some x /\ r_frames x = fs /\ nth_error (s_rec s') c = Some (set_frames x (FRel d false :: fs))
        else exists new, s_tr s' = new ++ EvSwitch t c d SwUnwind :: s_tr s
  end.
Proof.
  intros Hu N Hd Hs. destruct (user_on_step s t c (UMoveAssign dst src) Hu) as (x & f & rest & H0 & H1 & H2 & H3 & ->).
  unfold user_step. rewrite H3, Hd, Hs. apply Nat.eqb_neq in N as N'. rewrite N'. clear N'.
  set (s1 := put_var (put_var s src (VLive bs None)) dst (VLive bd hs)).
  destruct (assign_vars s dst src bd bs hd hs N Hd Hs) as (A & B & C). fold s1 in A, B, C.
  assert (Lt : next_fiber s1 = next_fiber s) by (unfold next_fiber, s1, put_var; cbn; rewrite !upd_length; reflexivity).
  assert (Q : forall s2 y, s_vars s2 = s_vars s1 \/ s_vars s2 = s_vars s1 ++ [y] ->
     get_var s2 dst = Some (bd, hs) /\ get_var s2 src = Some (bs, None) /\ same_fibers_except s s2 [dst; src; next_fiber s]).
  { intros s2 y Hy. split; [|split].
    - rewrite (get_more s1 s2 dst y Hy); [exact A|]. rewrite Lt. eapply get_lt; eauto.
    - rewrite (get_more s1 s2 src y Hy); [exact B|]. rewrite Lt. eapply get_lt; eauto.
    - intros v Hv. cbn in Hv. rewrite (get_more_ne s1 s2 v y Hy) by (rewrite Lt; intuition). apply C. cbn. intuition. }
  assert (Same : put_frames s1 c (FU f :: rest) = s1).
  { rewrite <- H2. apply put_frames_same. exact H1. }
  unfold drop. destruct hd as [d|].
  2:{ injection 1 as <-. rewrite Same. destruct (Q s1 VDead) as (Q1 & Q2 & Q3); auto. }
  change (s_rec s1) with (s_rec s). destruct (nth_error (s_rec s) d) as [y|] eqn:Hy; [|discriminate]. destruct (r_alive y); [|discriminate].
  destruct (r_main y) eqn:Hm.
  { injection 1 as <-. rewrite Same. destruct (Q s1 VDead) as (Q1 & Q2 & Q3); auto. split; [exact Q1|]. split; [exact Q2|]. split; [exact Q3|].
    exists y. rewrite Hm. auto. }
  destruct (r_term y) eqn:Htm.
  - injection 1 as <-. destruct (Q (put_frames s1 c (FRel d false :: FU f :: rest)) VDead) as (Q1 & Q2 & Q3); [left; apply put_frames_vars|].
    split; [exact Q1|]. split; [exact Q2|]. split; [exact Q3|]. exists y. rewrite Hm, Htm. split; [reflexivity|]. rewrite put_frames_tr.
    split; [reflexivity|]. split; [rewrite put_frames_thr'; reflexivity|].
    split; [intros e He; rewrite put_frames_other by exact He; reflexivity|]. exists x, (FU f :: rest). split; [exact H1|]. split; [exact H2|].
    rewrite (put_frames_rec _ _ _ x) by exact H1. apply nth_upd_lt. eapply nth_some_lt. exact H1.
  - intros H. apply switch_eff in H. destruct H as [[w V] [new T]]. rewrite put_frames_vars in V. rewrite put_frames_tr in T.
    destruct (Q _ _ V) as (Q1 & Q2 & Q3). split; [exact Q1|]. split; [exact Q2|]. split; [exact Q3|]. exists y. rewrite Hm, Htm. split; [reflexivity|].
    exists new. exact T.
Qed.

(** resume() / resume_with( g): the fiber is empty when the call has switched, L485-489, L502-508. *)
Theorem C45_resume s t c v b h g s' : user_on s t c -> get_var s v = Some (b, h) ->
  step s t (LUser (match g with None => UResume v | Some g => UResumeWith v g end)) = Next s' ->
  exists d new, h = Some d /\ get_var s' v = Some (b, None) /\ same_fibers_except s s' [v; next_fiber s] /\
    s_tr s' = new ++ EvSwitch t c d (match g with None => SwJump | Some g => SwOntop g end) :: s_tr s.
Proof.
  intros Hu Hg. destruct (user_on_step s t c (match g with None => UResume v | Some g => UResumeWith v g end) Hu) as (x & f & rest & H0 & H1 & H2 & H3 & ->).
  assert (E : user_step s t c f rest (match g with None => UResume v | Some g => UResumeWith v g end) =
    match h with None => AssertFail (s_tr s) | Some d => switch (put_frames (put_var s v (VLive b None)) c (FRes :: FU f :: rest)) t c d (match g with None => SwJump | Some g => SwOntop g end) end).
  { unfold user_step. rewrite H3. destruct g; rewrite Hg; destruct h; reflexivity. }
  rewrite E. destruct h as [d|]; [|discriminate]. intros H. apply switch_eff in H. destruct H as [[w V] [new T]].
  rewrite put_frames_vars in V. rewrite put_frames_tr in T. exists d, new. split; [reflexivity|].
  assert (Lt : next_fiber (put_var s v (VLive b None)) = next_fiber s) by (unfold next_fiber, put_var; cbn; apply upd_length).
  split; [|split; [|exact T]].
  - rewrite (get_more (put_var s v (VLive b None)) s' v w V) by (rewrite Lt; eapply get_lt; eauto). erewrite get_put_eq; eauto.
  - intros u Hn. cbn in Hn. rewrite (get_more_ne (put_var s v (VLive b None)) s' u w V) by (rewrite Lt; intuition). apply get_put_ne. intuition.
Qed.

(** operator bool, L518-520: true exactly for a fiber that denotes a context whose function has not
    been left (in the fcontext implementation such a fiber is always empty). *)
Theorem C45_bool n l s v b h : run (init n) l = Next s -> calm (s_tr s) -> get_var s v = Some (b, h) ->
  (valid s h = true <-> exists d, h = Some d /\ ~ done (s_tr s) d).
Proof.
  intros H Hc Hg. pose proof (calm_inv n l s H Hc) as HI. apply get_var_some in Hg. destruct h as [d|]; cbn [valid].
  2:{ split; [discriminate|]. intros (d & E & _). discriminate. }
  assert (Hi : idle s d).
  { apply (i_idle _ _ _ _ HI). assert (0 < cv d s); [|lia].
    unfold cv. pose proof (sumf_le (wvar d) _ _ _ Hg) as L. cbn [wvar] in L. rewrite wh_self in L. lia. }
  unfold idle, top in Hi. destruct (nth_error (s_rec s) d) as [y|] eqn:Hy; [|exfalso; intuition discriminate].
  pose proof (i_done _ _ _ _ HI d y Hy) as D.
  assert (F : is_fin (hd_error (r_frames y)) = false) by (destruct Hi as [E|E]; rewrite E; reflexivity).
  rewrite F in D. split.
  - intros E. exists d. split; [reflexivity|]. rewrite D. destruct (r_term y); [discriminate|]. intuition discriminate.
  - intros (d' & E & N). injection E as <-. rewrite D in N. destruct (r_term y); [exfalso; auto|reflexivity].
Qed.

(* ------------------------------------------------------------------ C45: construction *)

Definition caps_match (c : cap) (o : obj) : Prop :=
  match c, o with CapUsr, OUsr _ => True | CapFib _, OFib _ => True | _, _ => False end.
Definition cap_fibs (l : list cap) : list nat := flat_map (fun c => match c with CapFib v => [v] | CapUsr => [] end) l.

Lemma do_caps_eff d l : forall s acc s1 caps, do_caps s d l acc = Some (s1, caps) ->
  s_rec s1 = s_rec s /\ s_thr s1 = s_thr s /\ next_fiber s <= next_fiber s1 /\
  exists os, caps = rev os ++ acc /\ s_tr s1 = map (EvCtor (OnCtx d)) (rev os) ++ s_tr s /\ Forall2 caps_match l os /\
    (forall v, v < next_fiber s -> ~ In v (cap_fibs l) -> get_var s1 v = get_var s v) /\
    (forall w, In w (cap_fibs l) -> w < next_fiber s -> exists b h, get_var s w = Some (b, h) /\ get_var s1 w = Some (b, None) /\
       (NoDup (cap_fibs l) -> (forall u, In u (cap_fibs l) -> u < next_fiber s) -> exists v, In (OFib v) os /\ get_var s1 v = Some (false, h))).
Proof.
  induction l as [|[w|] l IH]; intros s acc s1 caps; cbn [do_caps].
  - injection 1 as <- <-. split; [reflexivity|]. split; [reflexivity|]. split; [lia|]. exists []. repeat split; auto. intros w [].
  - destruct (get_var s w) as [[b h]|] eqn:Hw; [|discriminate]. intros H. apply IH in H.
    set (s0 := emit _ _) in H. destruct H as (R1 & R2 & R3 & os & E1 & E2 & E3 & E4 & E5).
    pose proof (get_lt _ _ _ _ Hw) as Lw.
    assert (L0 : next_fiber s0 = S (next_fiber s)) by (unfold next_fiber, s0; cbn; rewrite app_length, upd_length; cbn; lia).
    assert (P : next_fiber (put_var s w (VLive b None)) = next_fiber s) by (unfold next_fiber; cbn; apply upd_length).
    assert (G1 : forall v, v <> w -> v <> next_fiber s -> get_var s0 v = get_var s v).
    { intros v N1 N2. change (get_var s0 v) with (get_var (add_var (put_var s w (VLive b None)) (VLive false h)) v).
      rewrite get_add_lt by (rewrite P; exact N2). apply get_put_ne. auto. }
    assert (G2 : get_var s0 w = Some (b, None)).
    { change (get_var s0 w) with (get_var (add_var (put_var s w (VLive b None)) (VLive false h)) w).
      rewrite get_add_lt by (rewrite P; lia). erewrite get_put_eq; eauto. }
    assert (G3 : get_var s0 (next_fiber s) = Some (false, h)).
    { change (get_var s0 (next_fiber s)) with (get_var (add_var (put_var s w (VLive b None)) (VLive false h)) (next_fiber s)).
      rewrite <- P. rewrite get_add_new. reflexivity. }
    split; [exact R1|]. split; [exact R2|]. split; [lia|]. exists (OFib (next_fiber s) :: os). cbn [rev].
    split; [rewrite <- app_assoc; exact E1|]. split; [rewrite map_app, <- app_assoc; exact E2|]. split; [constructor; [exact I|exact E3]|]. split.
    + intros v Lv Nv. cbn in Nv. rewrite E4 by (try lia; intuition). apply G1; [intuition|lia].
    + intros u Hu Lu. cbn [cap_fibs flat_map] in Hu. change (flat_map _ l) with (cap_fibs l) in Hu.
      destruct (in_dec Nat.eq_dec u (cap_fibs l)) as [Hi|Hn].
      * destruct (E5 u Hi ltac:(lia)) as (b' & h' & A1 & A2 & A3). destruct (Nat.eq_dec u w) as [->|N].
        -- exists b, h. rewrite G2 in A1. injection A1 as <- <-. split; [exact Hw|]. split; [exact A2|].
           cbn. intros ND _. inversion ND; subst. contradiction.
        -- exists b', h'. rewrite G1 in A1 by (auto; lia). split; [exact A1|]. split; [exact A2|]. intros ND Bd. cbn in ND.
           inversion ND; subst. destruct (A3 H2) as (v & B1 & B2); [intros z Hz; specialize (Bd z); cbn in Bd; rewrite L0; specialize (Bd (or_intror Hz)); lia|]. exists v. split; [right; exact B1|exact B2].
      * assert (u = w) as -> by (cbn in Hu; destruct Hu; [auto|contradiction]). exists b, h. split; [exact Hw|]. rewrite E4 by (auto; lia).
        split; [exact G2|]. intros ND Bd. exists (next_fiber s). split; [left; reflexivity|].
        destruct (in_dec Nat.eq_dec (next_fiber s) (cap_fibs l)) as [Hi|Hi].
        -- exfalso. specialize (Bd (next_fiber s)). cbn in Bd. specialize (Bd (or_intror Hi)). lia.
        -- rewrite E4 by (auto; lia). exact G3.
  - intros H. apply IH in H. set (s0 := mk_s _ _ _ _ _) in H. destruct H as (R1 & R2 & R3 & os & E1 & E2 & E3 & E4 & E5).
    split; [exact R1|]. split; [exact R2|]. split; [exact R3|]. exists (OUsr (s_nusr s) :: os). cbn [rev].
    split; [rewrite <- app_assoc; exact E1|]. split; [rewrite map_app, <- app_assoc; exact E2|]. split; [constructor; [exact I|exact E3]|].
    split; [exact E4|]. intros w Hw Lw. destruct (E5 w Hw Lw) as (b & h & A1 & A2 & A3). exists b, h. split; [exact A1|]. split; [exact A2|].
    intros ND Bd. destruct (A3 ND Bd) as (v & B1 & B2). exists v. split; [right; exact B1|exact B2].
Qed.

(** Construction of a fiber, L307-356 ([os] are the objects captured by the function object; captured
    fibers are moved): the stack is obtained, the function object is constructed on it, and the new
    fiber denotes the new context.  No context switch takes place, the context-function is not
    entered, and no other context is touched. *)
Theorem C45_construct s t c a l s' : user_on s t c -> step s t (LUser (UCreate a l CrOk)) = Next s' ->
  exists os v, Forall2 caps_match l os /\ next_fiber s <= v /\ next_fiber s' = S v /\
    s_tr s' = EvCtor (OnCtx c) (OFib v) :: map (EvCtor (OnCtx (next_context s))) (rev os) ++ EvAlloc (next_context s) a :: s_tr s /\
    get_var s' v = Some (false, Some (next_context s)) /\
    (forall w, w < next_fiber s -> ~ In w (cap_fibs l) -> get_var s' w = get_var s w) /\
    (forall w, In w (cap_fibs l) -> w < next_fiber s -> exists b h, get_var s w = Some (b, h) /\ get_var s' w = Some (b, None) /\
    (NoDup (cap_fibs l) -> (forall u, In u (cap_fibs l) -> u < next_fiber s) ->
        exists v', In (OFib v') os /\ get_var s' v' = Some (false, h))) /\
    nth_error (s_rec s') (next_context s) = Some (mk_r [FStart] false None None false false true (Some a) (rev os)) /\
    same_records_except s s' [c; next_context s] /\ s_thr s' = s_thr s.
Proof.
  intros Hu. destruct (user_on_step s t c (UCreate a l CrOk) Hu) as (x & f & rest & H0 & H1 & H2 & H3 & ->).
  unfold user_step. rewrite H3. unfold do_create. set (d := length (s_rec s)) in *. cbv zeta.
  destruct (do_caps (emit s (EvAlloc d a)) d l []) as [[s1 caps]|] eqn:Hd; [|discriminate]. apply do_caps_eff in Hd.
  destruct Hd as (R1 & R2 & R3 & os & E1 & E2 & E3 & E4 & E5). cbn [emit s_rec s_thr s_tr] in R1, R2, E2.
  change (next_fiber (emit s (EvAlloc d a))) with (next_fiber s) in *.
  unfold new_fib. cbv zeta. intros H. injection H as <-. rewrite app_nil_r in E1. subst caps.
  set (s2 := mk_s _ _ _ _ _) in *. set (v := length (s_vars s2)) in *.
  match goal with |- exists os0 v0, _ => exists os, v end.
  assert (Lc : c < length (s_rec s)) by (eapply nth_some_lt; eauto).
  assert (V : forall w, w < next_fiber s1 -> get_var (put_frames (emit (add_var s2 (VLive false (Some d))) (EvCtor (OnCtx c) (OFib v))) c
      (FU (set_objs f (OFib v :: uf_objs f)) :: rest)) w = get_var s1 w).
  { intros w Lw. transitivity (get_var (add_var s2 (VLive false (Some d))) w).
    - apply get_var_vars. rewrite put_frames_vars. reflexivity.
    - rewrite get_add_lt; [reflexivity|]. unfold next_fiber in *. change (s_vars s2) with (s_vars s1). lia. }
  assert (Rc : nth_error (s_rec (emit (add_var s2 (VLive false (Some d))) (EvCtor (OnCtx c) (OFib v)))) c = Some x).
  { cbn. rewrite R1, nth_error_app1 by exact Lc. exact H1. }
  split; [exact E3|]. split; [exact R3|]. split.
  { unfold next_fiber. rewrite put_frames_vars. cbn. rewrite app_length. cbn. unfold v, s2. cbn. lia. }
  split; [rewrite put_frames_tr; cbn; rewrite E2; reflexivity|]. split.
  { transitivity (get_var (add_var s2 (VLive false (Some d))) (next_fiber s2)); [|apply get_add_new].
    apply get_var_vars. rewrite put_frames_vars. reflexivity. }
  split.
  { intros w Lw Nw. rewrite V by lia. rewrite E4 by auto. reflexivity. }
  split.
  { intros w Hw Lw. destruct (E5 w Hw Lw) as (b & h & A1 & A2 & A3). exists b, h. split; [exact A1|]. split; [rewrite V by lia; exact A2|].
    intros ND Bd. destruct (A3 ND Bd) as (v' & B1 & B2). exists v'. split; [exact B1|]. rewrite V; [exact B2|]. eapply get_lt; eauto. }
  split.
  { rewrite (put_frames_rec _ _ _ x Rc). rewrite nth_upd_ne by (unfold next_context; lia). cbn. rewrite R1. apply nth_app_last. }
  split.
  - intros e He. cbn in He. rewrite (put_frames_rec _ _ _ x Rc). rewrite nth_upd_ne by intuition. cbn. rewrite R1.
    destruct (Nat.lt_ge_cases e (length (s_rec s))) as [L|L]; [apply nth_error_app1; exact L|].
    assert (e <> length (s_rec s)) by (unfold next_context in He; intuition).
    rewrite (proj2 (nth_error_None _ _)) by (rewrite app_length; cbn; lia). symmetry. apply nth_error_None. exact L.
  - rewrite put_frames_thr'. exact R2.
Qed.

(** allocate() throws, L310: the exception arrives in the caller of the constructor; nothing else. *)
Theorem C45_failed_allocation s t c a l : user_on s t c ->
  exists s' x f rest, step s t (LUser (UCreate a l CrNoStack)) = Next s' /\
    s_tr s' = EvThrow c 0 :: s_tr s /\ s_vars s' = s_vars s /\ s_thr s' = s_thr s /\ length (s_rec s') = length (s_rec s) /\
    same_records_except s s' [c] /\ nth_error (s_rec s) c = Some x /\ r_frames x = FU f :: rest /\
    nth_error (s_rec s') c = Some (set_frames x (FU (set_mode f (MLand (XUser 0))) :: rest)).
Proof.
  intros Hu. destruct (user_on_step s t c (UCreate a l CrNoStack) Hu) as (x & f & rest & H0 & H1 & H2 & H3 & ->).
  unfold user_step. rewrite H3. eexists _, x, f, rest. split; [reflexivity|].
  rewrite put_frames_tr, put_frames_vars, put_frames_thr'. split; [reflexivity|]. split; [reflexivity|]. split; [reflexivity|].
  rewrite (put_frames_rec _ _ _ x) by exact H1. cbn [emit s_rec]. split; [apply upd_length|].
  split; [intros d Hd; rewrite put_frames_other by exact Hd; reflexivity|]. split; [exact H1|]. split; [exact H2|].
  apply nth_upd_lt. eapply nth_some_lt; eauto.
Qed.

(** What destroying a record does, L258-265, when the context on top of whose stack it happens is
    [c] (frame [FRel d fail]): the captured objects are destroyed one by one, last constructed first;
    then the stack goes back to its allocator, and after a failed getcontext() the exception is
    thrown to the caller of the constructor. *)
Theorem C45_release_captured s t c x d fail below y o l s' :
  nth_error (s_thr s) t = Some c -> nth_error (s_rec s) c = Some x -> r_frames x = FRel d fail :: below ->
  nth_error (s_rec s) d = Some y -> r_caps y = o :: l -> step s t LTau = Next s' ->
  exists new, s_tr s' = new ++ EvDtor (OnCtx d) o :: s_tr s.
Proof.
  intros Ht Hc Hf Hd Hl. unfold step. rewrite Ht, Hc, Hf. cbn [tau_step]. unfold rel_step. rewrite Hd, Hl.
  destruct (r_alive y); [|discriminate]. unfold destroy. destruct o as [v|u].
  - destruct (nth_error _ v) as [[|b h]|]; try discriminate. unfold drop. destruct h as [e|].
    + match goal with |- match ?z with _ => _ end = _ -> _ => destruct z as [z1|]; [|discriminate] end.
      destruct (r_alive z1); [|discriminate]. destruct (r_main z1); [|destruct (r_term z1)].
      * injection 1 as <-. rewrite put_frames_tr. exists []. reflexivity.
      * injection 1 as <-. rewrite put_frames_tr. exists []. reflexivity.
      * intros H. apply switch_eff in H. destruct H as [_ [new ->]]. rewrite put_frames_tr. eexists (new ++ [_]). rewrite <- app_assoc. reflexivity.
    + injection 1 as <-. rewrite put_frames_tr. exists []. reflexivity.
  - injection 1 as <-. rewrite put_frames_tr. exists []. reflexivity.
Qed.
Theorem C45_release_stack s t c x d fail below y a s' :
  nth_error (s_thr s) t = Some c -> nth_error (s_rec s) c = Some x -> r_frames x = FRel d fail :: below -> d <> c ->
  nth_error (s_rec s) d = Some y -> r_caps y = [] -> r_alloc y = Some a -> step s t LTau = Next s' ->
  if fail then
    s_tr s' = EvThrow c 1 :: EvFree d a c :: s_tr s /\
    exists f rest, below = FU f :: rest /\ nth_error (s_rec s') c = Some (set_frames x (FU (set_mode f (MLand (XUser 1))) :: rest))
  else s_tr s' = EvFree d a c :: s_tr s /\ nth_error (s_rec s') c = Some (set_frames x below).
Proof.
  intros Ht Hc Hf N Hd Hl Ha. unfold step. rewrite Ht, Hc, Hf. cbn [tau_step]. unfold rel_step. rewrite Hd, Hl, Ha.
  destruct (r_alive y); [|discriminate].
  assert (G : forall s1 fs, s_rec s1 = upd (s_rec s) d (set_dead y) -> nth_error (s_rec (put_frames s1 c fs)) c = Some (set_frames x fs)).
  { intros s1 fs E. rewrite (put_frames_rec _ _ _ x) by (rewrite E, nth_upd_ne; auto). apply nth_upd_lt. rewrite E, upd_length. eapply nth_some_lt; eauto. }
  destruct fail.
  - destruct below as [|[f| | | | | | | | | |] rest]; try discriminate. injection 1 as <-. rewrite put_frames_tr. split; [reflexivity|].
    exists f, rest. split; [reflexivity|]. apply G. reflexivity.
  - injection 1 as <-. rewrite put_frames_tr. split; [reflexivity|]. apply G. reflexivity.
Qed.

(** Destroying a record whose function object contains user objects [us] with destructors that return:
    everything that happens. *)
Definition release_run (t k : nat) : list (nat * label) :=
  concat (repeat [(t, LTau); (t, LUser (UReturn None)); (t, LTau)] k) ++ [(t, LTau)].
Theorem C45_release_complete t c d fail below a us : forall s x y,
  nth_error (s_thr s) t = Some c -> nth_error (s_rec s) c = Some x -> r_frames x = FRel d fail :: below -> d <> c ->
  nth_error (s_rec s) d = Some y -> r_alive y = true -> r_caps y = map OUsr us -> r_alloc y = Some a ->
  (fail = true -> exists f rest, below = FU f :: rest) ->
  exists s', run s (release_run t (length us)) = Next s' /\
    s_tr s' = (if fail then [EvThrow c 1] else []) ++ EvFree d a c :: map (EvDtor (OnCtx d)) (rev (map OUsr us)) ++ s_tr s /\
    s_vars s' = s_vars s /\ s_thr s' = s_thr s /\ same_records_except s s' [c; d] /\
    exists y', nth_error (s_rec s') d = Some y' /\ r_alive y' = false.
Proof.
  induction us as [|u us IH]; intros s x y Ht Hc Hf N Hd Hal Hl Ha Hb.
  - cbn [length release_run concat repeat app map rev run]. unfold release_run. cbn [repeat concat app run].
    unfold step. rewrite Ht, Hc, Hf. cbn [tau_step]. unfold rel_step. rewrite Hd, Hal, Ha. rewrite Hl. cbn [map].
    set (s1 := emit (put_rec s d (set_dead y)) (EvFree d a c)).
    assert (C1 : nth_error (s_rec s1) c = Some x) by (unfold s1; cbn; rewrite nth_upd_ne; auto).
    assert (G : forall s2 fs, s_rec s2 = s_rec s1 -> s_vars s2 = s_vars s1 -> s_thr s2 = s_thr s1 ->
      let s' := put_frames s2 c fs in s_vars s' = s_vars s /\ s_thr s' = s_thr s /\ same_records_except s s' [c; d] /\
      exists y', nth_error (s_rec s') d = Some y' /\ r_alive y' = false).
    { intros s2 fs E1 E2 E3 s'. unfold s'. rewrite put_frames_vars, put_frames_thr'. split; [exact E2|]. split; [exact E3|].
      rewrite (put_frames_rec _ _ _ x) by (rewrite E1; exact C1). rewrite E1. split.
      - intros e He. cbn in He. rewrite (put_frames_rec _ _ _ x) by (rewrite E1; exact C1). rewrite E1. rewrite nth_upd_ne by intuition. cbn. apply nth_upd_ne. intuition.
      - exists (set_dead y). rewrite nth_upd_ne by auto. cbn. split; [|reflexivity]. apply nth_upd_lt. eapply nth_some_lt; eauto. }
    destruct fail.
    + destruct (Hb eq_refl) as (f & rest & ->). eexists. split; [reflexivity|]. split; [rewrite put_frames_tr; reflexivity|]. apply G; reflexivity.
    + eexists. split; [reflexivity|]. split; [rewrite put_frames_tr; reflexivity|]. apply G; reflexivity.
  - cbn [map] in Hl. set (s1 := emit (put_rec s d (set_caps y (map OUsr us))) (EvDtor (OnCtx d) (OUsr u))).
    assert (C1 : nth_error (s_rec s1) c = Some x) by (unfold s1; cbn; rewrite nth_upd_ne; auto).
    assert (R : forall s0 fs, nth_error (s_thr s0) t = Some c -> s_thr (put_frames s0 c fs) = s_thr s0) by (intros; apply put_frames_thr').
    assert (E3 : forall k, run s (release_run t (S k)) = run s1 (release_run t k)).
    { intros k. unfold release_run. cbn [repeat concat app run].
      assert (A : step s t LTau = Next (put_frames s1 c (FU (mk_uf (KDtor u) [] MRun None) :: FRel d fail :: below))).
      { unfold step. rewrite Ht, Hc, Hf. cbn [tau_step]. unfold rel_step. rewrite Hd, Hal, Hl. reflexivity. }
      rewrite A.
      assert (Q : forall fs, nth_error (s_rec (put_frames s1 c fs)) c = Some (set_frames x fs)).
      { intros fs. rewrite (put_frames_rec _ _ _ x C1). apply nth_upd_lt. eapply nth_some_lt; eauto. }
      unfold step at 1. rewrite put_frames_thr'. change (s_thr s1) with (s_thr s). rewrite Ht, Q. cbn [set_frames r_frames user_step uf_mode uf_kind forced_caught uf_caught].
      rewrite (put_put _ _ _ _ _ C1). unfold step at 1. rewrite put_frames_thr'. change (s_thr s1) with (s_thr s). rewrite Ht, Q.
      cbn [set_frames r_frames tau_step set_caught uf_mode uf_objs leave_ret uf_kind]. rewrite (put_put _ _ _ _ _ C1). rewrite <- Hf, put_frames_same by exact C1. reflexivity. }
    cbn [length]. rewrite E3.
    destruct (IH s1 x (set_caps y (map OUsr us))) as (s' & A1 & A2 & A3 & A4 & A5 & A6); auto.
    { unfold s1; cbn. apply nth_upd_lt. eapply nth_some_lt; eauto. }
    exists s'. split; [exact A1|]. split.
    + rewrite A2. cbn [map rev]. rewrite map_app, <- app_assoc. reflexivity.
    + split; [exact A3|]. split; [exact A4|]. split; [|exact A6]. intros e He. rewrite A5 by exact He. unfold s1; cbn. apply nth_upd_ne. cbn in He. intuition.
Qed.

(** getcontext() fails, L322-328: the stack had been obtained and the function object constructed;
    destroying them is the next thing that happens (frame [FRel]), no fiber denotes the context, and
    no switch has taken place. *)
Lemma do_caps_len d l : forall s acc s1 caps, do_caps s d l acc = Some (s1, caps) -> next_fiber s1 = next_fiber s + length (cap_fibs l).
Proof.
  induction l as [|[w|] l IH]; intros s acc s1 caps; cbn [do_caps].
  - injection 1 as <- <-. cbn. lia.
  - destruct (get_var s w) as [[b h]|]; [|discriminate]. intros H. apply IH in H. rewrite H. unfold next_fiber, cap_fibs. cbn.
    rewrite app_length, upd_length. cbn. lia.
  - intros H. apply IH in H. exact H.
Qed.
Theorem C45_failed_getcontext s t c a l s' : user_on s t c -> step s t (LUser (UCreate a l CrNoCtx)) = Next s' ->
  exists os x, Forall2 caps_match l os /\ next_fiber s' = next_fiber s + length (cap_fibs l) /\
    s_tr s' = EvFail (next_context s) :: map (EvCtor (OnCtx (next_context s))) (rev os) ++ EvAlloc (next_context s) a :: s_tr s /\
    (forall w, w < next_fiber s -> ~ In w (cap_fibs l) -> get_var s' w = get_var s w) /\
    nth_error (s_rec s') (next_context s) = Some (mk_r [FStart] false None None false false true (Some a) (rev os)) /\
    nth_error (s_rec s) c = Some x /\ nth_error (s_rec s') c = Some (set_frames x (FRel (next_context s) true :: r_frames x)) /\
    same_records_except s s' [c; next_context s] /\ s_thr s' = s_thr s.
Proof.
  intros Hu. destruct (user_on_step s t c (UCreate a l CrNoCtx) Hu) as (x & f & rest & H0 & H1 & H2 & H3 & ->).
  unfold user_step. rewrite H3. unfold do_create. set (d := length (s_rec s)) in *. cbv zeta.
  destruct (do_caps (emit s (EvAlloc d a)) d l []) as [[s1 caps]|] eqn:Hd; [|discriminate]. pose proof (do_caps_len _ _ _ _ _ _ Hd) as Ln. apply do_caps_eff in Hd.
  destruct Hd as (R1 & R2 & R3 & os & E1 & E2 & E3 & E4 & E5). cbn [emit s_rec s_thr s_tr] in R1, R2, E2.
  change (next_fiber (emit s (EvAlloc d a))) with (next_fiber s) in *. rewrite app_nil_r in E1. subst caps.
  intros H. injection H as <-. set (s2 := mk_s _ _ _ _ _) in *. exists os, x.
  assert (Lc : c < length (s_rec s)) by (eapply nth_some_lt; eauto).
  assert (Rc : nth_error (s_rec (emit s2 (EvFail d))) c = Some x) by (cbn; rewrite R1, nth_error_app1 by exact Lc; exact H1).
  split; [exact E3|]. split; [unfold next_fiber in *; rewrite put_frames_vars; exact Ln|]. split; [rewrite put_frames_tr; cbn; rewrite E2; reflexivity|].
  split. { intros w Lw Nw. transitivity (get_var s1 w); [apply get_var_vars; rewrite put_frames_vars; reflexivity|]. rewrite E4 by auto. reflexivity. }
  rewrite (put_frames_rec _ _ _ x Rc).
  split. { rewrite nth_upd_ne by (unfold next_context; lia). cbn. rewrite R1. apply nth_app_last. }
  split; [exact H1|]. split; [rewrite <- H2; apply nth_upd_lt; eapply nth_some_lt; eauto|].
  split; [|rewrite put_frames_thr'; exact R2].
  intros e He. cbn in He. rewrite (put_frames_rec _ _ _ x Rc). rewrite nth_upd_ne by intuition. cbn. rewrite R1.
  destruct (Nat.lt_ge_cases e (length (s_rec s))) as [L|L]; [apply nth_error_app1; exact L|].
  assert (e <> length (s_rec s)) by (unfold next_context in He; intuition).
  rewrite (proj2 (nth_error_None _ _)) by (rewrite app_length; cbn; lia). symmetry. apply nth_error_None. exact L.
Qed.

Lemma caps_usr k os : Forall2 caps_match (repeat CapUsr k) os -> exists us, os = map OUsr us /\ length us = k.
Proof.
  revert os. induction k as [|k IH]; intros os H; inversion H as [|? o ? os' A B]; subst; [exists []; auto|].
  destruct (IH os' B) as (us & -> & L). destruct o as [|u]; [contradiction|]. exists (u :: us). cbn. auto.
Qed.
Lemma do_caps_usr d k : forall s acc, exists r, do_caps s d (repeat CapUsr k) acc = Some r.
Proof. induction k as [|k IH]; intros s acc; cbn; [eauto|apply IH]. Qed.
(** If the captured objects are user objects whose destructors return, the whole failing constructor
    call: obtain the stack, construct the objects, destroy them in reverse order, give the stack back,
    throw. *)
Theorem C45_failed_getcontext_complete s t c a k : user_on s t c -> c < length (s_rec s) ->
  exists s' us, run s ((t, LUser (UCreate a (repeat CapUsr k) CrNoCtx)) :: release_run t k) = Next s' /\ length us = k /\
    let d := next_context s in
    s_tr s' = EvThrow c 1 :: EvFree d a c :: map (EvDtor (OnCtx d)) (map OUsr us) ++
              EvFail d :: map (EvCtor (OnCtx d)) (rev (map OUsr us)) ++ EvAlloc d a :: s_tr s /\
    s_vars s' = s_vars s /\ s_thr s' = s_thr s /\ same_records_except s s' [c; d] /\
    exists y', nth_error (s_rec s') d = Some y' /\ r_alive y' = false.
Proof.
  intros Hu Lc. destruct (step s t (LUser (UCreate a (repeat CapUsr k) CrNoCtx))) as [s1| | | | |] eqn:E.
  2-6: exfalso; destruct (user_on_step s t c (UCreate a (repeat CapUsr k) CrNoCtx) Hu) as (x & f & rest & H0 & H1 & H2 & H3 & Es);
    rewrite Es in E; unfold user_step in E; rewrite H3 in E; unfold do_create in E; cbv zeta in E;
    destruct (do_caps_usr (length (s_rec s)) k (emit s (EvAlloc (length (s_rec s)) a)) []) as [[s0 caps] Hd]; rewrite Hd in E; discriminate.
  destruct (C45_failed_getcontext s t c a _ s1 Hu E) as (os & x & A1 & A2 & A3 & A4 & A5 & A6 & A7 & A8 & A9).
  destruct (caps_usr k os A1) as (us & -> & L).
  assert (Cf : cap_fibs (repeat CapUsr k) = []) by (clear; induction k; cbn; auto).
  assert (Vs : s_vars s1 = s_vars s).
  { destruct (user_on_step s t c (UCreate a (repeat CapUsr k) CrNoCtx) Hu) as (x' & f & rest & H0 & H1 & H2 & H3 & Es).
    rewrite Es in E. unfold user_step in E. rewrite H3 in E. unfold do_create in E. cbv zeta in E.
    assert (G : forall k d s acc s0 caps, do_caps s d (repeat CapUsr k) acc = Some (s0, caps) -> s_vars s0 = s_vars s).
    { clear. induction k as [|k IH]; intros d s acc s0 caps; cbn; [injection 1 as <- <-; reflexivity|]. intros H. apply IH in H. exact H. }
    destruct (do_caps _ _ _ _) as [[s0 caps]|] eqn:Hd; [|discriminate]. apply G in Hd. injection E as <-. rewrite put_frames_vars. exact Hd. }
  cbn [run]. rewrite E. cbv zeta. rewrite <- L. rewrite <- (rev_length us).
  destruct Hu as [Ht (x0 & f & rest & H1 & H2 & H3)].
  assert (x0 = x) as -> by congruence.
  destruct (C45_release_complete t c (next_context s) true (FU f :: rest) a (rev us) s1 (set_frames x (FRel (next_context s) true :: FU f :: rest))
     (mk_r [FStart] false None None false false true (Some a) (rev (map OUsr us)))) as (s' & B1 & B2 & B3 & B4 & B5 & B6); auto.
  - rewrite A9. exact Ht.
  - rewrite A7, H2. reflexivity.
  - unfold next_context. lia.
  - cbn. rewrite map_rev. reflexivity.
  - eauto.
  - exists s', us. split; [exact B1|]. split; [apply eq_sym, rev_length|]. split; [|split; [congruence|split; [congruence|split; [|exact B6]]]].
    + rewrite B2, A3. cbn [app]. rewrite (map_rev OUsr us), rev_involutive. reflexivity.
    + intros e He. rewrite B5, A8 by exact He. reflexivity.
Qed.

(* ------------------------------------------------------------------ C47: suspended contexts *)

(** how a suspended call stack is continued: only the suspended call on top is affected (which of the
    cases applies, and with which handle, is the subject of C33) *)
Inductive continued : list frame -> list frame -> Prop :=
| ct_starts v rest : continued (FStart :: rest) (FU (mk_uf KCtx [OFib v] MRun None) :: FRun :: rest)
| ct_returns f rest v : continued (FRes :: FU f :: rest) (FU (set_objs f (OFib v :: uf_objs f)) :: rest)
| ct_throws f rest e : continued (FRes :: FU f :: rest) (FU (set_mode f (MLand (XForced e))) :: rest)
| ct_injected rest g v : continued (FRes :: rest) (FU (mk_uf (KOntop g) [OFib v] MRun None) :: FOnt :: rest)
| ct_destroyed e rest : continued (FDt e :: rest) (FRel e false :: rest)
| ct_finished rest p : continued (FRes :: FRunEnd :: rest) (FTmp p :: FAssert :: rest).

Definition stack_of (s : state) (d : nat) : option (list frame) := option_map r_frames (nth_error (s_rec s) d).

(** a history grows by events without a switch, or by exactly one switch of thread t away from c *)
Definition no_sw (new : list event) : Prop := forallb nosw new = true.
Definition threads_same (s s' : state) (new : list event) : Prop := no_sw new /\ s_thr s' = s_thr s.
Definition one_switch (t c : nat) (s s' : state) (new : list event) : Prop :=
  exists d k new1 new2, new = new1 ++ EvSwitch t c d k :: new2 /\ no_sw new1 /\ no_sw new2 /\ s_thr s' = upd (s_thr s) t d.

(** c's own record apart, the call stacks are those of before *)
Definition quiet (c : nat) (s s' : state) : Prop :=
  (exists new, s_tr s' = new ++ s_tr s /\ threads_same s s' new) /\ forall d fs, d <> c -> stack_of s d = Some fs -> stack_of s' d = Some fs.
Definition touches (t c : nat) (s s' : state) : Prop :=
  exists new, s_tr s' = new ++ s_tr s /\ (threads_same s s' new \/ one_switch t c s s' new) /\
  forall d fs, d <> c -> stack_of s d = Some fs ->
    stack_of s' d = Some fs \/
    (exists k fs', In (EvSwitch t c d k) new /\ stack_of s' d = Some fs' /\ continued fs fs') \/
    (exists a, In (EvFree d a c) new).

Lemma no_sw_app l l' : no_sw l -> no_sw l' -> no_sw (l ++ l').
Proof. unfold no_sw. intros A B. rewrite forallb_app, A, B. reflexivity. Qed.
Lemma quiet_touches t c s s' : quiet c s s' -> touches t c s s'.
Proof. intros [[new [E T]] H]. exists new. split; [exact E|]. split; [left; exact T|]. intros d fs N Hd. left. auto. Qed.
Lemma quiet_then t c s s1 s' : quiet c s s1 -> touches t c s1 s' -> touches t c s s'.
Proof.
  intros [[n1 [E1 [T1 T1']]] H1] (n2 & E2 & T2 & H2). exists (n2 ++ n1). rewrite E2, E1, app_assoc. split; [reflexivity|]. split.
  - destruct T2 as [[T2 T2']|(d & k & m1 & m2 & -> & A & B & C)].
    + left. split; [apply no_sw_app; auto|congruence].
    + right. exists d, k, m1, (m2 ++ n1). rewrite <- app_assoc. split; [reflexivity|]. split; [exact A|]. split; [apply no_sw_app; auto|congruence].
  - intros d fs N Hd. destruct (H2 d fs N (H1 d fs N Hd)) as [A|[(k & fs' & A & B)|(a & A)]]; [left; exact A|right; left|right; right].
    + exists k, fs'. split; [apply in_or_app; auto|exact B].
    + exists a. apply in_or_app; auto.
Qed.
Lemma quiet_refl c s : quiet c s s.
Proof. split; [exists []; split; [reflexivity|split; reflexivity]|auto]. Qed.
Lemma quiet_trans c s s1 s' : quiet c s s1 -> quiet c s1 s' -> quiet c s s'.
Proof.
  intros [[n1 [E1 [T1 T1']]] H1] [[n2 [E2 [T2 T2']]] H2]. split; [exists (n2 ++ n1); rewrite E2, E1, app_assoc; split; [reflexivity|]|].
  - split; [apply no_sw_app; auto|congruence].
  - intros d fs N Hd. apply H2; auto.
Qed.
Lemma quiet_rec c s s' new : s_rec s' = s_rec s -> s_tr s' = new ++ s_tr s -> s_thr s' = s_thr s -> no_sw new -> quiet c s s'.
Proof. intros R T Th N. split; [exists new; split; [exact T|split; auto]|]. intros d fs _. unfold stack_of. rewrite R. auto. Qed.
Lemma quiet_put c s fs : quiet c s (put_frames s c fs).
Proof.
  split; [exists []; rewrite put_frames_tr; split; [reflexivity|split; [reflexivity|apply put_frames_thr']]|]. intros d fs' N. unfold stack_of. rewrite put_frames_other; auto. intros [E|[]]. congruence.
Qed.
Lemma quiet_put_rec c s d x y : nth_error (s_rec s) d = Some x -> r_frames y = r_frames x \/ d = c -> quiet c s (put_rec s d y).
Proof.
  intros Hd Hf. split; [exists []; split; [reflexivity|split; reflexivity]|]. intros e fs N. unfold stack_of. cbn. rewrite nth_upd. destruct (Nat.eqb_spec d e) as [<-|Ne]; [|auto].
  pose proof (nth_some_lt _ _ _ Hd) as L. apply Nat.ltb_lt in L. rewrite L, Hd. cbn. intros E. injection E as <-.
  destruct Hf as [->|Hf]; [reflexivity|]. congruence.
Qed.

Lemma arrive_nosw s d s' : arrive s d = Next s' -> exists new, s_tr s' = new ++ s_tr s /\ threads_same s s' new.
Proof.
  unfold arrive. destruct (nth_error (s_rec s) d) as [y|] eqn:Hd; [|discriminate].
  assert (G : forall s1 fs new, s_tr s1 = new ++ s_tr s -> s_thr s1 = s_thr s -> no_sw new ->
    exists new, s_tr (put_frames s1 d fs) = new ++ s_tr s /\ threads_same s (put_frames s1 d fs) new).
  { intros s1 fs new E T N. exists new. rewrite put_frames_tr. unfold threads_same. rewrite put_frames_thr'. auto. }
  destruct (r_frames y) as [|[] rest]; try discriminate.
  - injection 1 as <-. eapply (G _ _ [_; _]); reflexivity.
  - destruct (r_force y).
    + unfold raise_to. destruct rest as [|[] rest]; try discriminate. injection 1 as <-. eapply (G _ _ [_]); reflexivity.
    + destruct (r_ontop y).
      * injection 1 as <-. eapply (G _ _ [_; _]); reflexivity.
      * unfold ret_to. destruct rest as [|[] rest]; try discriminate; injection 1 as <-; [eapply (G _ _ [_; _])|eapply (G _ _ [_])]; reflexivity.
  - destruct (nth_error (s_rec s) d0) as [z|]; [|discriminate]. destruct (r_alive z); [|discriminate]. destruct (r_term z); [|discriminate].
    injection 1 as <-. eapply (G _ _ [_]); reflexivity.
Qed.
(** arriving at d: only d's stack changes, as described by [continued] *)
Lemma arrive_cont s d s' : arrive s d = Next s' ->
  (exists new, s_tr s' = new ++ s_tr s /\ threads_same s s' new) /\ (forall e, e <> d -> nth_error (s_rec s') e = nth_error (s_rec s) e) /\
  exists fs fs', stack_of s d = Some fs /\ stack_of s' d = Some fs' /\ continued fs fs'.
Proof.
  intros H. split; [exact (arrive_nosw _ _ _ H)|]. unfold arrive in H. destruct (nth_error (s_rec s) d) as [y|] eqn:Hd; [|discriminate].
  assert (Lt : d < length (s_rec s)) by (eapply nth_some_lt; eauto).
  assert (G : forall s1 z fs', nth_error (s_rec s1) d = Some z -> (forall e, e <> d -> nth_error (s_rec s1) e = nth_error (s_rec s) e) ->
    continued (r_frames y) fs' ->
    (forall e, e <> d -> nth_error (s_rec (put_frames s1 d fs')) e = nth_error (s_rec s) e) /\
    exists fs fs2, stack_of s d = Some fs /\ stack_of (put_frames s1 d fs') d = Some fs2 /\ continued fs fs2).
  { intros s1 z fs' Hz Ho Hct. split.
    - intros e Ne. rewrite put_frames_other by (intros [E|[]]; congruence). auto.
    - exists (r_frames y), fs'. unfold stack_of. rewrite Hd. split; [reflexivity|]. rewrite (put_frames_nth _ _ _ z Hz). split; [reflexivity|exact Hct]. }
  assert (P1 : nth_error (s_rec (put_rec s d (set_from y None))) d = Some (set_from y None)) by (cbn; apply nth_upd_lt; exact Lt).
  assert (P2 : forall e, e <> d -> nth_error (s_rec (put_rec s d (set_from y None))) e = nth_error (s_rec s) e) by (intros e Ne; cbn; apply nth_upd_ne; auto).
  destruct (r_frames y) as [|[] rest] eqn:Hf; try discriminate.
  - injection H as <-. eapply G; [exact Hd|reflexivity|constructor].
  - destruct (r_force y).
    + unfold raise_to in H. destruct rest as [|[] rest]; try discriminate. injection H as <-. eapply G; [exact P1|exact P2|constructor].
    + destruct (r_ontop y).
      * injection H as <-. eapply G; [exact P1|exact P2|constructor].
      * unfold ret_to in H. destruct rest as [|[] rest]; try discriminate; injection H as <-; (eapply G; [exact P1|exact P2|constructor]).
  - destruct (nth_error (s_rec s) d0) as [z|]; [|discriminate]. destruct (r_alive z); [|discriminate]. destruct (r_term z); [|discriminate].
    injection H as <-. eapply G; [exact P1|exact P2|constructor].
Qed.
Lemma switch_touches s t c d k s' : switch s t c d k = Next s' -> touches t c s s'.
Proof.
  intros H. unfold switch in H. destruct (nth_error (s_rec s) d) as [y|] eqn:Hd; [|discriminate]. destruct (_ && _); [|discriminate]. cbv zeta in H.
  apply arrive_cont in H. destruct H as ((new & T & T1 & T2) & Ho & fs0 & fs1 & S0 & S1 & Ct). cbn [s_tr s_thr] in T, T2.
  exists (new ++ [EvSwitch t c d k]). rewrite <- app_assoc. split; [exact T|]. split.
  { right. exists d, k, new, []. split; [reflexivity|]. split; [exact T1|]. split; [reflexivity|exact T2]. } unfold stack_of in S0. cbn [s_rec] in S0, Ho.
  rewrite nth_upd_lt in S0 by (eapply nth_some_lt; eauto). cbn in S0.
  intros e fs N He. destruct (Nat.eq_dec e d) as [->|Ne].
  - right. left. exists k, fs1. split; [apply in_or_app; right; left; reflexivity|]. split; [exact S1|].
    unfold stack_of in He. rewrite Hd in He. cbn in He. injection He as <-. injection S0 as <-. destruct k; exact Ct.
  - left. unfold stack_of in *. rewrite Ho, nth_upd_ne by auto. exact He.
Qed.
Lemma drop_touches s t c fs h s' : drop s t c fs h = Next s' -> touches t c s s'.
Proof.
  unfold drop. destruct h as [d|]; [|injection 1 as <-; apply quiet_touches, quiet_put]. destruct (nth_error (s_rec s) d) as [y|]; [|discriminate].
  destruct (r_alive y); [|discriminate]. destruct (r_main y); [injection 1 as <-; apply quiet_touches, quiet_put|].
  destruct (r_term y); [injection 1 as <-; apply quiet_touches, quiet_put|]. intros H. apply switch_touches in H. eapply quiet_then; [apply quiet_put|exact H].
Qed.
Lemma destroy_touches s t c fs p o s' : destroy s t c fs p o = Next s' -> touches t c s s'.
Proof.
  unfold destroy. destruct o as [v|u].
  - destruct (nth_error (s_vars s) v) as [[|b h]|]; try discriminate. intros H. apply drop_touches in H. eapply quiet_then; [|exact H].
    apply (quiet_rec _ _ _ [EvDtor p (OFib v)]); reflexivity.
  - injection 1 as <-. apply quiet_touches. eapply quiet_trans; [|apply quiet_put]. apply (quiet_rec _ _ _ [EvDtor p (OUsr u)]); reflexivity.
Qed.
Lemma quiet_clear c s : quiet c s (clear_ontop s c).
Proof. unfold clear_ontop. destruct (nth_error (s_rec s) c) eqn:E; [eapply quiet_put_rec; eauto|apply quiet_refl]. Qed.
Lemma quiet_ret s c fs p s' : ret_to s c fs p = Next s' -> quiet c s s'.
Proof.
  unfold ret_to. destruct fs as [|[] rest]; try discriminate; injection 1 as <-; (eapply quiet_trans; [|apply quiet_put]).
  - apply (quiet_rec _ _ _ [EvCtor (OnCtx c) (OFib (length (s_vars s))); EvResumed c p]); reflexivity.
  - apply (quiet_rec _ _ _ [EvResumed c p]); reflexivity.
Qed.
Lemma quiet_raise s c fs p s' : raise_to s c fs p = Next s' -> quiet c s s'.
Proof.
  unfold raise_to. destruct fs as [|[] rest]; try discriminate; injection 1 as <-; (eapply quiet_trans; [|apply quiet_put]).
  apply (quiet_rec _ _ _ [EvRaised c p]); reflexivity.
Qed.
Lemma quiet_emit c s e : nosw e = true -> quiet c s (emit s e).
Proof. intros H. assert (no_sw [e]) by (unfold no_sw; cbn; rewrite H; reflexivity). apply (quiet_rec _ _ _ [e]); auto. Qed.
Lemma quiet_new s c f rest b h s' : new_fib s c f rest b h = Next s' -> quiet c s s'.
Proof.
  unfold new_fib. destruct b; injection 1 as <-; (eapply quiet_trans; [|apply quiet_put]); (eapply quiet_trans; [|apply quiet_emit; reflexivity]);
    apply (quiet_rec _ _ _ []); reflexivity.
Qed.
Lemma quiet_create s c f rest a l ok s' : do_create s c f rest a l ok = Next s' -> quiet c s s'.
Proof.
  unfold do_create. cbv zeta. destruct (do_caps _ _ _ _) as [[s1 caps]|] eqn:Hd; [|discriminate]. apply do_caps_eff in Hd.
  destruct Hd as (R1 & R2 & _ & os & _ & E2 & _). set (s2 := mk_s _ _ _ _ _).
  assert (Q : quiet c s s2).
  { split.
    - unfold s2; cbn. rewrite E2. eexists (_ ++ [_]). rewrite <- app_assoc. split; [reflexivity|]. split; [|exact R2]. apply no_sw_app; [|reflexivity].
      unfold no_sw. clear. induction (rev os); cbn; auto.
    - intros d fs N. unfold stack_of, s2. cbn [s_rec]. rewrite R1. cbn [emit s_rec]. intros E.
      destruct (nth_error (s_rec s) d) as [z|] eqn:Hz; [|discriminate]. rewrite nth_error_app1 by (eapply nth_some_lt; eauto). rewrite Hz. exact E. }
  destruct ok; intros H.
  - apply quiet_new in H. eapply quiet_trans; eauto.
  - injection H as <-. eapply quiet_trans; [exact Q|]. (eapply quiet_trans; [|apply quiet_put]; apply quiet_emit; reflexivity).
Qed.

Lemma user_touches s t c f rest o s' : user_step s t c f rest o = Next s' -> touches t c s s'.
Proof.
  assert (Pv : forall v x, quiet c s (put_var s v x)) by (intros; apply (quiet_rec _ _ _ []); reflexivity).
  unfold user_step. destruct (uf_mode f); try discriminate.
  - destruct o as [heap| |a l r|src heap|dst src|va vb|v| |src|src g| |v|e| | | |]; try discriminate.
    + intros H. apply quiet_touches. eapply quiet_new; eauto.
    + injection 1 as <-. apply quiet_touches. eapply quiet_trans; [|apply quiet_put]. eapply (quiet_rec _ _ _ [_]); reflexivity.
    + destruct r; intros H.
      * apply quiet_touches. eapply quiet_create; eauto.
      * injection H as <-. apply quiet_touches. (eapply quiet_trans; [|apply quiet_put]; apply quiet_emit; reflexivity).
      * apply quiet_touches. eapply quiet_create; eauto.
    + destruct (get_var s src) as [[b h]|]; [|discriminate]. intros H. apply quiet_touches. eapply quiet_trans; [apply Pv|eapply quiet_new; eauto].
    + destruct (get_var s dst) as [[bd hd]|]; [|discriminate]. destruct (get_var s src) as [[bs hs]|]; [|discriminate].
      destruct (Nat.eqb dst src); [injection 1 as <-; apply quiet_touches, quiet_refl|]. intros H. apply drop_touches in H. eapply quiet_then; [|exact H].
      apply (quiet_rec _ _ _ []); reflexivity.
    + destruct (get_var s va) as [[bd hd]|]; [|discriminate]. destruct (get_var s vb) as [[bs hs]|]; [|discriminate]. injection 1 as <-.
      apply quiet_touches. apply (quiet_rec _ _ _ []); reflexivity.
    + destruct (get_var s v) as [[[] h]|]; try discriminate. apply destroy_touches.
    + destruct (uf_objs f); [discriminate|]. apply destroy_touches.
    + destruct (get_var s src) as [[b [d|]]|]; try discriminate. intros H. apply switch_touches in H. eapply quiet_then; [|exact H].
      eapply quiet_trans; [apply Pv|apply quiet_put].
    + destruct (get_var s src) as [[b [d|]]|]; try discriminate. intros H. apply switch_touches in H. eapply quiet_then; [|exact H].
      eapply quiet_trans; [apply Pv|apply quiet_put].
    + injection 1 as <-. apply quiet_touches, quiet_put.
    + destruct (uf_kind f); try discriminate; destruct (forced_caught f); try discriminate; destruct v as [v|]; try discriminate;
        try (injection 1 as <-; apply quiet_touches, quiet_put);
        (destruct (get_var s v) as [[b h]|]; [|discriminate]; injection 1 as <-; apply quiet_touches; eapply quiet_trans; [apply Pv|apply quiet_put]).
    + destruct (forced_caught f); [discriminate|]. injection 1 as <-. apply quiet_touches. (eapply quiet_trans; [|apply quiet_put]; apply quiet_emit; reflexivity).
    + destruct (uf_caught f) as [[]|]; try discriminate. injection 1 as <-. apply quiet_touches, quiet_put.
    + destruct (uf_caught f); try discriminate. injection 1 as <-. apply quiet_touches, quiet_put.
  - destruct o; try discriminate.
    + destruct (uf_caught f); try discriminate. injection 1 as <-. apply quiet_touches, quiet_put.
    + destruct (forced_caught f); try discriminate. injection 1 as <-. apply quiet_touches, quiet_put.
Qed.

(** C47: a step of thread t, which executes context c, leaves the call stack of every other context as
    it is (local objects, pending exceptions and suspended calls), unless it switches to that context
    (then only the suspended call on top is affected) or releases it. *)
Theorem C47_step s t a s' c : nth_error (s_thr s) t = Some c -> step s t a = Next s' -> touches t c s s'.
Proof.
  intros Ht. unfold step. rewrite Ht. destruct (nth_error (s_rec s) c) as [x|] eqn:Hc; [|discriminate]. destruct a as [|o].
  2:{ destruct (r_frames x) as [|[] rest]; try discriminate. apply user_touches. }
  unfold tau_step. destruct (r_frames x) as [|[f| | |e| | |p| |p| |d b] rest] eqn:Hf; try discriminate.
  - destruct (uf_mode f); try discriminate; (destruct (uf_objs f); [|apply destroy_touches]).
    + unfold leave_ret. destruct (uf_kind f); try discriminate; destruct rest as [|[] rest]; try discriminate;
        try (injection 1 as <-; apply quiet_touches; first [apply quiet_put | (eapply quiet_trans; [|apply quiet_put]; apply quiet_emit; reflexivity)]).
      intros H. apply quiet_touches. apply quiet_ret in H. eapply quiet_trans; [|exact H]. eapply quiet_trans; [|apply quiet_clear]; apply quiet_emit; reflexivity.
    + unfold leave_exn. destruct (uf_kind f); try discriminate; destruct rest as [|[] rest]; try discriminate;
        try (injection 1 as <-; apply quiet_touches; apply quiet_put).
      * destruct e; try discriminate. injection 1 as <-. apply quiet_touches. (eapply quiet_trans; [|apply quiet_put]; apply quiet_emit; reflexivity).
      * intros H. apply quiet_touches. apply quiet_raise in H. eapply quiet_trans; [|exact H]; apply quiet_emit; reflexivity.
  - destruct p as [d|]; [|discriminate]. rewrite Hc. intros H. apply switch_touches in H. eapply quiet_then; [|exact H].
    eapply quiet_put_rec; eauto.
  - apply drop_touches.
  - unfold rel_step. destruct (nth_error (s_rec s) d) as [y|] eqn:Hd; [|discriminate]. destruct (r_alive y); [|discriminate].
    destruct (r_caps y) as [|o l].
    + destruct (r_alloc y) as [al|]; [|discriminate].
      assert (G : forall s1 fs new, s_rec s1 = upd (s_rec s) d (set_dead y) -> s_tr s1 = new ++ EvFree d al c :: s_tr s -> s_thr s1 = s_thr s -> no_sw new -> touches t c s (put_frames s1 c fs)).
      { intros s1 fs new R T Th Nw. exists (new ++ [EvFree d al c]). rewrite put_frames_tr, <- app_assoc. split; [exact T|].
        split; [left; split; [apply no_sw_app; [exact Nw|reflexivity]|rewrite put_frames_thr'; exact Th]|]. intros e fs' N He.
        destruct (Nat.eq_dec e d) as [->|Ne]; [right; right; exists al; apply in_or_app; right; left; reflexivity|]. left.
        unfold stack_of in *. rewrite put_frames_other by (intros [E|[]]; congruence). rewrite R, nth_upd_ne by auto. exact He. }
      destruct b.
      * destruct rest as [|[] rest]; try discriminate. injection 1 as <-. eapply (G _ _ [EvThrow c 1]); reflexivity.
      * injection 1 as <-. eapply (G _ _ []); reflexivity.
    + intros H. apply destroy_touches in H. eapply quiet_then; [|exact H]. eapply quiet_put_rec; eauto.
Qed.

(** C47: as long as a context is neither switched to nor released, its call stack stays as it is,
    whatever the threads do (any history). *)
Lemma run_grows l : forall s s', run s l = Next s' -> exists new, s_tr s' = new ++ s_tr s.
Proof.
  induction l as [|[t a] l IH]; intros s s'; cbn [run]; [injection 1 as <-; exists []; reflexivity|].
  destruct (step s t a) as [s1| | | | |] eqn:E; try discriminate. intros H. apply IH in H. destruct H as [n2 E2].
  assert (exists n1, s_tr s1 = n1 ++ s_tr s) as [n1 E1].
  { destruct (nth_error (s_thr s) t) as [c|] eqn:Ht; [|unfold step in E; rewrite Ht in E; discriminate].
    destruct (C47_step s t a s1 c Ht E) as (n1 & E1 & _). eauto. }
  exists (n2 ++ n1). rewrite E2, E1, app_assoc. reflexivity.
Qed.

Lemma running_nosw new tr t : no_sw new -> running (new ++ tr) t = running tr t.
Proof.
  unfold no_sw. induction new as [|e new IH]; cbn; [reflexivity|]. intros H. apply andb_prop in H. destruct H as [H1 H2].
  destruct e; try discriminate; cbn; auto.
Qed.
(** the thread's current context is what the history says, in every state of every run *)
Lemma run_threads n l s : run (init n) l = Next s -> forall t c, nth_error (s_thr s) t = Some c -> t < n /\ running (s_tr s) t = c.
Proof.
  intros H. enough (G : forall s0, length (s_thr s0) = n -> (forall t c, nth_error (s_thr s0) t = Some c -> running (s_tr s0) t = c) ->
    forall s, run s0 l = Next s -> forall t c, nth_error (s_thr s) t = Some c -> t < n /\ running (s_tr s) t = c).
  { apply (G (init n)); auto; cbn; [apply seq_length|]. intros t c Ht. apply nth_error_nth with (d := 0) in Ht as E.
    rewrite seq_nth in E; [lia|]. apply nth_some_lt in Ht. rewrite seq_length in Ht. exact Ht. }
  clear H s. induction l as [|[t a] l IH]; intros s0 L Hs s; cbn [run].
  - injection 1 as <-. intros t c Ht. split; [rewrite <- L; eapply nth_some_lt; eauto|auto].
  - destruct (step s0 t a) as [s1| | | | |] eqn:E; try discriminate. apply IH.
    + destruct (nth_error (s_thr s0) t) as [c|] eqn:Ht; [|unfold step in E; rewrite Ht in E; discriminate].
      destruct (C47_step s0 t a s1 c Ht E) as (new & _ & [[_ ->]|(d & k & m1 & m2 & _ & _ & _ & ->)] & _); [exact L|rewrite upd_length; exact L].
    + intros t' c' Ht'. destruct (nth_error (s_thr s0) t) as [c|] eqn:Ht; [|unfold step in E; rewrite Ht in E; discriminate].
      destruct (C47_step s0 t a s1 c Ht E) as (new & -> & [[N Th]|(d & k & m1 & m2 & -> & A & B & Th)] & _).
      * rewrite running_nosw by exact N. rewrite Th in Ht'. auto.
      * rewrite <- app_assoc. rewrite running_nosw by exact A. cbn. rewrite Th, nth_upd in Ht'. destruct (Nat.eqb_spec t t') as [->|Ne].
        -- destruct (_ <? _); [|discriminate]. congruence.
        -- rewrite running_nosw by exact B. auto.
Qed.

Theorem C47_untouched n l s l2 s' d : run (init n) l = Next s -> run s l2 = Next s' ->
  (forall t, t < n -> running (s_tr s) t <> d) ->
  (exists new, s_tr s' = new ++ s_tr s /\ (forall t from k, ~ In (EvSwitch t from d k) new) /\ (forall a on, ~ In (EvFree d a on) new)) ->
  d < length (s_rec s) -> stack_of s' d = stack_of s d.
Proof.
  intros H0 H Hr Hn Hd.
  assert (Hd' : exists fs, stack_of s d = Some fs).
  { unfold stack_of. destruct (nth_error (s_rec s) d) eqn:E; [eexists; reflexivity|]. apply nth_error_None in E. lia. }
  destruct Hd' as [fs Hfs]. rewrite Hfs. clear Hd. revert l s H0 H Hr Hn Hfs.
  induction l2 as [|[t a] l2 IH]; intros l s H0 H Hr Hn Hfs; cbn [run] in H; [injection H as <-; exact Hfs|].
  destruct (step s t a) as [s1| | | | |] eqn:E; try discriminate.
  destruct (nth_error (s_thr s) t) as [c|] eqn:Ht; [|unfold step in E; rewrite Ht in E; discriminate].
  destruct (run_threads n l s H0 t c Ht) as [Lt Rt].
  assert (Nc : d <> c) by (intros ->; exact (Hr t Lt Rt)).
  destruct (C47_step s t a s1 c Ht E) as (n1 & E1 & T1 & G). destruct (run_grows _ _ _ H) as [n2 E2].
  destruct Hn as (new & En & N1 & N2). assert (Enew : new = n2 ++ n1).
  { rewrite En, E1, app_assoc in E2. apply app_inv_tail in E2. exact E2. }
  subst new.
  assert (H1 : run (init n) (l ++ [(t, a)]) = Next s1) by (rewrite run_app, H0; cbn; rewrite E; reflexivity).
  apply (IH (l ++ [(t, a)]) s1 H1 H).
  - intros t' Lt'. rewrite E1. destruct T1 as [[T1 _]|(e & k & m1 & m2 & -> & A & B & _)].
    + rewrite running_nosw by exact T1. auto.
    + rewrite <- app_assoc. rewrite running_nosw by exact A. cbn. destruct (Nat.eqb_spec t t') as [->|Ne].
      * intros ->. apply (N1 t' c k). apply in_or_app. right. apply in_or_app. right. left. reflexivity.
      * rewrite running_nosw by exact B. auto.
  - exists n2. split; [exact E2|]. split; [intros t' f k Hi; apply (N1 t' f k); apply in_or_app; auto|intros a' on Hi; apply (N2 a' on); apply in_or_app; auto].
  - destruct (G d fs Nc Hfs) as [A|[(k & fs' & A & _)|(a' & A)]]; [exact A| |].
    + exfalso. apply (N1 t c k). apply in_or_app; auto.
    + exfalso. apply (N2 a' c). apply in_or_app; auto.
Qed.

(* ------------------------------------------------------------------ the hypotheses can be met *)

(** The run [demo] of P_Uctx.v is calm; it contains objects, a call that returns, one that throws the
    unwind request, an injected function and a destructor that waits. *)
Theorem C46_hypotheses_met : exists s, run (init 1) demo = Next s /\ calm (s_tr s) /\
  In (EvDtor (OnCtx 1) (OUsr 0)) (s_tr s) /\ In (EvRaised 1 (XForced (Some 0))) (s_tr s) /\ In (EvDestroyed 0) (s_tr s) /\
  (exists g r, In (EvOntopRet 1 g r) (s_tr s)) /\ In (EvFree 1 3 0) (s_tr s).
Proof.
  destruct uctx_hypotheses_met as (s & H & Hc & _). exists s. split; [exact H|]. split; [exact Hc|]. clear Hc.
  assert (E : Next s = run (init 1) demo) by (symmetry; exact H). vm_compute in E. injection E as ->. clear. cbn [s_tr].
  repeat (split; [cbn; now eauto 40|]). cbn; eauto 40.
Qed.

(** Operations: after creating a fiber and resuming it, thread 0 runs user code of context 1; variable 0 is
    empty, variable 1 denotes the suspended main context. *)
Definition ex_ops : list (nat * label) := map (fun o => (0, LUser o)) [UCreate 3 [CapUsr] CrOk; UCreate 4 [CapFib 0] CrOk; UResume 2].
Theorem C45_hypotheses_met : exists s, run (init 1) ex_ops = Next s /\ user_on s 0 2 /\
  get_var s 0 = Some (false, None) /\ get_var s 1 = Some (false, Some 1) /\ get_var s 3 = Some (false, Some 0) /\
  stack_of s 0 <> stack_of (init 1) 0 /\ stack_of s 1 = Some [FStart] /\
  (exists s', step s 0 (LUser (UMoveAssign 0 3)) = Next s' /\ get_var s' 0 = Some (false, Some 0)) /\
  (exists s' e, step s 0 (LUser (UResumeWith 3 7)) = Next s' /\ hd_error (s_tr s') = Some e /\ running (s_tr s') 0 = 0).
Proof.
  eexists. split; [vm_compute; reflexivity|]. split; [split; [reflexivity|eexists _, _, _; split; [reflexivity|split; reflexivity]]|].
  split; [reflexivity|]. split; [reflexivity|]. split; [reflexivity|]. split; [vm_compute; discriminate|]. split; [reflexivity|].
  split; [eexists; split; [vm_compute; reflexivity|reflexivity]|]. eexists _, _. split; [vm_compute; reflexivity|]. split; reflexivity.
Qed.
