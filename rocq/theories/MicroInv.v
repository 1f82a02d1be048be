(** Invariants of micro-steps: shape of the stacks, threads. Proof machinery only. *)
From Coq Require Import List Arith Bool Lia.
From Verif Require Import ListUtil Fiber FiberInv FiberInv2 FiberInv3 Micro.
Import ListNotations.

Inductive mreach (n : nat) : state -> Prop :=
| mr_init : mreach n (init n)
| mr_step t s s' : mreach n s -> mstep t s s' -> mreach n s'.

Lemma reach_mreach n s : reachable n s -> mreach n s.
Proof. apply micro_invariant; [constructor|]. intros. econstructor; eauto. Qed.

Lemma nth_upd_inv {A} (l : list A) n m x y :
  nth_error (upd l n x) m = Some y -> (m = n /\ y = x /\ n < length l) \/ (m <> n /\ nth_error l m = Some y).
Proof.
  intros H. rewrite nth_upd in H. destruct (Nat.eqb_spec n m) as [->|E].
  - destruct (Nat.ltb_spec m (length l)); [injection H as <-; auto|discriminate].
  - right. split; auto.
Qed.

(** contexts after a switch from c to d *)
Lemma nth_upd2_inv {A} (l : list A) c d x y m z :
  nth_error (upd (upd l c x) d y) m = Some z ->
  (m = d /\ z = y) \/ (m <> d /\ m = c /\ z = x) \/ (m <> d /\ m <> c /\ nth_error l m = Some z).
Proof.
  intros H. apply nth_upd_inv in H. destruct H as [[-> [-> _]]|[H1 H]]; [auto|].
  apply nth_upd_inv in H. destruct H as [[-> [-> _]]|[H2 H]]; auto.
Qed.

Lemma nth_upd2_to {A} (l : list A) c d x y z : nth_error l d = Some z -> nth_error (upd (upd l c x) d y) d = Some y.
Proof. intros H. apply nth_upd_lt. rewrite upd_length. eapply nth_some_lt; eauto. Qed.
Lemma nth_upd2_from {A} (l : list A) c d x y z : c <> d -> nth_error l c = Some z -> nth_error (upd (upd l c x) d y) c = Some x.
Proof. intros Hn H. rewrite nth_upd_ne by auto. apply nth_upd_lt. eapply nth_some_lt; eauto. Qed.
Lemma nth_upd2_other {A} (l : list A) c d x y m : m <> c -> m <> d -> nth_error (upd (upd l c x) d y) m = nth_error l m.
Proof. intros. rewrite !nth_upd_ne; auto. Qed.

Definition shapes (s : state) : Prop := forall c cx, nth_error (s_ctxs s) c = Some cx -> shape None cx.

Lemma shape_running t cx fs : shape None (mk_cx fs (SRun t) (cx_ver cx) (cx_alloc cx) (cx_caps cx)) <->
  wfs (is_main cx) fs /\ top_ok active fs.
Proof. unfold shape, is_main; cbn. tauto. Qed.

Lemma wfs_top_fu main f f' r : wfs main (FU f :: r) -> uf_kind f' = uf_kind f -> fok f' -> wfs main (FU f' :: r).
Proof.
  intros H Hk Hf. destruct r as [|g r]; cbn in *; rewrite ?Hk; tauto.
Qed.

Lemma wfs_under main w f r : wfs main (w :: FU f :: r) -> wfs main (FU f :: r).
Proof. apply wfs_tail. Qed.

Lemma fok_run f : uf_mode f = MRun -> fok f.
Proof. unfold fok. intros ->. exact I. Qed.

Lemma dl_shape c r fs fs' es main : dl c r fs fs' es -> wfs main fs -> wfs main fs' /\ top_ok active fs'.
Proof.
  intros D H. destruct D.
  - split; [|reflexivity]. apply wfs_tail in H. eapply wfs_top_fu; eauto. apply fok_run. exact Hm.
  - destruct rest as [|g rest]; [destruct Hok|]. split; [apply wfs_tail in H; exact H|apply dtor_ok_active; auto].
  - destruct rest; [|rewrite wfs_cons in H; destruct H as [[] _]]. split; [|reflexivity].
    cbn in *. auto.
Qed.

Lemma lrule_shape c tr fs fs' es main : lrule c tr fs fs' es -> wfs main fs -> top_ok active fs -> wfs main fs' /\ top_ok active fs'.
Proof.
  intros L H Ha. destruct L; try (split; [|reflexivity]).
  - auto.
  - (* ontop_raised *) apply wfs_tail, wfs_tail, wfs_tail in H. eapply wfs_top_fu; eauto. exact I.
  - apply wfs_tail, wfs_tail in H. destruct rest; [exact H|rewrite wfs_cons in H; destruct H as [[] _]].
  - apply wfs_tail in H. destruct rest; [exact H|rewrite wfs_cons in H; destruct H as [[] _]].
  - (* ret_pop *) destruct rest as [|g rest].
    + cbn in H. destruct H as [_ [_ H]]. destruct Hk as [Hk|[u Hk]]; congruence.
    + rewrite wfs_cons in H. destruct H as [[_ Hb] Hw]. split; [exact Hw|].
      destruct Hk as [Hk|[u Hk]]; rewrite Hk in Hb; destruct g; try tauto; reflexivity.
  - (* ret_ontop *) eapply dl_shape; eauto. apply wfs_tail, wfs_tail in H. exact H.
  - apply wfs_tail in H. eapply wfs_top_fu; eauto. exact I.
  - eapply wfs_top_fu; eauto. destruct rest; cbn in H; destruct H as [Hf _]; try (destruct Hf as [Hf _]);
      unfold fok in *; cbn; destruct (uf_mode f); auto.
  - (* push_dtor *) destruct fs as [|g fs]; [destruct Hok|]. rewrite wfs_cons. split; [|exact H].
    cbn. split; [exact I|]. destruct g; cbn in Hok; tauto.
  - auto.
  - eapply wfs_top_fu; eauto. apply fok_run; auto.
  - auto.
  - rewrite wfs_cons. split; [|exact H]. cbn. split; [exact I|exact Hm].
  - eapply wfs_top_fu; eauto. exact I.
  - eapply wfs_top_fu; eauto. unfold fok; cbn. reflexivity.
  - eapply wfs_top_fu; eauto.
Qed.

Lemma rrule_shape c h fs fs' ev main : rrule c h fs fs' ev -> wfs main fs -> wfs main fs' /\ top_ok active fs'.
Proof.
  intros R H. destruct R; split; try reflexivity.
  - apply wfs_tail in H. eapply wfs_top_fu; eauto. exact I.
  - destruct rest; [exact H|rewrite wfs_cons in H; destruct H as [[] _]].
Qed.

Lemma run_shape cx t : shape None cx -> cx_status cx = SRun t -> wfs (is_main cx) (cx_frames cx) /\ top_ok active (cx_frames cx).
Proof. unfold shape. intros H E. rewrite E in H. exact H. Qed.
Lemma susp_shape cx : shape None cx -> cx_status cx = SSusp -> wfs (is_main cx) (cx_frames cx) /\ top_ok waiting (cx_frames cx).
Proof. unfold shape. intros H E. rewrite E in H. exact H. Qed.

Lemma shapes_step t s s' : shapes s -> mstep t s s' -> shapes s'.
Proof.
  intros IH Hs c' cx' Hn. destruct Hs; rewrite Ectx in Hn.
  - apply nth_upd_inv in Hn. destruct Hn as [[-> [-> _]]|[_ Hn]]; [|eauto].
    pose proof (run_shape _ _ (IH _ _ Hc) Ht) as [Hw Ha]. unfold shape, set_frames, is_main; cbn. rewrite Ht.
    eapply lrule_shape; eauto.
  - apply nth_upd2_inv in Hn. destruct Hn as [[-> ->]|[[_ [-> ->]]|[_ [_ Hn]]]]; [| |eauto].
    + pose proof (susp_shape _ (IH _ _ Htx) Hts) as [Hw Ha]. rewrite Htf in Hw. unfold shape, is_main; cbn. eapply dl_shape; eauto.
    + pose proof (run_shape _ _ (IH _ _ Hc) Ht) as [Hw Ha]. unfold shape; cbn [cx_status cx_frames]. change (is_main (mk_cx fsw SSusp (S (cx_ver cx)) (cx_alloc cx) (cx_caps cx))) with (is_main cx).
      inversion HJ as [f rest Hm Hr E1 E2|Hr E1 E2]; subst fsw; rewrite <- E1 in Hw; split; try reflexivity; try exact Hw.
      rewrite wfs_cons. auto.
  - apply nth_upd2_inv in Hn. destruct Hn as [[-> ->]|[[_ [-> ->]]|[_ [_ Hn]]]]; [| |eauto].
    + pose proof (susp_shape _ (IH _ _ Htx) Hts) as [Hw Ha]. rewrite Htf in Hw. unfold shape, is_main; cbn.
      repeat split; auto.
    + pose proof (run_shape _ _ (IH _ _ Hc) Ht) as [Hw Ha]. rewrite Hcf in Hw. unfold shape; cbn. auto.
  - apply nth_upd2_inv in Hn. destruct Hn as [[-> ->]|[[_ [-> ->]]|[_ [_ Hn]]]]; [| |eauto].
    + pose proof (susp_shape _ (IH _ _ Htx) Hts) as [Hw Ha]. unfold shape, is_main; cbn. eapply rrule_shape; eauto.
    + pose proof (run_shape _ _ (IH _ _ Hc) Ht) as [Hw Ha]. unfold shape; cbn [cx_status cx_frames].
      change (is_main (mk_cx (FDtor :: cx_frames cx) SSusp (S (cx_ver cx)) (cx_alloc cx) (cx_caps cx))) with (is_main cx).
      split; [|reflexivity]. destruct (cx_frames cx) as [|g r]; [destruct Hw|]. rewrite wfs_cons. split; auto.
  - apply nth_upd_inv in Hn. destruct Hn as [[-> [-> _]]|[_ Hn]]; [|eauto].
    pose proof (run_shape _ _ (IH _ _ Hc) Ht) as [Hw Ha]. rewrite Hcf in Hw. apply wfs_tail in Hw.
    unfold shape, set_frames, is_main; cbn. rewrite Ht. split; [|reflexivity].
    destruct rest; [exact Hw|rewrite wfs_cons in Hw; destruct Hw as [[] _]].
  - apply nth_upd2_inv in Hn. destruct Hn as [[-> ->]|[[_ [-> ->]]|[_ [_ Hn]]]]; [| |eauto].
    + pose proof (susp_shape _ (IH _ _ Htx) Hts) as [Hw Ha]. unfold shape. cbn [cx_status cx_frames].
      change (is_main (mk_cx (FExit c :: cx_frames tx) (SRun t) (cx_ver tx) (cx_alloc tx) (cx_caps tx))) with (is_main tx).
      split; [|reflexivity]. rewrite Htf in *. rewrite wfs_cons. auto.
    + pose proof (run_shape _ _ (IH _ _ Hc) Ht) as [Hw Ha]. rewrite Hcf in Hw. unfold shape; cbn. auto.
  - apply nth_app_cases in Hn. destruct Hn as [[_ Hn]|[_ ->]].
    + apply nth_upd_inv in Hn. destruct Hn as [[-> [-> _]]|[_ Hn]]; [|eauto].
      pose proof (run_shape _ _ (IH _ _ Hc) Ht) as [Hw Ha]. rewrite Hcf in Hw. unfold shape; cbn. auto.
    + unfold shape, is_main; cbn. auto.
  - apply nth_upd_inv in Hn. destruct Hn as [[-> [-> _]]|[_ Hn]]; [|eauto].
    pose proof (IH _ _ Hdx) as Hd. unfold shape in *. rewrite Hds in Hd. cbn. rewrite Hds. exact Hd.
  - apply nth_upd2_inv in Hn. destruct Hn as [[-> ->]|[[_ [-> ->]]|[_ [_ Hn]]]]; [| |eauto].
    + pose proof (run_shape _ _ (IH _ _ Hc) Ht) as [Hw Ha]. rewrite Hcf in Hw. unfold shape, set_frames, is_main; cbn. rewrite Ht.
      eapply dl_shape; eauto. destruct rest; [destruct Hw|]. apply wfs_tail in Hw. exact Hw.
    + pose proof (IH _ _ Hdx) as Hd. unfold shape, is_main in *. rewrite Hds in Hd. cbn. tauto.
Qed.

Lemma init_shapes n : shapes (init n).
Proof. intros c cx H. exact (i_shape _ _ _ _ _ (init_inv n) c cx H). Qed.

Lemma m_shapes n s : mreach n s -> shapes s.
Proof. induction 1; [apply init_shapes|eapply shapes_step; eauto]. Qed.
