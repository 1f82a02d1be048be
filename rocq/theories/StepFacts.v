(** Facts about single steps: the history grows; suspended contexts are not touched. *)
From Coq Require Import List Arith Bool Lia.
From Verif Require Import ListUtil Fiber FiberInv FiberInv2 FiberInv3 Micro MicroInv FiberSpec TraceInv CallInv CallInv2 StackInv ObjInv ExnInv HistInv.
Import ListNotations.

Lemma mstep_grows t s s' : mstep t s s' -> exists es, s_tr s' = es ++ s_tr s.
Proof.
  destruct 1; rewrite Etr; eauto.
  - exists (es ++ [EvSwitch t c me h SwJump]). rewrite <- app_assoc. reflexivity.
  - exists (es ++ [EvSwitch t c me h (SwOntop g)]). rewrite <- app_assoc. reflexivity.
  - exists [ev; EvSwitch t c me h SwUnwind]. reflexivity.
  - exists [EvDone c r]. reflexivity.
  - eexists [_]. reflexivity.
  - exists (EvSwitch t c me (mk_fc d 0) SwCreate :: es). reflexivity.
  - exists [EvDtor (OnCtx d) o]. reflexivity.
  - exists (es ++ [EvFree d a c; EvRecord d]). rewrite <- app_assoc. reflexivity.
Qed.
Lemma step_grows s t l s' : SInv s -> step s t l = Next s' -> exists es, s_tr s' = es ++ s_tr s.
Proof.
  intros I H. apply step_micro in H; auto. clear I. induction H as [|s1 s2 s3 H1 H2 IH]; [exists []; reflexivity|].
  apply mstep_grows in H1. destruct H1 as [e1 E1]. destruct IH as [e2 E2]. exists (e2 ++ e1). rewrite E2, E1, app_assoc. reflexivity.
Qed.
Lemma run_grows l : forall s s', SInv s -> run s l = Next s' -> exists es, s_tr s' = es ++ s_tr s.
Proof.
  induction l as [|[t a] l IH]; intros s s' I H; cbn in H; [injection H as <-; exists []; reflexivity|].
  pose proof (step_good s t a I) as G. destruct (step s t a) as [s1| | | | |] eqn:E; try discriminate. cbn in G.
  apply step_grows in E; auto. destruct E as [e1 E1]. destruct (IH _ _ G H) as [e2 E2]. exists (e2 ++ e1). rewrite E2, E1, app_assoc. reflexivity.
Qed.

(* ------------------------------------------------------------------ contexts other than the running one *)

Definition unch (s s' : state) : Prop :=
  forall d tx, nth_error (s_ctxs s) d = Some tx -> cx_status tx = SSusp -> nth_error (s_ctxs s') d = Some tx.
Definition oth (t : nat) (s s' : state) : Prop :=
  forall d tx, nth_error (s_ctxs s) d = Some tx -> cx_status tx = SSusp ->
    nth_error (s_ctxs s') d = Some tx \/
    exists c me v k fs', In (EvSwitch t c me (mk_fc d (cx_ver tx)) k) (s_tr s') /\ continued c me v k (cx_frames tx) fs' /\
      nth_error (s_ctxs s') d = Some (mk_cx fs' (SRun t) (cx_ver tx) (cx_alloc tx) (cx_caps tx)).

Lemma unch_refl s : unch s s.
Proof. intros d tx H _. exact H. Qed.
Lemma unch_trans a b c : unch a b -> unch b c -> unch a c.
Proof. intros H1 H2 d tx H3 H4. apply H2; auto. Qed.
Lemma unch_oth t a b c : unch a b -> oth t b c -> oth t a c.
Proof. intros H1 H2 d tx H3 H4. apply H2; auto. Qed.
Lemma oth_unch t a b : unch a b -> oth t a b.
Proof. intros H1 d tx H3 H4. left. apply H1; auto. Qed.
Lemma unch_ctxs a b : s_ctxs a = s_ctxs b -> unch a b.
Proof. intros H d tx H1 _. congruence. Qed.
Lemma unch_put s c cx fs : nth_error (s_ctxs s) c = Some cx -> cx_status cx <> SSusp -> unch s (put_frames s c fs).
Proof.
  intros H N d tx H1 H2. rewrite (put_frames_ctxs _ _ _ _ H). rewrite nth_upd_ne; auto. intros ->. congruence.
Qed.
Lemma unch_upd s s' c cx x : nth_error (s_ctxs s) c = Some cx -> cx_status cx <> SSusp -> s_ctxs s' = upd (s_ctxs s) c x -> unch s s'.
Proof. intros H N E d tx H1 H2. rewrite E. rewrite nth_upd_ne; auto. intros ->. congruence. Qed.

Lemma wfs_entry1 main rest : wfs main (FEntry1 :: rest) -> rest = [].
Proof. destruct rest; auto. rewrite wfs_cons. intros [[] _]. Qed.

Section Sw.
  Variables (s : state) (t c : nat) (cx : ctx) (h : fctx).
  Hypothesis (Hsh : forall d tx, nth_error (s_ctxs s) d = Some tx -> cx_status tx = SSusp -> wfs (is_main tx) (cx_frames tx)).
  Hypothesis (Hc : nth_error (s_ctxs s) c = Some cx) (Hr : cx_status cx = SRun t).

  Lemma sw_oth s0 fs st k s' me : s_ctxs s0 = s_ctxs s -> switch (put_frames s0 c fs) t c st h k = Some (s', me) ->
    exists tx, nth_error (s_ctxs s) (fc_ctx h) = Some tx /\ cx_status tx = SSusp /\ cx_ver tx = fc_ver h /\
      wfs (is_main tx) (cx_frames tx) /\
      nth_error (s_ctxs s') (fc_ctx h) = Some (mk_cx (cx_frames tx) (SRun t) (cx_ver tx) (cx_alloc tx) (cx_caps tx)) /\
      In (EvSwitch t c me h k) (s_tr s') /\ frames_of s' (fc_ctx h) = cx_frames tx /\
      (forall d tx, nth_error (s_ctxs s) d = Some tx -> cx_status tx = SSusp -> d <> fc_ctx h -> nth_error (s_ctxs s') d = Some tx).
  Proof.
    intros E0 E. unfold switch in E. rewrite <- E0 in *. rewrite (put_frames_ctxs _ _ _ _ Hc) in E.
    rewrite nth_upd_lt in E by (eapply nth_some_lt; eauto).
    destruct (Nat.eq_dec (fc_ctx h) c) as [Eh|N].
    - rewrite Eh, nth_upd_lt in E by (eapply nth_some_lt; eauto). cbn [cx_status set_frames] in E. rewrite Hr in E. discriminate.
    - rewrite nth_upd_ne in E by auto. destruct (nth_error (s_ctxs s0) (fc_ctx h)) as [tx|] eqn:Etx; [|discriminate].
      destruct (cx_status tx) eqn:Est; try discriminate. destruct (Nat.eqb_spec (cx_ver tx) (fc_ver h)) as [Ev|]; [|discriminate].
      injection E as <- <-. exists tx. 
      assert (Hn : nth_error (upd (upd (upd (s_ctxs s0) c (set_frames cx fs)) c
           (mk_cx fs st (S (cx_ver cx)) (cx_alloc cx) (cx_caps cx))) (fc_ctx h) (mk_cx (cx_frames tx) (SRun t) (cx_ver tx) (cx_alloc tx) (cx_caps tx))) (fc_ctx h)
           = Some (mk_cx (cx_frames tx) (SRun t) (cx_ver tx) (cx_alloc tx) (cx_caps tx))).
      { apply nth_upd_lt. rewrite !upd_length. eapply nth_some_lt; eauto. }
      repeat split; auto; cbn [s_ctxs s_tr].
      + eapply Hsh; eauto.
      + left. reflexivity.
      + unfold frames_of. cbn [s_ctxs]. cbn [set_frames cx_frames cx_ver cx_alloc cx_caps]. rewrite Hn. reflexivity.
      + intros d tx' H1 H2 H3. rewrite nth_upd_ne by auto. assert (d <> c) by (intros ->; congruence). rewrite !nth_upd_ne by auto. exact H1.
  Qed.

  (** after the switch only the frames of the target are replaced *)
  Lemma after_oth s0 fs st k s' me s'' fs' v : s_ctxs s0 = s_ctxs s -> switch (put_frames s0 c fs) t c st h k = Some (s', me) ->
    s_ctxs s'' = s_ctxs (put_frames s' (fc_ctx h) fs') -> (forall e, In e (s_tr s') -> In e (s_tr s'')) ->
    (forall tx, nth_error (s_ctxs s) (fc_ctx h) = Some tx -> cx_status tx = SSusp -> wfs (is_main tx) (cx_frames tx) -> frames_of s' (fc_ctx h) = cx_frames tx -> continued c me v k (cx_frames tx) fs') -> oth t s s''.
  Proof.
    intros E0 E E2 Hi Hct. destruct (sw_oth _ _ _ _ _ _ E0 E) as [tx [H1 [H2 [H3 [H4 [H5 [H6 [H7 H8]]]]]]]].
    intros d tx' Hd Hs. destruct (Nat.eq_dec d (fc_ctx h)) as [->|N].
    - right. assert (tx' = tx) by congruence. subst tx'. exists c, me, v, k, fs'. rewrite H3, fctx_eta. repeat split; auto.
      rewrite E2, (put_frames_ctxs _ _ _ _ H5). rewrite nth_upd_lt by (eapply nth_some_lt; eauto). unfold set_frames; cbn. rewrite H3. reflexivity.
    - left. rewrite E2, (put_frames_ctxs _ _ _ _ H5). rewrite nth_upd_ne by auto. apply H8; auto.
  Qed.
  Lemma jump_oth s0 fs s' : s_ctxs s0 = s_ctxs s -> do_jump s0 t c fs h = Next s' ->
    (forall f1 r1 tx, nth_error (s_ctxs s) (fc_ctx h) = Some tx -> cx_frames tx = f1 :: r1 -> f1 <> FDtor) -> oth t s s'.
  Proof.
    unfold do_jump. intros E0 E Hnd. destruct (switch _ _ _ _ _ _) as [[s1 me]|] eqn:Es; [|discriminate].
    assert (G : forall fs', s_ctxs s' = s_ctxs (put_frames s1 (fc_ctx h) fs') -> (forall e, In e (s_tr s1) -> In e (s_tr s')) ->
       (forall tx, nth_error (s_ctxs s) (fc_ctx h) = Some tx -> wfs (is_main tx) (cx_frames tx) -> frames_of s1 (fc_ctx h) = cx_frames tx -> continued c me (length (s_vars s1)) SwJump (cx_frames tx) fs') -> oth t s s').
    { intros fs' G1 G2 G3. eapply after_oth; eauto. }
    unfold deliver in E. destruct (frames_of s1 (fc_ctx h)) as [|f1 r1] eqn:Ef; [discriminate|].
    destruct f1; try discriminate.
    1-3: destruct r1 as [|[] r1]; try discriminate; injection E as <-; eapply G;
        [rewrite !put_frames_emit, put_frames_add; reflexivity|rewrite put_frames_tr; cbn; auto|
         intros tx _ _ <-; apply ct_returns; eauto].
    - exfalso. destruct (sw_oth _ _ _ _ _ _ E0 Es) as [tx [H1 [_ [_ [_ [_ [_ [H7 _]]]]]]]]. rewrite Ef in H7. eapply Hnd; eauto.
    - injection E as <-. eapply G; [rewrite !put_frames_emit, put_frames_add; reflexivity|rewrite put_frames_tr; cbn; auto|].
      intros tx _ Hw E1. rewrite <- E1 in *. apply wfs_entry1 in Hw. subst r1. apply ct_starts.
  Qed.
  Lemma unwind_oth s0 fs s' : s_ctxs s0 = s_ctxs s -> do_unwind s0 t c fs h = Next s' ->
    (forall f1 r1 tx, nth_error (s_ctxs s) (fc_ctx h) = Some tx -> cx_frames tx = f1 :: r1 -> resumable_frame f1 = true) -> oth t s s'.
  Proof.
    unfold do_unwind. intros E0 E Hrs. destruct (switch _ _ _ _ _ _) as [[s1 me]|] eqn:Es; [|discriminate].
    assert (G : forall fs', s_ctxs s' = s_ctxs (put_frames s1 (fc_ctx h) fs') -> (forall e, In e (s_tr s1) -> In e (s_tr s')) ->
       (forall tx, nth_error (s_ctxs s) (fc_ctx h) = Some tx -> wfs (is_main tx) (cx_frames tx) -> frames_of s1 (fc_ctx h) = cx_frames tx -> continued c me 0 SwUnwind (cx_frames tx) fs') -> oth t s s').
    { intros fs' G1 G2 G3. eapply after_oth; eauto. }
    destruct (sw_oth _ _ _ _ _ _ E0 Es) as [tx0 [H1 [_ [_ [H4 [_ [_ [H7 _]]]]]]]].
    unfold raise in E. rewrite H7 in *. destruct (cx_frames tx0) as [|f1 r1] eqn:Ef; [discriminate|].
    specialize (Hrs _ _ _ H1 Ef). destruct f1; try discriminate.
    1-2: destruct r1 as [|[] r1]; try discriminate; injection E as <-; eapply G;
        [rewrite !put_frames_emit; reflexivity|rewrite put_frames_tr; cbn; auto|
         intros tx _ _ <-; apply ct_throws; eauto].
    injection E as <-. eapply G; [rewrite !put_frames_emit; reflexivity|rewrite put_frames_tr; cbn; auto|].
    intros tx _ Hw E1. rewrite <- E1 in *. apply wfs_entry1 in Hw. subst r1. apply ct_left.
  Qed.
  Lemma ontop_oth s0 fs g s' : s_ctxs s0 = s_ctxs s -> do_ontop s0 t c fs h g = Next s' -> oth t s s'.
  Proof.
    unfold do_ontop. intros E0 E. destruct (switch _ _ _ _ _ _) as [[s1 me]|] eqn:Es; [|discriminate]. injection E as <-.
    eapply after_oth; eauto.
    - rewrite !put_frames_emit, put_frames_add. reflexivity.
    - rewrite put_frames_tr. cbn. auto.
    - intros tx _ _ _ ->. apply ct_injected.
  Qed.
  Lemma exit_oth s' : do_exit s t c h = Next s' -> oth t s s'.
  Proof.
    unfold do_exit. intros E. destruct (switch _ _ _ _ _ _) as [[s1 me]|] eqn:Es; [|discriminate]. injection E as <-.
    eapply (after_oth s _ _ _ _ _ _ _ 0); eauto.
    - rewrite put_frames_tr. auto.
    - intros tx _ _ _ ->. apply ct_release.
  Qed.
End Sw.

Lemma deliver_unch s c cx fs r s' : nth_error (s_ctxs s) c = Some cx -> cx_status cx <> SSusp -> deliver s c fs r = Next s' -> unch s s'.
Proof.
  intros Hc Hs E. unfold deliver in E.
  assert (G : forall s1 fs', s_ctxs s1 = s_ctxs s -> unch s (put_frames s1 c fs')).
  { intros s1 fs' E1. eapply unch_trans; [apply unch_ctxs; symmetry; eauto|]. eapply unch_put; [rewrite E1|]; eauto. }
  destruct fs as [|[] rest]; try discriminate; try (injection E as <-; apply G; reflexivity);
   destruct rest as [|[] rest]; try discriminate; injection E as <-; apply G; reflexivity.
Qed.
Lemma raise_unch s c cx fs r s' : nth_error (s_ctxs s) c = Some cx -> cx_status cx <> SSusp -> raise s c fs r = Next s' -> unch s s'.
Proof.
  intros Hc Hs E. unfold raise in E.
  assert (G : forall s1 fs', s_ctxs s1 = s_ctxs s -> unch s (put_frames s1 c fs')).
  { intros s1 fs' E1. eapply unch_trans; [apply unch_ctxs; symmetry; eauto|]. eapply unch_put; [rewrite E1|]; eauto. }
  destruct fs as [|[] rest]; try discriminate; try (destruct r; [discriminate|injection E as <-; apply G; reflexivity]);
   destruct rest as [|[] rest]; try discriminate; injection E as <-; apply G; reflexivity.
Qed.

Lemma caps_ctxs l : forall s d acc s1 r, do_caps s d l acc = Some (s1, r) -> s_ctxs s1 = s_ctxs s.
Proof.
  induction l as [|[v|] l IH]; intros s d acc s1 r E; cbn in E.
  - injection E as <- _. reflexivity.
  - destruct (get_var s v) as [[b h]|]; [|discriminate]. apply IH in E. exact E.
  - apply IH in E. exact E.
Qed.

Section Step.
  Variables (s : state) (t c : nat) (cx : ctx).
  Hypothesis (I : SInv s) (Hc : nth_error (s_ctxs s) c = Some cx) (Hr : cx_status cx = SRun t).

  Lemma nsusp : cx_status cx <> SSusp.
  Proof. congruence. Qed.

  Lemma var_resumable v b h : nth_error (s_vars s) v = Some (VLive b (Some h)) ->
    forall f1 r1 tx, nth_error (s_ctxs s) (fc_ctx h) = Some tx -> cx_frames tx = f1 :: r1 -> resumable_frame f1 = true.
  Proof.
    intros Hv f1 r1 tx H1 H2. apply var_cnt in Hv. apply inv_denotes in Hv; auto.
    destruct Hv as [tx' [f1' [r1' [G1 [_ [_ [G4 [G5 _]]]]]]]]. assert (tx' = tx) by congruence. subst. rewrite H2 in G4. injection G4 as <- <-.
    destruct f1; auto.
  Qed.

  Lemma pf_unch s1 fs : s_ctxs s1 = s_ctxs s -> unch s (put_frames s1 c fs).
  Proof.
    intros E1. eapply unch_trans; [apply unch_ctxs; symmetry; exact E1|]. eapply unch_put; [rewrite E1; exact Hc|apply nsusp].
  Qed.

  Lemma shs : forall d tx, nth_error (s_ctxs s) d = Some tx -> cx_status tx = SSusp -> wfs (is_main tx) (cx_frames tx).
  Proof. intros d tx H1 H2. pose proof (i_shape _ _ _ _ _ I _ _ H1) as X. unfold shape in X. rewrite H2 in X. tauto. Qed.

  Lemma unwindv_oth s0 fs v b h s' : s_ctxs s0 = s_ctxs s -> nth_error (s_vars s) v = Some (VLive b (Some h)) ->
    do_unwind s0 t c fs h = Next s' -> oth t s s'.
  Proof.
    intros E0 Hv E. eapply (unwind_oth s t c cx h); eauto using shs. eapply var_resumable; eauto.
  Qed.

  Lemma destroy_oth fs p o s' : destroy s t c fs p o = Next s' -> oth t s s'.
  Proof.
    unfold destroy. intros E. destruct o as [v|u].
    - destruct (nth_error (s_vars s) v) as [[|b [h|]]|] eqn:Ev; try discriminate.
      + eapply unwindv_oth; [|exact Ev|exact E]. reflexivity.
      + injection E as <-. apply oth_unch. apply pf_unch. reflexivity.
    - injection E as <-. apply oth_unch. apply pf_unch. reflexivity.
  Qed.

  (** the same for an object inside the record of a finished context *)
  Lemma destroy_cap_oth d dx l fs p o s' : nth_error (s_ctxs s) d = Some dx -> cx_status dx = SDying ->
    destroy (put_ctx s d (set_caps dx l)) t c fs p o = Next s' -> oth t s s'.
  Proof.
    intros Hd Hds. unfold destroy. intros E. set (s1 := put_ctx s d (set_caps dx l)) in *.
    assert (Hu : unch s s1) by (eapply unch_upd; eauto; [congruence|reflexivity]).
    assert (Hdc : d <> c) by (intros ->; congruence).
    assert (Hc1 : nth_error (s_ctxs s1) c = Some cx) by (unfold s1, put_ctx; cbn; rewrite nth_upd_ne; auto).
    assert (Hb : forall d' tx, nth_error (s_ctxs s1) d' = Some tx -> cx_status tx = SSusp -> nth_error (s_ctxs s) d' = Some tx).
    { intros d' tx H1 H2. unfold s1, put_ctx in H1; cbn in H1. apply nth_upd_inv in H1. destruct H1 as [[-> [-> _]]|[_ H1]]; auto.
      cbn in H2. congruence. }
    assert (Hpf : forall s2 fs, s_ctxs s2 = s_ctxs s1 -> unch s (put_frames s2 c fs)).
    { intros s2 fs2 E2. eapply unch_trans; [exact Hu|]. eapply unch_trans; [apply unch_ctxs; symmetry; exact E2|]. eapply unch_put; [rewrite E2; exact Hc1|apply nsusp]. }
    change (s_vars s1) with (s_vars s) in E.
    destruct o as [v|u].
    - destruct (nth_error (s_vars s) v) as [[|b [h|]]|] eqn:Ev; try discriminate.
      + eapply unch_oth; [exact Hu|]. eapply (unwind_oth s1 t c cx h) with (5 := E); eauto.
        * intros d' tx H1 H2. eapply shs; eauto.
        * intros f1 r1 tx H1 H2. pose proof Ev as Ev'. apply var_cnt in Ev'. apply inv_denotes in Ev'; auto.
          destruct Ev' as [tx' [_ [_ [G1 [G2 _]]]]].
          assert (N : fc_ctx h <> d) by (intros Q; rewrite Q in G1; congruence).
          unfold s1, put_ctx in H1. cbn in H1. rewrite nth_upd_ne in H1 by auto. exact (var_resumable _ _ _ Ev _ _ _ H1 H2).
      + injection E as <-. apply oth_unch. apply Hpf. reflexivity.
    - injection E as <-. apply oth_unch. apply Hpf. reflexivity.
  Qed.

  Lemma exit_step_oth d rest s' : exit_step s t c d rest = Next s' -> oth t s s'.
  Proof.
    unfold exit_step. intros E. destruct (nth_error (s_ctxs s) d) as [dx|] eqn:Hd; [|discriminate].
    destruct (cx_status dx) eqn:Hds; try discriminate. destruct (cx_caps dx) as [|o l].
    - destruct (cx_alloc dx) as [a|]; [|discriminate]. apply oth_unch.
      assert (Hdc : d <> c) by (intros ->; congruence).
      eapply unch_trans; [|eapply deliver_unch; [|apply nsusp|exact E]; cbn; rewrite nth_upd_ne; auto].
      eapply unch_upd; eauto; [congruence|reflexivity].
    - eapply destroy_cap_oth; eauto.
  Qed.

  Lemma lret_oth f rest r s' : leave_ret s c f rest r = Next s' -> oth t s s'.
  Proof.
    unfold leave_ret. intros E. apply oth_unch. destruct (uf_kind f); try discriminate; try (injection E as <-; apply pf_unch; reflexivity);
    destruct rest as [|[] rest]; try discriminate; try (injection E as <-; apply pf_unch; reflexivity).
    eapply unch_trans; [|eapply deliver_unch; [|apply nsusp|exact E]; eauto]. apply unch_ctxs. reflexivity.
  Qed.
  Lemma lexn_oth f rest r s' : leave_exn s c f rest r = Next s' -> oth t s s'.
  Proof.
    unfold leave_exn. intros E. apply oth_unch. destruct (uf_kind f); try discriminate;
    destruct rest as [|[] rest]; try discriminate; try (injection E as <-; apply pf_unch; reflexivity).
    - eapply raise_unch; eauto. apply nsusp.
    - eapply unch_trans; [|eapply raise_unch; [|apply nsusp|exact E]; eauto]. apply unch_ctxs. reflexivity.
  Qed.

  Lemma tau_oth s' : tau_step s t c (cx_frames cx) = Next s' -> oth t s s'.
  Proof.
    unfold tau_step. intros E. destruct (cx_frames cx) as [|[] rest] eqn:Hf; try discriminate.
    - destruct (uf_mode f); try discriminate; (destruct (uf_objs f); [(eapply lret_oth; eassumption) || (eapply lexn_oth; eassumption)|eapply destroy_oth; eauto]).
    - eapply (jump_oth s t c cx t0); eauto using shs. intros f1 r1 tx H1 H2 ->.
      assert (Hq : 0 < cnt CC t0 s).
      { eapply (frame_cnt s c cx); eauto. rewrite Hf. cbn. rewrite w1_self. lia. }
      apply inv_denotes in Hq; auto. destruct Hq as [tx' [f' [r' [G1 [_ [_ [G4 [G5 _]]]]]]]]. assert (tx' = tx) by congruence. subst. rewrite H2 in G4. injection G4 as <- <-. discriminate.
    - destruct t0 as [h|]; [|discriminate]. eapply (exit_oth s t c cx h); eauto using shs.
    - eapply exit_step_oth; eauto.
  Qed.

  Lemma new_oth s0 f rest b h s' : s_ctxs s0 = s_ctxs s -> new_fib s0 c f rest b h = Next s' -> oth t s s'.
  Proof. unfold new_fib. intros E0 E. apply oth_unch. destruct b; injection E as <-; apply pf_unch; exact E0. Qed.

  Lemma user_oth f rest o s' : user_step s t c f rest o = Next s' -> oth t s s'.
  Proof.
    unfold user_step. intros E.
    assert (P : forall s1 fs, s_ctxs s1 = s_ctxs s -> oth t s (put_frames s1 c fs)) by (intros; apply oth_unch; apply pf_unch; auto).
    destruct (uf_mode f); try discriminate.
    - destruct o; try discriminate.
      + eapply new_oth; eauto.
      + injection E as <-. apply P. reflexivity.
      + destruct ok; [|injection E as <-; apply P; reflexivity]. unfold do_create in E.
        destruct (do_caps _ _ _ _) as [[s1 r]|] eqn:Ec; [|discriminate]. apply caps_ctxs in Ec. cbn in Ec. rewrite Ec, Hc in E. injection E as <-.
        apply oth_unch. intros d tx H1 H2. cbn. rewrite nth_error_app1 by (rewrite upd_length; eapply nth_some_lt; eauto).
        rewrite nth_upd_ne; auto. intros ->. congruence.
      + destruct (get_var s src) as [[b h]|] eqn:Ev; [|discriminate]. eapply new_oth; [|exact E]. reflexivity.
      + destruct (get_var s dst) as [[bd hd]|] eqn:Ed; [|discriminate]. destruct (get_var s src) as [[bs hs]|] eqn:Ev; [|discriminate].
        destruct (Nat.eqb dst src); [injection E as <-; apply oth_unch, unch_refl|]. apply get_var_some in Ed.
        destruct hd as [h|]; [eapply unwindv_oth; [|exact Ed|exact E]; reflexivity|]. injection E as <-. apply oth_unch, unch_ctxs. reflexivity.
      + destruct (get_var s a) as [[ba ha]|]; [|discriminate]. destruct (get_var s b) as [[bb hb]|]; [|discriminate].
        injection E as <-. apply oth_unch, unch_ctxs. reflexivity.
      + destruct (get_var s v) as [[[] h]|] eqn:Ev; try discriminate. eapply destroy_oth; eauto.
      + destruct (uf_objs f); [discriminate|]. eapply destroy_oth; eauto.
      + destruct (get_var s src) as [[b [h|]]|] eqn:Ev; try discriminate. apply get_var_some in Ev.
        eapply (jump_oth s t c cx h) with (5 := E); eauto using shs. intros f1 r1 tx H1 H2 ->.
        pose proof (var_resumable _ _ _ Ev _ _ _ H1 H2). discriminate.
      + destruct (get_var s src) as [[b [h|]]|] eqn:Ev; try discriminate. 
        eapply (ontop_oth s t c cx h) with (5 := E); eauto using shs.
      + injection E as <-. apply P. reflexivity.
      + destruct (uf_kind f); try discriminate; destruct (forced_caught f); try discriminate; destruct v as [v|]; try discriminate;
          try (injection E as <-; apply P; reflexivity);
          (destruct (get_var s v) as [[b h]|] eqn:Ev; [|discriminate]; injection E as <-; apply P; reflexivity).
      + destruct (forced_caught f); [discriminate|]. injection E as <-. apply P. reflexivity.
      + destruct (uf_caught f) as [[]|]; try discriminate. injection E as <-. apply P; reflexivity.
      + destruct (uf_caught f); try discriminate. injection E as <-. apply P; reflexivity.
    - destruct o; try discriminate.
      + destruct (uf_caught f); try discriminate. injection E as <-. apply P; reflexivity.
      + destruct (forced_caught f); [discriminate|]. injection E as <-. apply P; reflexivity.
  Qed.
End Step.

Lemma step_oth s t l s' : SInv s -> step s t l = Next s' -> oth t s s'.
Proof.
  intros I E. unfold step in E. destruct (nth_error (s_thr s) t) as [c|] eqn:Et; [|discriminate].
  destruct (i_thr _ _ _ _ _ I _ _ Et) as [cx [Hc Hr]]. rewrite Hc in E. destruct l as [|o].
  - eapply tau_oth; eauto.
  - destruct (cx_frames cx) as [|[] rest]; try discriminate. eapply user_oth; eauto.
Qed.
