(** The invariant holds in every reachable state, and no step is undefined behaviour. *)
From Coq Require Import List Arith Bool Lia.
From Verif Require Import ListUtil Fiber FiberInv FiberInv2.
Import ListNotations.

Lemma uf_eta f : mk_uf (uf_kind f) (uf_objs f) (uf_mode f) (uf_caught f) = f.
Proof. destruct f; reflexivity. Qed.

Section Leave.
  Variables (s : state) (t c : nat) (cx : ctx) (f : uframe) (rest : list frame).
  Hypothesis I : SInv s.
  Hypothesis Hc : nth_error (s_ctxs s) c = Some cx.
  Hypothesis Ht : cx_status cx = SRun t.
  Hypothesis Hfs : cx_frames cx = FU f :: rest.

  Lemma wf_here : wfs (is_main cx) (FU f :: rest).
  Proof. rewrite <- Hfs. exact (inv_wfs _ _ _ _ _ _ _ _ I Hc Ht). Qed.

  Lemma leave_ret_inv r :
    uf_mode f = MRet r -> uf_objs f = [] -> good (leave_ret s c f rest r).
  Proof.
    intros Hm Ho. pose proof wf_here as Hwf. unfold leave_ret.
    destruct rest as [|g rest'] eqn:Hr.
    { cbn in Hwf. destruct Hwf as [H [_ Hk]]. unfold fok in H. rewrite Hm, Hk in H. destruct H as [_ []]. }
    rewrite wfs_cons in Hwf. destruct Hwf as [[Hok Hb] Hwf]. unfold fok in Hok. rewrite Hm in Hok. destruct Hok as [Hca Hok].
    assert (Hpop : forall w, r = None -> (w = Some t \/ w = None) -> shape w (set_frames cx (g :: rest')) ->
               Inv (put_frames s c (g :: rest')) None [] w None).
    { intros w Hrn Hw Hsh.
      eapply (inv_pf0 s s t c cx (g :: rest') None [] None None None [] w None I Hc Ht); try reflexivity; rewrite ?Hfs;
        try solve [counts; rewrite ?Hm, ?Ho, ?Hca, ?Hok, ?Hb, ?Hrn; cbn; lia].
      - intros t' Hn. destruct Hw as [-> | ->]; split; congruence.
      - exact Hsh. }
    destruct (uf_kind f) eqn:Hk.
    - tauto.
    - (* KCtx *) subst g. destruct rest' as [|g' r'].
      2:{ rewrite wfs_cons in Hwf. destruct Hwf as [[] _]. }
      cbn [good].
      eapply (inv_pf0 s (emit s (EvDone c r)) t c cx [FEntry3 r] None [] None None None [] None None I Hc Ht);
        try reflexivity; rewrite ?Hfs;
        try solve [counts; rewrite ?Hm, ?Ho, ?Hca, ?Hok, ?Hb, ?Hrn; cbn; lia].
      + eapply shape_run; [exact Ht| |reflexivity]. cbn in Hwf. exact Hwf.
    - (* KOntop *) subst g. cbn [wfs] in Hwf. destruct rest' as [|g' r']; [destruct Hwf|].
      destruct Hwf as [Hb2 Hwf]. cbn [below] in Hb2.
      rewrite <- (deliver_put _ c (g' :: r')), put_frames_emit.
      set (s3 := emit (put_frames s c (g' :: r')) _).
      pose proof (deliver_inv s3 t c (set_frames cx (g' :: r')) r) as D.
      cbn [set_frames cx_frames] in D. apply D.
      + apply (inv_ext (put_frames s c (g' :: r'))); try reflexivity.
        eapply (inv_pf0 s s t c cx (g' :: r') None [] None None (flr r) [] (Some t) None I Hc Ht);
          try reflexivity; rewrite ?Hfs;
        try solve [counts; rewrite ?Hm, ?Ho, ?Hca, ?Hok, ?Hb, ?Hrn; cbn; lia].
        * intros t' Hn. split; congruence.
        * eapply shape_wait; [exact Ht|exact Hwf|]. destruct g'; try discriminate; reflexivity.
      + unfold s3; cbn [emit s_ctxs]. apply put_frames_nth. exact Hc.
      + exact Ht.
      + intros _ E. cbn in E. injection E as ->. discriminate.
    - (* KPlain *) destruct g as [g| | | | | | | | | |]; try (exfalso; exact Hb). cbn [good].
      apply Hpop; [exact Hok|auto|]. eapply shape_run; [exact Ht|exact Hwf|reflexivity].
    - (* KDtor *) cbn [good].
      apply Hpop; [exact Hok|auto|]. eapply shape_run; [exact Ht|exact Hwf|].
      destruct g; try (exfalso; exact Hb); reflexivity.
  Qed.

  Lemma leave_exn_inv e :
    uf_mode f = MUnw e -> uf_objs f = [] -> good (leave_exn s c f rest e).
  Proof.
    intros Hm Ho. pose proof wf_here as Hwf. unfold leave_exn.
    destruct rest as [|g rest'] eqn:Hr.
    { cbn in Hwf. destruct Hwf as [H [_ Hk]]. rewrite Hk. exact Logic.I. }
    rewrite wfs_cons in Hwf. destruct Hwf as [[Hok Hb] Hwf]. unfold fok in Hok. rewrite Hm in Hok.
    destruct (uf_kind f) eqn:Hk.
    - tauto.
    - (* KCtx *) subst g. destruct rest' as [|g' r'].
      2:{ rewrite wfs_cons in Hwf. destruct Hwf as [[] _]. }
      cbn [raise]. destruct e as [e|h]; [exact Logic.I|]. cbn [good].
      eapply (inv_pf0 s (emit s _) t c cx [FEntry3 (Some h)] None [] None None None [] None None I Hc Ht);
        try reflexivity; rewrite ?Hfs;
        try solve [counts; rewrite ?Hm, ?Ho, ?Hca, ?Hok, ?Hb, ?Hrn; cbn; lia].
      + eapply shape_run; [exact Ht| |reflexivity]. cbn in Hwf. exact Hwf.
    - (* KOntop *) subst g. cbn [wfs] in Hwf. destruct rest' as [|g' r']; [destruct Hwf|].
      destruct Hwf as [Hb2 Hwf]. cbn [below] in Hb2.
      rewrite <- (raise_put _ c (g' :: r')), put_frames_emit.
      pose proof (raise_inv (emit (put_frames s c (g' :: r')) (EvOntopExn c g0 e)) t c (set_frames cx (g' :: r')) e (g' :: r')) as D.
      apply D.
      + apply (inv_ext (put_frames s c (g' :: r'))); try reflexivity.
        eapply (inv_pf0 s s t c cx (g' :: r') None [] None None (fle e) [] (Some t) None I Hc Ht);
          try reflexivity; rewrite ?Hfs;
        try solve [counts; rewrite ?Hm, ?Ho, ?Hca, ?Hok, ?Hb, ?Hrn; cbn; lia].
        * intros t' Hn. split; congruence.
        * eapply shape_wait; [exact Ht|exact Hwf|]. destruct g'; try discriminate; reflexivity.
      + apply put_frames_nth. exact Hc.
      + exact Ht.
      + reflexivity.
    - (* KPlain *) destruct g as [g| | | | | | | | | |]; try (exfalso; exact Hb). cbn [good].
      eapply (inv_pf0 s s t c cx _ None [] None None None [] None None I Hc Ht); try reflexivity; rewrite ?Hfs;
        try solve [counts; rewrite ?Hm, ?Ho, ?Hca, ?Hok, ?Hb, ?Hrn; cbn; lia].
      + eapply shape_run; [exact Ht| |reflexivity]. apply (wfs_set_fu _ g); [reflexivity|exact Logic.I|exact Hwf].
    - exact Logic.I.
  Qed.

  (** removing the last object of the frame that is being left *)
  Lemma pop_obj_inv o l p :
    uf_objs f = o :: l -> (forall e, uf_mode f <> MLand e) ->
    good (destroy s t c (FU (set_objs f l) :: rest) p o).
  Proof.
    intros Ho Hm.
    eapply (destroy_inv s t c cx _ p o (objl o) Hc Ht); [| |left; reflexivity].
    - eapply (inv_pf0 s s t c cx (FU (set_objs f l) :: rest) None [] None None None (objl o) None None I Hc Ht);
        rewrite ?Hfs; try reflexivity; try solve [counts; lia].
      + counts. rewrite Ho. cbn. unfold wobs.
        assert (E : sumf (fun v' => b2n (v' =? v)) (objl o) = wob v o) by (destruct o; cbn; lia).
        lia.
      + eapply shape_run; [exact Ht| |reflexivity]. apply (wfs_set_fu _ f); [reflexivity| |exact wf_here].
        pose proof wf_here as Hwf. destruct rest; cbn in Hwf; [destruct Hwf as [H _]|destruct Hwf as [[H _] _]]; exact H.
    - cbn. destruct (uf_mode f); try exact Logic.I. eapply Hm; reflexivity.
  Qed.

  (** changing only the control state of the frame on top; a caught or arriving exception may move *)
  Lemma set_uf_inv s1 f' :
    s_ctxs s1 = s_ctxs s -> s_thr s1 = s_thr s ->
    uf_kind f' = uf_kind f -> fok f' ->
    (forall k, wfr CR k (FU f') + wfr CD k (FU f') + sumf (wvar CR k) (s_vars s1)
             = wfr CR k (FU f) + wfr CD k (FU f) + sumf (wvar CR k) (s_vars s)) ->
    (forall k, wfr CD k (FU f') <= wfr CD k (FU f)) ->
    (forall k, wfr CR k (FU f') + sumf (wvar CR k) (s_vars s1) <= wfr CR k (FU f) + sumf (wvar CR k) (s_vars s)) ->
    (forall v, wobs v (uf_objs f') + auto_live (nth_error (s_vars s) v)
             = wobs v (uf_objs f) + auto_live (nth_error (s_vars s1) v)) ->
    SInv (put_frames s1 c (FU f' :: rest)).
  Proof.
    intros E1 E2 E3 E4 H1 H2 H3 H4.
    eapply (inv_pf0 s s1 t c cx (FU f' :: rest) None [] None None None [] None None I Hc Ht); try assumption; rewrite ?Hfs.
    - intros k. unfold wfs_. cbn [sumf wfl]. specialize (H1 k).
      change (wfr CC k (FU f')) with 0. change (wfr CC k (FU f)) with 0.
      change (wfr CX k (FU f')) with 0. change (wfr CX k (FU f)) with 0. lia.
    - intros k. unfold wfs_. cbn [sumf wfl]. specialize (H3 k). lia.
    - intros k. unfold wfs_. cbn [sumf wfl]. specialize (H2 k). lia.
    - intros k. reflexivity.
    - intros v. unfold wofs. cbn [sumf wof]. specialize (H4 v). lia.
    - intros d. reflexivity.
    - intros t' Hn; reflexivity.
    - eapply shape_run; [exact Ht| |reflexivity]. apply (wfs_set_fu _ f); auto. exact wf_here.
  Qed.
End Leave.

Lemma tau_inv s t c cx :
  SInv s -> nth_error (s_ctxs s) c = Some cx -> cx_status cx = SRun t ->
  good (tau_step s t c (cx_frames cx)).
Proof.
  intros I Hc Ht. pose proof (i_shape _ _ _ _ _ I c cx Hc) as Hsh. unfold shape in Hsh. rewrite Ht in Hsh.
  destruct Hsh as [Hwf Htop]. cbv iota in Htop.
  unfold tau_step. destruct (cx_frames cx) as [|f0 rest] eqn:Hfs; [destruct Htop|].
  destruct f0 as [f| | | |  |h | | |r | |d]; try discriminate Htop.
  - destruct (uf_mode f) as [|e|r|e] eqn:Hm; try exact Logic.I.
    + destruct (uf_objs f) as [|o l] eqn:Ho.
      * eapply leave_ret_inv; eauto.
      * eapply pop_obj_inv; eauto. congruence.
    + destruct (uf_objs f) as [|o l] eqn:Ho.
      * eapply leave_exn_inv; eauto.
      * eapply pop_obj_inv; eauto. congruence.
  - (* FEntry0 *) destruct rest as [|g rest]; [|rewrite wfs_cons in Hwf; destruct Hwf as [[] _]].
    eapply (jump_inv s t c [FEntry1] h CC (set_frames cx [FEntry1])).
    + eapply (inv_pf0 s s t c cx [FEntry1] None [] None None (Some (CC, h)) [] (Some t) None I Hc Ht); rewrite ?Hfs; try reflexivity; try solve [counts; lia].
      * intros t' Hn; split; congruence.
      * eapply shape_wait; [exact Ht|exact Hwf|reflexivity].
    + apply put_frames_nth; exact Hc.
    + exact Ht.
    + reflexivity.
    + reflexivity.
    + auto.
  - (* FEntry3 *) destruct rest as [|g rest]; [|rewrite wfs_cons in Hwf; destruct Hwf as [[] _]].
    destruct r as [h|]; [|exact Logic.I]. eapply exit_inv; eauto.
  - eapply exit_step_inv; eauto.
Qed.

(* ------------------------------------------------------------------ creation *)

Lemma inv_vars s s1 t c cx ol ol' :
  Inv s None ol None None ->
  nth_error (s_ctxs s) c = Some cx -> cx_status cx = SRun t ->
  s_ctxs s1 = s_ctxs s -> s_thr s1 = s_thr s ->
  (forall k, sumf (wvar CR k) (s_vars s1) = sumf (wvar CR k) (s_vars s)) ->
  (forall v, sumf (fun v' => b2n (Nat.eqb v' v)) ol' + auto_live (nth_error (s_vars s) v)
           = sumf (fun v' => b2n (Nat.eqb v' v)) ol + auto_live (nth_error (s_vars s1) v)) ->
  Inv s1 None ol' None None.
Proof.
  intros I Hc Ht Hcx Hthr H1 H2.
  assert (Hc1 : nth_error (s_ctxs s1) c = Some cx) by (rewrite Hcx; exact Hc).
  rewrite <- (put_frames_same s1 c cx Hc1).
  eapply (inv_pf0 s s1 t c cx (cx_frames cx) None ol None None None ol' None None I Hc Ht); auto;
    try (intros k; specialize (H1 k); lia).
  - intros v. specialize (H2 v). lia.
  - intros; reflexivity.
  - replace (set_frames cx (cx_frames cx)) with cx by (destruct cx; reflexivity). exact (i_shape _ _ _ _ _ I c cx Hc).
Qed.

Lemma get_var_some s v b h : get_var s v = Some (b, h) -> nth_error (s_vars s) v = Some (VLive b h).
Proof. unfold get_var. destruct (nth_error (s_vars s) v) as [[|]|]; congruence. Qed.

Definition ids (l : list obj) : list nat := flat_map objl l.

Lemma caps_inv l : forall s d acc s1 caps t c cx,
  Inv s None (ids acc) None None ->
  nth_error (s_ctxs s) c = Some cx -> cx_status cx = SRun t ->
  do_caps s d l acc = Some (s1, caps) ->
  Inv s1 None (ids caps) None None /\ s_ctxs s1 = s_ctxs s /\ s_thr s1 = s_thr s.
Proof.
  induction l as [|[v|] l IH]; intros s d acc s1 caps t c cx I Hc Ht; cbn [do_caps].
  - injection 1 as <- <-. auto.
  - destruct (get_var s v) as [[b h]|] eqn:Hv; [|discriminate]. apply get_var_some in Hv. intros Hd.
    apply (IH _ _ _ _ _ t c cx) in Hd; auto.
    eapply (inv_vars s _ t c cx _ _ I Hc Ht); try reflexivity.
    + intros k. cbn [emit add_var put_var s_vars]. rewrite sumf_app. cbn.
      pose proof (wvar_upd _ _ _ (VLive b None) k Hv) as E. cbn in E. lia.
    + intros v'. cbn [emit add_var put_var s_vars ids flat_map objl app]. rewrite auto_live_app, upd_length.
      rewrite (auto_live_upd _ _ _ _ None v' Hv). cbn [sumf auto_live]. fold (ids acc).
      destruct (length (s_vars s) =? v'); cbn; lia.
  - intros Hd. apply (IH _ _ _ _ _ t c cx) in Hd; auto.
    eapply (inv_vars s _ t c cx _ _ I Hc Ht); reflexivity.
Qed.

Lemma sumf_ids v l : sumf (fun v' => b2n (v' =? v)) (ids l) = wobs v l.
Proof.
  unfold ids, wobs. induction l as [|o l IH]; cbn [flat_map sumf]; [reflexivity|].
  rewrite sumf_app, IH. destruct o; cbn; lia.
Qed.

Lemma create_inv s t c cx f rest caps a nu tr :
  Inv s None (ids caps) None None ->
  nth_error (s_ctxs s) c = Some cx -> cx_status cx = SRun t ->
  cx_frames cx = FU f :: rest -> uf_mode f = MRun ->
  SInv (mk_s (upd (s_ctxs s) c (mk_cx (FCreate :: FU f :: rest) SSusp (S (cx_ver cx)) (cx_alloc cx) (cx_caps cx))
               ++ [mk_cx [FEntry0 (mk_fc c (S (cx_ver cx)))] (SRun t) 0 (Some a) caps])
             (s_vars s) (upd (s_thr s) t (length (s_ctxs s))) nu tr).
Proof.
  intros I Hc Hst Hfs Hm.
  set (d := length (s_ctxs s)). set (me := mk_fc c (S (cx_ver cx))).
  set (cx' := mk_cx (FCreate :: FU f :: rest) SSusp (S (cx_ver cx)) (cx_alloc cx) (cx_caps cx)).
  set (dx := mk_cx [FEntry0 me] (SRun t) 0 (Some a) caps).
  set (s' := mk_s _ _ _ _ _).
  assert (Hcd : c < d) by (apply nth_some_lt in Hc; exact Hc).
  assert (Hnth : forall e, nth_error (s_ctxs s') e =
     if Nat.eqb e d then Some dx else if Nat.eqb e c then Some cx' else nth_error (s_ctxs s) e).
  { intros e. unfold s'; cbn [s_ctxs]. destruct (Nat.eqb_spec e d) as [->|E1].
    - unfold d. rewrite <- (upd_length (s_ctxs s) c cx'). apply nth_app_last.
    - assert (Hx : nth_error (upd (s_ctxs s) c cx' ++ [dx]) e = nth_error (upd (s_ctxs s) c cx') e).
      { destruct (Nat.lt_ge_cases e d).
        - apply nth_error_app1. rewrite upd_length. exact H.
        - rewrite (proj2 (nth_error_None _ _)), (proj2 (nth_error_None _ _)); auto; rewrite ?app_length, upd_length; cbn; unfold d in *; lia. }
      rewrite Hx. destruct (Nat.eqb_spec e c) as [->|E2].
      + eapply nth_upd_eq; eauto.
      + rewrite nth_upd_ne; auto. }
  assert (Hsum : forall g : ctx -> nat, sumf g (s_ctxs s') + g cx = sumf g (s_ctxs s) + g cx' + g dx).
  { intros g. unfold s'; cbn [s_ctxs]. rewrite sumf_app. cbn [sumf]. pose proof (sumf_upd g _ c cx' cx Hc). lia. }
  assert (Hcnt : forall cl k, cnt cl k s' = cnt cl k s + match cl with CC => w1 k me | _ => 0 end).
  { intros cl k. unfold cnt. change (s_vars s') with (s_vars s).
    assert (E : sumf (wcx cl k) (s_ctxs s') + wfs_ cl k (cx_frames cx)
              = sumf (wcx cl k) (s_ctxs s) + wfs_ cl k (FCreate :: FU f :: rest) + wfs_ cl k [FEntry0 me]) by exact (Hsum (wcx cl k)).
    rewrite Hfs in E. unfold wfs_ in E. destruct cl; cbn [sumf wfr] in *; lia. }
  assert (Hsusp : forall k, susp k s' = susp k s + w1 k me).
  { intros k. unfold susp. rewrite Hnth. destruct (Nat.eqb_spec (fc_ctx k) d) as [E1|E1].
    - rewrite E1, (proj2 (nth_error_None (s_ctxs s) d)) by (unfold d; lia). cbn.
      unfold w1. destruct (fc_eqb_spec me k) as [<-|]; [|reflexivity]. cbn in E1. lia.
    - destruct (Nat.eqb_spec (fc_ctx k) c) as [E2|E2].
      + rewrite E2, Hc, Hst. cbn [cx' cx_status cx_ver]. unfold w1. destruct (fc_eqb_spec me k) as [<-|Em].
        * cbn. rewrite Nat.eqb_refl. reflexivity.
        * destruct (Nat.eqb_spec (S (cx_ver cx)) (fc_ver k)) as [E3|E3]; [|reflexivity].
          exfalso. apply Em. unfold me. destruct k; cbn in *; congruence.
      + unfold w1. destruct (fc_eqb_spec me k) as [<-|Em]; [cbn in E2; congruence|]. cbn. lia. }
  pose proof (inv_wfs _ _ _ _ _ _ _ _ I Hc Hst) as Hwf. rewrite Hfs in Hwf.
  destruct I as [I1 I2 I3 I4 I5 I6 I7].
  assert (Hthr : nth_error (s_thr s) t = Some c) by (eapply I5; eauto).
  constructor.
  - intros k. rewrite !Hcnt, Hsusp. specialize (I1 k). cbn [wfl] in *. lia.
  - intros cl k Hp. cbn [wfl] in Hp. rewrite Hcnt in Hp.
    destruct (fc_eqb_spec me k) as [<-|Hmk].
    + assert (Hz : cnt cl me s = 0).
      { pose proof (I1 me) as E. assert (susp me s = 0) by (unfold susp; cbn; rewrite Hc, Hst; reflexivity). destruct cl; lia. }
      destruct cl; try lia. unfold top, frames_of. rewrite Hnth. cbn [me fc_ctx].
      destruct (Nat.eqb_spec c d); [lia|]. rewrite Nat.eqb_refl. reflexivity.
    + assert (Hw : w1 k me = 0) by (unfold w1; destruct (fc_eqb_spec me k); [congruence|reflexivity]).
      assert (Hp' : 0 < cnt cl k s + wfl cl k None) by (cbn [wfl]; destruct cl; lia).
      rewrite <- (I2 cl k Hp'). unfold top, frames_of. rewrite Hnth.
      assert (Hks : 0 < susp k s) by (rewrite <- (I1 k); destruct cl; lia).
      apply susp_pos in Hks. destruct Hks as [kx [K1 [K2 K3]]].
      destruct (Nat.eqb_spec (fc_ctx k) d) as [E1|E1]; [apply nth_some_lt in K1; unfold d in E1; lia|].
      destruct (Nat.eqb_spec (fc_ctx k) c) as [E2|E2]; [congruence|]. reflexivity.
  - intros v. unfold own. change (s_vars s') with (s_vars s). rewrite <- (I3 v), sumf_ids. cbn [sumf].
    assert (E : sumf (wocx v) (s_ctxs s') + (wofs v (cx_frames cx) + wobs v (cx_caps cx))
              = sumf (wocx v) (s_ctxs s) + (wofs v (FCreate :: FU f :: rest) + wobs v (cx_caps cx)) + (wofs v [FEntry0 me] + wobs v caps))
      by exact (Hsum (wocx v)).
    rewrite Hfs in E. unfold wofs in E. cbn [sumf wof] in E. unfold own. lia.
  - intros t' c' Ht'. unfold s' in Ht'; cbn [s_thr] in Ht'. rewrite nth_upd in Ht'.
    destruct (Nat.eqb_spec t t') as [<-|Et].
    + destruct (t <? length (s_thr s)); [|discriminate]. injection Ht' as <-.
      exists dx. rewrite Hnth, Nat.eqb_refl. auto.
    + destruct (I4 t' c' Ht') as [x [Hx1 Hx2]]. exists x. split; [|exact Hx2]. rewrite Hnth.
      destruct (Nat.eqb_spec c' d) as [->|]; [apply nth_some_lt in Hx1; unfold d in Hx1; lia|].
      destruct (Nat.eqb_spec c' c) as [->|]; [congruence|]. exact Hx1.
  - intros c' x t' Hx Hxs. rewrite Hnth in Hx. unfold s'; cbn [s_thr].
    destruct (Nat.eqb_spec c' d) as [->|E1].
    + injection Hx as <-. cbn in Hxs. injection Hxs as <-. exact (nth_upd_eq _ _ _ _ Hthr).
    + destruct (Nat.eqb_spec c' c) as [->|E2].
      * injection Hx as <-. discriminate.
      * pose proof (I5 c' x t' Hx Hxs). rewrite nth_upd_ne; auto. intros <-. congruence.
  - intros c' x Hx. rewrite Hnth in Hx.
    destruct (Nat.eqb_spec c' d) as [->|E1].
    + injection Hx as <-. unfold shape; cbn. auto.
    + destruct (Nat.eqb_spec c' c) as [->|E2].
      * injection Hx as <-. unfold shape. cbn [cx' cx_status cx_frames]. split; [|reflexivity].
        change (is_main cx') with (is_main cx). rewrite wfs_cons. split; [exact Hm|exact Hwf].
      * exact (I6 _ _ Hx).
  - intros e. specialize (I7 e). cbn [wpe] in *. unfold exits in *.
    assert (E : sumf (wexcx e) (s_ctxs s') + wexs e (cx_frames cx)
              = sumf (wexcx e) (s_ctxs s) + wexs e (FCreate :: FU f :: rest) + wexs e [FEntry0 me]) by exact (Hsum (wexcx e)).
    rewrite Hfs in E. unfold wexs in E. cbn [sumf wex] in E.
    assert (Hdy : dying e s' = dying e s).
    { unfold dying. rewrite Hnth. destruct (Nat.eqb_spec e d) as [->|E1].
      - rewrite (proj2 (nth_error_None (s_ctxs s) d)) by (unfold d; lia). reflexivity.
      - destruct (Nat.eqb_spec e c) as [->|E2]; [rewrite Hc, Hst|]; reflexivity. }
    lia.
Qed.

(* ------------------------------------------------------------------ user operations *)

Lemma do_create_inv s t c cx f rest a l :
  SInv s -> nth_error (s_ctxs s) c = Some cx -> cx_status cx = SRun t ->
  cx_frames cx = FU f :: rest -> uf_mode f = MRun ->
  good (do_create s t c (FU f :: rest) a l).
Proof.
  intros I Hc Ht Hfs Hm. unfold do_create. cbv zeta.
  destruct (do_caps (emit s (EvAlloc (length (s_ctxs s)) a)) (length (s_ctxs s)) l []) as [[s1 caps]|] eqn:Hd; [|exact Logic.I].
  apply (caps_inv l _ _ _ _ _ t c cx) in Hd; auto.
  2:{ apply (inv_ext s); try reflexivity. exact I. }
  destruct Hd as [I1 [Hcx Hthr]]. cbn [emit s_ctxs s_thr] in Hcx, Hthr.
  assert (Hc1 : nth_error (s_ctxs s1) c = Some cx) by (rewrite Hcx; exact Hc).
  rewrite Hc1. cbn [good]. rewrite <- Hcx. eapply create_inv; eauto.
Qed.

Lemma new_fib_inv s s1 t c cx f rest heap h :
  SInv s -> nth_error (s_ctxs s) c = Some cx -> cx_status cx = SRun t ->
  cx_frames cx = FU f :: rest -> uf_mode f = MRun ->
  s_ctxs s1 = s_ctxs s -> s_thr s1 = s_thr s ->
  (forall k, sumf (wvar CR k) (s_vars s1) + wh k h = sumf (wvar CR k) (s_vars s)) ->
  (forall v, auto_live (nth_error (s_vars s1) v) = auto_live (nth_error (s_vars s) v)) ->
  good (new_fib s1 c f rest heap h).
Proof.
  intros I Hc Ht Hfs Hm E1 E2 H1 H2. unfold new_fib. cbv zeta.
  assert (Hok : forall l, fok (set_objs f l)) by (intros l; unfold fok; cbn; rewrite Hm; exact Logic.I).
  destruct heap; cbn [good].
  - eapply (set_uf_inv s t c cx f rest I Hc Ht Hfs); try assumption; try reflexivity.
    + unfold fok. rewrite Hm. exact Logic.I.
    + intros k. cbn [emit add_var s_vars]. rewrite sumf_app. cbn [sumf wvar]. specialize (H1 k). lia.
    + intros k. cbn [emit add_var s_vars]. rewrite sumf_app. cbn [sumf wvar]. specialize (H1 k). lia.
    + intros v. cbn [emit add_var s_vars]. rewrite auto_live_app, H2. cbn. destruct (length (s_vars s1) =? v); lia.
  - eapply (set_uf_inv s t c cx f rest I Hc Ht Hfs); try assumption; try reflexivity; auto.
    + intros k. cbn [emit add_var s_vars]. rewrite sumf_app. cbn [sumf wvar]. specialize (H1 k). cbn [wfr set_objs uf_mode uf_caught]. lia.
    + intros k. cbn [emit add_var s_vars]. rewrite sumf_app. cbn [sumf wvar]. specialize (H1 k). cbn [wfr set_objs uf_mode uf_caught]. lia.
    + intros v. cbn [emit add_var s_vars]. rewrite auto_live_app, H2. cbn. unfold wobs.
      destruct (length (s_vars s1) =? v); cbn; lia.
Qed.

Lemma user_inv s t c cx f rest o :
  SInv s -> nth_error (s_ctxs s) c = Some cx -> cx_status cx = SRun t ->
  cx_frames cx = FU f :: rest ->
  good (user_step s t c f rest o).
Proof.
  intros I Hc Ht Hfs. unfold user_step.
  pose proof (inv_wfs _ _ _ _ _ _ _ _ I Hc Ht) as Hwf. rewrite Hfs in Hwf.
  assert (Hset : forall f', uf_kind f' = uf_kind f -> uf_objs f' = uf_objs f -> fok f' ->
      (forall k, wfr CR k (FU f') = wfr CR k (FU f)) -> (forall k, wfr CD k (FU f') = wfr CD k (FU f)) ->
      SInv (put_frames s c (FU f' :: rest))).
  { intros f' H1 H2 H3 H4 H5. eapply (set_uf_inv s t c cx f rest I Hc Ht Hfs); auto;
      first [intros k; specialize (H4 k); specialize (H5 k); lia | intros v; rewrite H2; reflexivity]. }
  assert (Hcaught : forall k, forced_caught f = false -> woe k (uf_caught f) = 0).
  { intros k. unfold forced_caught. destruct (uf_caught f) as [[]|]; cbn; congruence. }
  destruct (uf_mode f) as [|e|r|e] eqn:Hm; try exact Logic.I.
  - assert (Hfok : fok f) by (unfold fok; rewrite Hm; exact Logic.I).
    destruct o as [heap| |a l ok|src heap|dst src|va vb|v| |src|src g| |v|e| | | |].
    + (* UNewFib *) eapply new_fib_inv; eauto.
    + (* UNewUsr *) cbn [good]. eapply (set_uf_inv s t c cx f rest I Hc Ht Hfs); auto.
    + (* UCreate *) destruct ok.
      * eapply do_create_inv; eauto.
      * cbn [good]. rewrite put_frames_emit. eapply inv_ext; cycle 3; [apply Hset|reflexivity..]; try reflexivity.
        -- intros k. cbn. rewrite Hm. reflexivity.
        -- intros k. cbn. rewrite Hm. reflexivity.
    + (* UMoveCtor *) destruct (get_var s src) as [[b h]|] eqn:Hv; [|exact Logic.I]. apply get_var_some in Hv.
      eapply (new_fib_inv s); eauto.
      * intros k. cbn [put_var s_vars]. pose proof (wvar_upd _ _ _ (VLive b None) k Hv) as E. cbn in E. lia.
      * intros v. cbn [put_var s_vars]. apply (auto_live_upd _ _ _ _ None v Hv).
    + (* UMoveAssign *) destruct (get_var s dst) as [[bd hd]|] eqn:Hvd; [|exact Logic.I].
      destruct (get_var s src) as [[bs hs]|] eqn:Hvs; [|exact Logic.I]. apply get_var_some in Hvd, Hvs.
      destruct (Nat.eqb_spec dst src) as [->|Hne]; [exact I|]. cbv zeta.
      assert (Hvd1 : nth_error (upd (s_vars s) src (VLive bs None)) dst = Some (VLive bd hd)).
      { rewrite nth_upd_ne; auto. }
      assert (Hsum : forall k, sumf (wvar CR k) (upd (upd (s_vars s) src (VLive bs None)) dst (VLive bd hs)) + wh k hd
                             = sumf (wvar CR k) (s_vars s)).
      { intros k. pose proof (wvar_upd _ _ _ (VLive bs None) k Hvs) as E1. pose proof (wvar_upd _ _ _ (VLive bd hs) k Hvd1) as E2.
        cbn [wvar wh] in *. lia. }
      assert (Haut : forall v, auto_live (nth_error (upd (upd (s_vars s) src (VLive bs None)) dst (VLive bd hs)) v)
                             = auto_live (nth_error (s_vars s) v)).
      { intros v. rewrite (auto_live_upd _ _ _ _ hs v Hvd1). apply (auto_live_upd _ _ _ _ None v Hvs). }
      destruct hd as [h|].
      * set (s1 := put_var (put_var s src (VLive bs None)) dst (VLive bd hs)).
        eapply (unwind_inv s1 t c (FDtor :: FU f :: rest) h CR (set_frames cx (FDtor :: FU f :: rest))).
        -- eapply (inv_pf0 s s1 t c cx (FDtor :: FU f :: rest) None [] None None (Some (CR, h)) [] (Some t) None I Hc Ht); rewrite ?Hfs; try reflexivity;
             unfold s1; cbn [s_vars put_var emit]; try solve [counts; lia].
           ++ counts. specialize (Hsum k). cbn [wh] in Hsum. lia.
           ++ counts. specialize (Hsum k). cbn [wh] in Hsum. lia.
           ++ counts. rewrite Haut. lia.
           ++ intros t' Hn; split; congruence.
           ++ eapply shape_wait; [exact Ht| |reflexivity]. rewrite wfs_cons. split; [|exact Hwf]. cbn. rewrite Hm. exact Logic.I.
        -- apply put_frames_nth. exact Hc.
        -- exact Ht.
        -- reflexivity.
        -- reflexivity.
      * cbn [good]. eapply (inv_vars s _ t c cx [] [] I Hc Ht); try reflexivity; cbn [s_vars put_var emit].
        -- intros k. specialize (Hsum k). cbn [wh] in Hsum. lia.
        -- intros v. rewrite Haut. lia.
    + (* USwap *) destruct (get_var s va) as [[ba ha]|] eqn:Hva; [|exact Logic.I].
      destruct (get_var s vb) as [[bb hb]|] eqn:Hvb; [|exact Logic.I]. apply get_var_some in Hva, Hvb. cbn [good].
      assert (Hvb1 : exists h', nth_error (upd (s_vars s) va (VLive ba hb)) vb = Some (VLive bb h')
                  /\ forall k, wh k h' = if Nat.eqb va vb then wh k hb else wh k hb).
      { destruct (Nat.eqb_spec va vb) as [->|Hne].
        - rewrite Hva in Hvb. injection Hvb as <- <-. exists ha. split; [eapply nth_upd_eq; eauto|reflexivity].
        - exists hb. split; [rewrite nth_upd_ne; auto|reflexivity]. }
      destruct Hvb1 as [h' [Hvb1 Hh']].
      eapply (inv_vars s _ t c cx [] [] I Hc Ht); try reflexivity; cbn [s_vars put_var emit].
      * intros k. pose proof (wvar_upd _ _ _ (VLive ba hb) k Hva) as E1.
        pose proof (wvar_upd _ _ _ (VLive bb (if va =? vb then hb else ha)) k Hvb1) as E2. specialize (Hh' k).
        cbn [wvar] in *. destruct (Nat.eqb_spec va vb) as [->|].
        -- rewrite Hva in Hvb. injection Hvb as <- <-. lia.
        -- lia.
      * intros v. rewrite (auto_live_upd _ _ _ _ _ v Hvb1), (auto_live_upd _ _ _ _ _ v Hva). reflexivity.
    + (* UDelete *) destruct (get_var s v) as [[b h]|] eqn:Hv; [|exact Logic.I]. apply get_var_some in Hv.
      destruct b; [|exact Logic.I].
      eapply (destroy_inv s t c cx _ OnHeap (OFib v) [] Hc Ht).
      * rewrite <- Hfs, (put_frames_same _ _ _ Hc). exact I.
      * cbn. rewrite Hm. exact Logic.I.
      * right. eauto.
    + (* UScope *) destruct (uf_objs f) as [|x l] eqn:Ho; [exact Logic.I|]. eapply pop_obj_inv; eauto. congruence.
    + (* UResume *) destruct (get_var s src) as [[b h]|] eqn:Hv; [|exact Logic.I]. apply get_var_some in Hv.
      destruct h as [h|]; [|exact Logic.I].
      set (s1 := put_var s src (VLive b None)).
      eapply (jump_inv s1 t c (FResume :: FU f :: rest) h CR (set_frames cx (FResume :: FU f :: rest))).
      * eapply (inv_pf0 s s1 t c cx (FResume :: FU f :: rest) None [] None None (Some (CR, h)) [] (Some t) None I Hc Ht); rewrite ?Hfs; try reflexivity;
             unfold s1; cbn [s_vars put_var emit]; try solve [counts; lia].
        -- counts. pose proof (wvar_upd _ _ _ (VLive b None) k Hv) as E. cbn [wvar wh] in E. lia.
        -- counts. pose proof (wvar_upd _ _ _ (VLive b None) k Hv) as E. cbn [wvar wh] in E. lia.
        -- counts. rewrite (auto_live_upd _ _ _ _ None v Hv). lia.
        -- intros t' Hn; split; congruence.
        -- eapply shape_wait; [exact Ht| |reflexivity]. rewrite wfs_cons. split; [exact Hm|exact Hwf].
      * apply put_frames_nth. exact Hc.
      * exact Ht.
      * reflexivity.
      * reflexivity.
      * auto.
    + (* UResumeWith *) destruct (get_var s src) as [[b h]|] eqn:Hv; [|exact Logic.I]. apply get_var_some in Hv.
      destruct h as [h|]; [|exact Logic.I].
      set (s1 := put_var s src (VLive b None)).
      eapply (ontop_inv s1 t c (FResumeW g :: FU f :: rest) h g (set_frames cx (FResumeW g :: FU f :: rest))).
      * eapply (inv_pf0 s s1 t c cx (FResumeW g :: FU f :: rest) None [] None None (Some (CR, h)) [] (Some t) None I Hc Ht); rewrite ?Hfs; try reflexivity;
             unfold s1; cbn [s_vars put_var emit]; try solve [counts; lia].
        -- counts. pose proof (wvar_upd _ _ _ (VLive b None) k Hv) as E. cbn [wvar wh] in E. lia.
        -- counts. pose proof (wvar_upd _ _ _ (VLive b None) k Hv) as E. cbn [wvar wh] in E. lia.
        -- counts. rewrite (auto_live_upd _ _ _ _ None v Hv). lia.
        -- intros t' Hn; split; congruence.
        -- eapply shape_wait; [exact Ht| |reflexivity]. rewrite wfs_cons. split; [exact Hm|exact Hwf].
      * apply put_frames_nth. exact Hc.
      * exact Ht.
      * reflexivity.
      * reflexivity.
    + (* UCall *) cbn [good].
      eapply (inv_pf0 s s t c cx _ None [] None None None [] None None I Hc Ht); rewrite ?Hfs; try reflexivity; try solve [counts; lia].
      eapply shape_run; [exact Ht| |reflexivity]. rewrite wfs_cons. split; [|exact Hwf]. cbn. split; [exact Logic.I|exact Hm].
    + (* UReturn *)
      assert (Hnone : (match uf_kind f with KMain => False | _ => True end) -> forced_caught f = false ->
               SInv (put_frames s c (FU (set_caught f None (MRet None)) :: rest))).
      { intros Hk Hfc. apply Hset; try reflexivity.
        - unfold fok; cbn. split; [reflexivity|]. destruct (uf_kind f); auto.
        - intros k. cbn. rewrite Hm. reflexivity.
        - intros k. cbn. rewrite Hm, (Hcaught k Hfc). reflexivity. }
      assert (Hsome : forall x, match uf_kind f with KMain | KPlain | KDtor _ => False | _ => True end -> forced_caught f = false ->
               good (match get_var s x with
                     | Some (b, h) => Next (put_frames (put_var s x (VLive b None)) c (FU (set_caught f None (MRet h)) :: rest))
                     | None => Invalid end)).
      { intros x Hk Hfc. destruct (get_var s x) as [[b h]|] eqn:Hv; [|exact Logic.I]. apply get_var_some in Hv. cbn [good].
        eapply (set_uf_inv s t c cx f rest I Hc Ht Hfs); try reflexivity.
        - unfold fok; cbn. split; [reflexivity|]. destruct (uf_kind f); auto; tauto.
        - intros k. cbn [s_vars put_var wfr set_caught uf_mode uf_caught woe]. rewrite Hm, (Hcaught k Hfc).
          pose proof (wvar_upd _ _ _ (VLive b None) k Hv) as E. cbn [wvar wh] in E. lia.
        - intros k. cbn. lia.
        - intros k. cbn [s_vars put_var wfr set_caught uf_mode uf_caught woe]. rewrite Hm.
          pose proof (wvar_upd _ _ _ (VLive b None) k Hv) as E. cbn [wvar wh] in E. lia.
        - intros v'. cbn [s_vars put_var set_caught uf_objs]. rewrite (auto_live_upd _ _ _ _ None v' Hv). reflexivity. }
      destruct (uf_kind f) eqn:Hk; try exact Logic.I; destruct (forced_caught f) eqn:Hfc; try exact Logic.I;
        destruct v as [v|]; try exact Logic.I; cbn [good]; first [apply Hnone; [exact Logic.I|reflexivity] | apply Hsome; [exact Logic.I|reflexivity]].
    + (* UThrow *) destruct (forced_caught f) eqn:Hfc; [exact Logic.I|]. cbn [good].
      rewrite put_frames_emit. eapply inv_ext; cycle 3; [apply Hset|reflexivity..]; try reflexivity.
      * intros k. cbn. rewrite Hm. reflexivity.
      * intros k. cbn. rewrite Hm, (Hcaught k eq_refl). reflexivity.
    + exact Logic.I.
    + exact Logic.I.
    + (* UEndCatch *) destruct (uf_caught f) as [[e|h]|] eqn:Hca; try exact Logic.I. cbn [good]. apply Hset; try reflexivity.
      * intros k. cbn. rewrite Hm. reflexivity.
      * intros k. cbn. rewrite Hm, Hca. reflexivity.
    + (* URethrow *) destruct (uf_caught f) as [e|] eqn:Hca; try exact Logic.I. cbn [good]. apply Hset; try reflexivity.
      * intros k. cbn. rewrite Hm. reflexivity.
      * intros k. cbn [wfr set_caught uf_mode uf_caught woe]. rewrite Hm, Hca. cbn. lia.
  - (* MLand *) destruct o; try exact Logic.I.
    + destruct (uf_caught f) as [x|] eqn:Hca; [exact Logic.I|]. cbn [good]. apply Hset; try reflexivity.
      * intros k. cbn. rewrite Hm. reflexivity.
      * intros k. cbn [wfr set_caught uf_mode uf_caught woe]. rewrite Hm, Hca. cbn. lia.
    + destruct (forced_caught f) eqn:Hfc; [exact Logic.I|]. cbn [good]. apply Hset; try reflexivity.
      * intros k. cbn. rewrite Hm. reflexivity.
      * intros k. cbn [wfr set_caught uf_mode uf_caught woe]. rewrite Hm, (Hcaught k eq_refl). cbn. lia.
Qed.

Theorem step_good s t l : SInv s -> good (step s t l).
Proof.
  intros I. unfold step. destruct (nth_error (s_thr s) t) as [c|] eqn:Htc; [|exact Logic.I].
  destruct (i_thr _ _ _ _ _ I t c Htc) as [cx [Hc Ht]]. rewrite Hc.
  destruct l as [|o].
  - apply tau_inv; auto.
  - destruct (cx_frames cx) as [|[f| | | | | | | | | |] rest] eqn:Hfs; try exact Logic.I.
    eapply user_inv; eauto.
Qed.

Lemma init_inv n : SInv (init n).
Proof.
  assert (Hn : forall c cx, nth_error (s_ctxs (init n)) c = Some cx -> c < n /\ cx = main_ctx c).
  { intros c cx H. unfold init in H; cbn [s_ctxs] in H. pose proof (nth_some_lt _ _ _ H) as Hl.
    rewrite map_length, seq_length in Hl. split; [exact Hl|].
    rewrite nth_error_map in H. rewrite nth_error_nth' with (d := 0) in H by (rewrite seq_length; exact Hl).
    rewrite seq_nth in H by exact Hl. cbn in H. congruence. }
  assert (Hz : forall g : ctx -> nat, (forall c, g (main_ctx c) = 0) -> sumf g (s_ctxs (init n)) = 0).
  { intros g Hg. apply sumf_zero. intros x Hx. apply In_nth_error in Hx. destruct Hx as [c Hx]. apply Hn in Hx.
    destruct Hx as [_ ->]. apply Hg. }
  assert (Ht : forall t c, nth_error (s_thr (init n)) t = Some c -> t < n /\ c = t).
  { intros t c H. unfold init in H; cbn [s_thr] in H. pose proof (nth_some_lt _ _ _ H) as Hl. rewrite seq_length in Hl.
    rewrite nth_error_nth' with (d := 0) in H by (rewrite seq_length; exact Hl).
    rewrite seq_nth in H by exact Hl. cbn in H. split; congruence. }
  assert (Hn2 : forall c, c < n -> nth_error (s_ctxs (init n)) c = Some (main_ctx c)).
  { intros c Hl. unfold init; cbn [s_ctxs]. rewrite nth_error_map, nth_error_nth' with (d := 0) by (rewrite seq_length; exact Hl).
    rewrite seq_nth by exact Hl. reflexivity. }
  constructor.
  - intros k. unfold cnt. rewrite !Hz by (intros c; reflexivity). cbn. unfold susp.
    destruct (nth_error _ _) as [cx|] eqn:E; [|reflexivity]. apply Hn in E. destruct E as [_ ->]. reflexivity.
  - intros cl k H. exfalso. unfold cnt in H. rewrite Hz in H by (intros c; destruct cl; reflexivity). cbn in H. lia.
  - intros v. unfold own. rewrite Hz by reflexivity. cbn. destruct v; reflexivity.
  - intros t c H. apply Ht in H. destruct H as [Hl ->]. exists (main_ctx t). split; [apply Hn2; exact Hl|reflexivity].
  - intros c cx t H Hs. apply Hn in H. destruct H as [Hl ->]. cbn in Hs. injection Hs as <-.
    unfold init; cbn [s_thr]. rewrite nth_error_nth' with (d := 0) by (rewrite seq_length; exact Hl).
    rewrite seq_nth by exact Hl. reflexivity.
  - intros c cx H. apply Hn in H. destruct H as [_ ->]. unfold shape; cbn. repeat split; auto.
  - intros d. unfold exits. rewrite Hz by reflexivity. cbn. unfold dying.
    destruct (nth_error _ _) as [cx|] eqn:E; [|reflexivity]. apply Hn in E. destruct E as [_ ->]. reflexivity.
Qed.

Lemma run_inv l : forall s, SInv s -> good (run s l).
Proof.
  induction l as [|[t a] l IH]; intros s I; cbn [run]; [exact I|].
  pose proof (step_good s t a I) as H. destruct (step s t a); auto.
Qed.

Theorem reachable_inv n s : reachable n s -> SInv s.
Proof. intros [l H]. pose proof (run_inv l _ (init_inv n)) as G. rewrite H in G. exact G. Qed.

Lemma run_app l1 l2 s : run s (l1 ++ l2) = match run s l1 with Next s' => run s' l2 | o => o end.
Proof.
  revert s; induction l1 as [|[t a] l1 IH]; intros s; cbn [run app]; [reflexivity|].
  destruct (step s t a); auto.
Qed.

(** induction over reachable states *)
Lemma reachable_ind' n (P : state -> Prop) :
  P (init n) ->
  (forall s t l s', reachable n s -> SInv s -> P s -> step s t l = Next s' -> P s') ->
  forall s, reachable n s -> P s.
Proof.
  intros H0 H s [l Hl]. revert s Hl. induction l as [|[t a] l IH] using rev_ind; intros s Hl.
  - cbn in Hl. injection Hl as <-. exact H0.
  - rewrite run_app in Hl. destruct (run (init n) l) as [s1| | | | |] eqn:E; try discriminate.
    cbn in Hl. destruct (step s1 t a) as [s2| | | | |] eqn:E2; try discriminate. injection Hl as <-.
    apply (H s1 t a s2); auto.
    + exists l; exact E.
    + apply (reachable_inv n). exists l; exact E.
Qed.
