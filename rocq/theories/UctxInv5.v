(** Every step of the ucontext machine preserves the invariant for calm histories. *)
From Coq Require Import List Arith Bool Lia.
From Verif Require Import ListUtil Uctx UctxSpec UctxInv UctxInv2 UctxInv3 UctxInv4.
Import ListNotations.

Lemma upd_comm {A} (l : list A) n m x y : n <> m -> upd (upd l n x) m y = upd (upd l m y) n x.
Proof.
  revert n m; induction l as [|z l IH]; intros [|n] [|m] H; cbn; try congruence; auto.
  now rewrite IH by lia.
Qed.

Lemma put_put s c x fs fs' : nth_error (s_rec s) c = Some x -> put_frames (put_frames s c fs) c fs' = put_frames s c fs'.
Proof.
  intros Hc. rewrite !(put_frames_eq _ _ _ _ Hc). erewrite put_frames_eq by (cbn; eapply nth_upd_eq; eauto).
  cbn. rewrite upd_upd. reflexivity.
Qed.

Lemma destroy_put s t c x fs p o : nth_error (s_rec s) c = Some x ->
  destroy (put_frames s c fs) t c fs p o = destroy s t c fs p o.
Proof.
  intros Hc. destruct o as [v|u]; cbn [destroy].
  - rewrite put_frames_vars, put_frames_tr. destruct (nth_error (s_vars s) v) as [[|b h]|]; try reflexivity.
    set (s1 := put_var (emit s (EvDtor p (OFib v))) v VDead).
    assert (E : put_var (emit (put_frames s c fs) (EvDtor p (OFib v))) v VDead = put_frames s1 c fs).
    { unfold s1. rewrite (put_frames_eq _ _ _ _ Hc). unfold put_frames. cbn. rewrite Hc. reflexivity. }
    rewrite E. apply (drop_put s1 t c x). exact Hc.
  - f_equal. rewrite !(put_frames_eq _ _ _ _ Hc).
    rewrite (put_frames_eq _ c (set_frames x fs)) by (cbn; eapply nth_upd_eq; eauto).
    rewrite (put_frames_eq _ c x) by exact Hc. cbn. rewrite upd_upd. reflexivity.
Qed.

Section Top.
  Variables (n : nat) (s : state) (t c : nat) (x : rcd).
  Hypothesis I : SInv n s.
  Hypothesis Hc : nth_error (s_rec s) c = Some x.
  Hypothesis Ht : nth_error (s_thr s) t = Some c.

  Lemma x_running : r_alive x = true /\ r_term x = false /\ wfs (r_main x) (r_frames x) /\ top_ok active (r_frames x) /\ runs s c = true.
  Proof. exact (inv_running _ _ _ _ _ _ _ I Ht Hc). Qed.

  Lemma calls_here e : here c e -> calls n (s_tr s) e.
  Proof. apply (here_calls _ _ _ _ _ _ _ _ I Hc Ht). Qed.

  Lemma c_not_freed : ~ freed (s_tr s) c.
  Proof. apply (source_facts _ _ _ _ _ _ _ I Ht Hc). Qed.

  (** destroy an object that is taken out of the frames of the running context *)
  Lemma destroy_here fs p o :
    is_fin (hd_error (r_frames x)) = false ->
    (forall e, wfs_ e fs = wfs_ e (r_frames x)) -> (forall e, wvs_ e fs = wvs_ e (r_frames x)) ->
    (forall e, wpds e fs = wpds e (r_frames x)) -> wtks fs = wtks (r_frames x) ->
    (forall v, wofs v fs + wob v o = wofs v (r_frames x)) ->
    (forall f, In f fs -> In f (r_frames x) \/ frame_ok s c f) ->
    (In FRun fs -> In FRun (r_frames x)) -> wfs (r_main x) fs -> dtor_ok fs ->
    (forall d, p = OnCtx d -> ~ freed (s_tr s) d) ->
    good0 n (destroy s t c fs p o).
  Proof.
    intros F H1 H2 H3 H4 H5 H6 H7 H8 H9 H10.
    rewrite <- (destroy_put s t c x fs p o Hc).
    pose proof (put_frames_nth s c fs x Hc) as Hn.
    pose proof (destroy_good n (put_frames s c fs) t c (set_frames x fs) p o (objl o)) as G.
    cbn [set_frames r_frames] in G. apply G; auto.
    - eapply (inv_pf0 n s s t c x fs None [] None (objl o) [] I Hc Ht); try reflexivity; auto.
      + intros e [].
      + apply dtor_ok_fin; exact H9.
      + intros e. left. rewrite H2. lia.
      + intros v. specialize (H5 v). assert (E2 : wids v (objl o) = wob v o) by (destruct o; cbn; lia). unfold wids at 2. cbn [sumf]. lia.
      + apply dtor_ok_active; exact H9.
    - rewrite put_frames_thr. exact Ht.
    - rewrite put_frames_tr. exact H10.
  Qed.

  (* ---------------------------------------------------------------- destroy() of a record *)
  Lemma rel_step_good d fail rest : r_frames x = FRel d fail :: rest -> good0 n (rel_step s t c d fail rest).
  Proof.
    intros Hfs. destruct x_running as (Hal & Htf & Hwf & Htop & Hrc). rewrite Hfs in Hwf.
    destruct rest as [|g rest]; [cbn in Hwf; contradiction|]. rewrite wfs_cons in Hwf. destruct Hwf as [Hb Hwf].
    assert (Hfin : is_fin (hd_error (r_frames x)) = false) by (rewrite Hfs; reflexivity).
    assert (Hpos : 0 < cnt d s + wh d None).
    { cbn. pose proof (rec_cnt d s c x Hc) as H. rewrite Hfs in H. unfold wfs_ in H. cbn in H. rewrite Nat.eqb_refl in H. cbn in H. lia. }
    destruct (target_facts _ _ _ _ _ I Hpos) as (y & Hd & Hya & Hyr & Hyf & Hyt & Hydone & Hywf).
    pose proof (sw_ne n s t c d x _ I Hc Ht Hpos) as Hne.
    unfold rel_step. rewrite Hd, Hya.
    destruct (r_caps y) as [|o l] eqn:Hk.
    - (* the memory *)
      assert (Hok : frame_ok s c (FRel d fail)) by (apply (i_frm _ _ _ _ I c x); auto; rewrite Hfs; left; reflexivity).
      assert (Hfacts : r_main y = false /\ (r_term y = true \/ In (EvFail d) (s_tr s) /\ r_frames y = [FStart])).
      { cbn [frame_ok] in Hok. unfold term, is_main, top in Hok. rewrite Hd in Hok. destruct fail.
        - destruct Hok as (O1 & O2 & O3). split; [exact O2|]. right. split; [exact O1|].
          pose proof (i_shape _ _ _ _ I d y Hd) as S9. unfold shape in S9. rewrite Hya in S9.
          destruct (r_term y) eqn:T.
          + destruct S9 as (_ & F & _). rewrite F in O3. discriminate.
          + destruct S9 as (_ & F & _). destruct (r_frames y) as [|f0 [|f1 r]]; [discriminate| |].
            * cbn in O3. congruence.
            * cbn in O3. injection O3 as ->. rewrite wfs_cons in F. destruct F as [[] _].
        - tauto. }
      destruct Hfacts as [Hm Hterm].
      pose proof (i_shape _ _ _ _ I d y Hd) as [Hal0 _]. specialize (Hal0 Hm).
      destruct (r_alloc y) as [a|] eqn:Ha; [|congruence].
      set (s0 := put_frames s c (g :: rest)).
      assert (Hc0 : nth_error (s_rec s0) c = Some (set_frames x (g :: rest))) by (apply put_frames_nth; exact Hc).
      assert (Hd0 : nth_error (s_rec s0) d = Some y).
      { unfold s0. rewrite (put_frames_rec _ _ _ _ Hc), nth_upd_ne by exact Hne. exact Hd. }
      assert (Ht0 : nth_error (s_thr s0) t = Some c) by (unfold s0; rewrite put_frames_thr; exact Ht).
      assert (Hgd : dtor_below g) by (destruct fail; [destruct g as [g| | | | | | | | | |]; cbn in *; try contradiction; rewrite Hb; exact Logic.I|exact Hb]).
      assert (Hga : active g = true /\ is_fin (Some g) = false) by (destruct g; cbn in Hgd; try contradiction; auto).
      destruct Hga as [Hga Hgf].
      assert (I0 : Inv n s0 (Some d) []).
      { unfold s0. eapply (inv_pf0 n s s t c x (g :: rest) None [] (Some d) [] [] I Hc Ht); try reflexivity; rewrite ?Hfs; auto.
        - intros e [].
        - counts. lia.
        - counts. destruct (Nat.eqb_spec d e) as [<-|E].
          + right. unfold idle, top. rewrite Hd. destruct Hterm as [T|[_ F]].
            * pose proof (i_shape _ _ _ _ I d y Hd) as S9. unfold shape in S9. rewrite Hya, T in S9. destruct S9 as (_ & F & _). rewrite F. auto.
            * rewrite F. auto.
          + left. cbn. lia.
        - intros f H. left. right. exact H.
        - intros H. right. exact H. }
      assert (Hterm0 : r_term y = true \/ In (EvFail d) (s_tr s0) /\ r_frames y = [FStart]) by (unfold s0; rewrite put_frames_tr; exact Hterm).
      pose proof (inv_free n s0 t c _ d y a I0 Hc0 Ht0 Hd0 Hk Ha Hm Hterm0) as I1.
      assert (E : put_frames (emit (put_rec s d (set_dead y)) (EvFree d a c)) c (g :: rest)
                = emit (put_rec s0 d (set_dead y)) (EvFree d a c)).
      { unfold s0. rewrite (put_frames_eq _ _ _ _ Hc). rewrite (put_frames_eq _ c x).
        - unfold emit, put_rec. cbn. rewrite upd_comm by auto. reflexivity.
        - cbn. rewrite nth_upd_ne by auto. exact Hc. }
      destruct fail.
      + destruct g as [f| | | | | | | | | |]; try contradiction. cbn in Hb.
        cbn [good0]. intros _.
        set (s1 := emit (put_rec s0 d (set_dead y)) (EvFree d a c)) in *.
        assert (Hc1 : nth_error (s_rec s1) c = Some (set_frames x (FU f :: rest))).
        { unfold s1. cbn. rewrite nth_upd_ne by auto. exact Hc0. }
        assert (E2 : put_frames (emit (emit (put_rec s d (set_dead y)) (EvFree d a c)) (EvThrow c 1)) c (FU (set_mode f (MLand (XUser 1))) :: rest)
                   = put_frames (emit s1 (EvThrow c 1)) c (FU (set_mode f (MLand (XUser 1))) :: rest)).
        { rewrite <- E. set (z := emit (put_rec s d (set_dead y)) (EvFree d a c)).
          assert (Hz : nth_error (s_rec z) c = Some x) by (unfold z; cbn; rewrite nth_upd_ne by auto; exact Hc).
          rewrite (put_frames_eq z c x _ Hz). rewrite (put_frames_eq _ c x) by exact Hz.
          rewrite (put_frames_eq _ c (set_frames x (FU f :: rest))) by (cbn; eapply nth_upd_eq; exact Hz).
          cbn. rewrite upd_upd. reflexivity. }
        rewrite E2.
        eapply (inv_pf0 n s1 (emit s1 (EvThrow c 1)) t c (set_frames x (FU f :: rest)) _ None [] None [] [EvThrow c 1] I1 Hc1 Ht0);
          try reflexivity; cbn [set_frames r_frames r_main]; auto.
        * intros e [<-|[]]. apply (here_calls _ _ _ _ _ _ _ _ I1 Hc1 Ht0). split; cbn; congruence.
        * counts. rewrite Hb. lia.
        * counts. rewrite Hb. left. lia.
        * unfold wtks. cbn [sumf wtk set_mode uf_mode uf_caught]. rewrite Hb. reflexivity.
        * intros f' [<-|H]; [|left; right; exact H]. right.
          pose proof (i_frm _ _ _ _ I1 c _ (FU f) Hc1 (or_introl eq_refl)) as A. cbn [frame_ok set_mode uf_mode uf_caught] in *. split; [exact Logic.I|apply A].
        * intros [H|H]; [discriminate|right; exact H].
        * apply (wfs_set_fu _ f); [reflexivity|exact Logic.I|exact Hwf].
      + cbn [good0]. intros _. rewrite E. exact I1.
    - (* a captured object *)
      pose proof (inv_caps n s d y o l None [] I Hd Hya Hk) as I1. rewrite app_nil_r in I1.
      assert (Hc1 : nth_error (s_rec (put_rec s d (set_caps y l))) c = Some x) by (cbn; rewrite nth_upd_ne by auto; exact Hc).
      rewrite <- Hfs. eapply (destroy_good n _ t c x _ o _ I1 Hc1 Ht).
      + rewrite Hfs. exact Logic.I.
      + intros d' E; injection E as <-. exact Hyf.
      + left; reflexivity.
  Qed.
End Top.

Lemma te_done n s fl ol t c x r :
  Inv n s fl ol -> nth_error (s_rec s) c = Some x -> nth_error (s_thr s) t = Some c ->
  ~ done (s_tr s) c -> entered (s_tr s) c -> tr_ext n (s_tr s) (EvDone c r :: s_tr s).
Proof.
  intros I Hc Ht Hnd Hen. destruct (source_facts _ _ _ _ _ _ _ I Ht Hc) as (A1 & A2 & A3 & _).
  constructor.
  - intros e He. right. exact He.
  - intros e. rewrite entered_cons. split; [intros [[q E]|H]; [discriminate|exact H]|auto].
  - intros e. rewrite freed_cons. split; [intros [(q & o & E)|H]; [discriminate|exact H]|auto].
  - intros e. rewrite unwound_cons. split; [intros [(q & o & E)|H]; [discriminate|exact H]|auto].
  - reflexivity.
  - exact Logic.I.
  - rewrite always_cons. split; [|exact (i_tr _ _ _ _ I)]. split; [|split; [|split]].
    + split; [|exact Logic.I]. cbn. intros e He <-. contradiction.
    + split; [exact Logic.I|]. cbn. intros e E; injection E as <-. eauto.
    + unfold next_rule0. pose proof (i_hd _ _ _ _ I) as H. unfold no_switch in H. destruct (hd_error (s_tr s)) as [[]|]; try exact Logic.I; contradiction.
    + split; assumption.
Qed.

Section Leave.
  Variables (n : nat) (s : state) (t c : nat) (x : rcd) (f : uframe) (rest : list frame).
  Hypothesis I : SInv n s.
  Hypothesis Hc : nth_error (s_rec s) c = Some x.
  Hypothesis Ht : nth_error (s_thr s) t = Some c.
  Hypothesis Hfs : r_frames x = FU f :: rest.

  Lemma l_wf : wfs (r_main x) (FU f :: rest).
  Proof. rewrite <- Hfs. apply (x_running n s t c x I Hc Ht). Qed.
  Lemma l_fin : is_fin (hd_error (r_frames x)) = false.
  Proof. rewrite Hfs. reflexivity. Qed.
  Lemma l_ok : frame_ok s c (FU f).
  Proof. apply (i_frm _ _ _ _ I c x (FU f) Hc). rewrite Hfs. left; reflexivity. Qed.
  Lemma l_in g : In g rest -> In g (r_frames x).
  Proof. intros H. rewrite Hfs. right. exact H. Qed.
  Lemma l_tok : pend c s = wtks (FU f :: rest).
  Proof.
    pose proof (i_tok _ _ _ _ I c x Hc) as A. destruct (x_running n s t c x I Hc Ht) as (_ & B & _). rewrite B, l_fin, Hfs in A. exact A.
  Qed.

  (** the context-function is left *)
  Lemma fin_good r :
    uf_kind f = KCtx -> rest = [FRun] -> uf_objs f = [] -> uf_caught f = None ->
    (uf_mode f = MRet r \/ uf_mode f = MUnw (XForced r)) ->
    SInv n (put_frames (emit s (EvDone c r)) c [FFin r]).
  Proof.
    intros Hk Hr Ho Hca Hm. destruct (x_running n s t c x I Hc Ht) as (Hal & Htf & Hwf & Htop & Hrc).
    pose proof l_wf as Hwf1. rewrite Hr in Hwf1.
    assert (Hmain : r_main x = false) by (rewrite wfs_cons in Hwf1; destruct Hwf1 as [_ H]; exact H).
    assert (Hnd : ~ done (s_tr s) c).
    { rewrite (i_done _ _ _ _ I c x Hc), Htf, l_fin. intuition discriminate. }
    assert (Hen : entered (s_tr s) c).
    { apply (i_ent _ _ _ _ I c x Hc). rewrite Hfs, Hr. right; left; reflexivity. }
    assert (Hwh : forall e, wfr e (FU f) = wh e r).
    { intros e. cbn [wfr]. rewrite Hca. destruct Hm as [-> | ->]; cbn; lia. }
    eapply (inv_local n s _ t c x (set_frames x [FFin r]) None [] None [] I Hc Ht).
    - rewrite (put_frames_rec _ _ _ x) by exact Hc. reflexivity.
    - rewrite put_frames_thr. reflexivity.
    - reflexivity. - reflexivity. - reflexivity. - reflexivity. - reflexivity. - reflexivity.
    - rewrite put_frames_tr. cbn [s_tr emit]. apply (te_done n s None [] t c x r I Hc Ht Hnd Hen).
    - intros e He. rewrite put_frames_tr. cbn [s_tr emit]. rewrite done_cons. split; [intros [[q E]|H]; [congruence|exact H]|auto].
    - rewrite put_frames_tr. cbn [s_tr emit]. rewrite done_cons. cbn. split; [reflexivity|]. intros _. left; eauto.
    - intros e. rewrite put_frames_vars, Hfs, Hr. unfold wfs_. cbn [set_frames r_frames sumf]. rewrite Hwh. cbn [wfr emit s_vars]. lia.
    - intros e. left. rewrite put_frames_vars. unfold wvs_. cbn [set_frames r_frames sumf wvr emit s_vars]. lia.
    - intros e. rewrite Hfs, Hr. reflexivity.
    - discriminate.
    - intros v. rewrite put_frames_vars, Hfs, Hr. counts. rewrite Ho. reflexivity.
    - cbn [set_frames r_frames]. intros f' [<-|[]]. right.
      pose proof l_tok as Hp. rewrite Hr in Hp. unfold wtks in Hp. cbn [sumf wtk] in Hp. rewrite Hca in Hp.
      destruct Hm as [Hm|Hm]; rewrite Hm in Hp; cbn in Hp.
      + destruct r as [p|]; cbn [frame_ok]; [|lia]. right. split; [lia|].
        apply (i_idle _ _ _ _ I). cbn [wh]. unfold cv. pose proof (sumf_le (wvrec p) _ _ _ Hc) as A.
        unfold wvrec in A at 1. rewrite Hfs in A. unfold wvs_ in A. cbn [sumf wvr] in A. rewrite Hm in A. rewrite wh_self in A. lia.
      + pose proof l_ok as [A _]. rewrite Hm in A. destruct A as (b & -> & A). left. split; [lia|exact A].
    - cbn [set_frames r_frames]. intros [H|[]]; discriminate.
    - cbn [set_frames r_frames hd_error]. intros p E. injection E as <-. rewrite put_frames_tr. left; reflexivity.
    - unfold shape. cbn [set_frames r_frames r_main r_alloc r_alive r_term]. rewrite Hal, Htf.
      split; [exact (proj1 (i_shape _ _ _ _ I c x Hc))|]. split; [exact Hmain|reflexivity].
  Qed.

  Lemma leave_ret_good r : uf_mode f = MRet r -> uf_objs f = [] -> good0 n (leave_ret s c f rest r).
  Proof.
    intros Hm Ho. pose proof fin_good as Gfin. pose proof l_wf as Hwf. pose proof l_fin as Hfin. unfold leave_ret.
    destruct rest as [|g rest'] eqn:Hr.
    { cbn in Hwf. destruct Hwf as [H [_ Hk]]. unfold fok in H. rewrite Hm, Hk in H. destruct H as [_ []]. }
    rewrite wfs_cons in Hwf. destruct Hwf as [[Hok Hb] Hwf]. unfold fok in Hok. rewrite Hm in Hok. destruct Hok as [Hca Hok].
    assert (Hpop : r = None -> dtor_below g -> SInv n (put_frames s c (g :: rest'))).
    { intros -> Hg. eapply (inv_pf0 n s s t c x (g :: rest') None [] None [] [] I Hc Ht); try reflexivity; rewrite ?Hfs; auto;
        try solve [counts; rewrite ?Hm, ?Ho, ?Hca; cbn; lia].
      - intros e [].
      - destruct g; cbn in Hg; try contradiction; reflexivity.
      - intros h H. left. right. exact H.
      - intros H. right. exact H.
      - destruct g; cbn in Hg; try contradiction; reflexivity. }
    destruct (uf_kind f) eqn:Hk.
    - tauto.
    - subst g. destruct rest' as [|g' r']; [|rewrite wfs_cons in Hwf; destruct Hwf as [[] _]].
      cbn [good0]. intros _. apply Gfin; auto.
    - subst g. destruct rest' as [|g' r']; [destruct Hwf|]. rewrite wfs_cons in Hwf. destruct Hwf as [Hb2 Hwf].
      destruct g' as [g'| | | | | | | | | |]; try contradiction. cbn in Hb2.
      assert (Ec : clear_ontop (emit s (EvOntopRet c g0 r)) c = put_rec (emit s (EvOntopRet c g0 r)) c (set_ontop x None)).
      { unfold clear_ontop. cbn [emit s_rec]. rewrite Hc. reflexivity. }
      rewrite Ec. cbn [ret_to good0]. intros _.
      set (v := length (s_vars (put_rec (emit s (EvOntopRet c g0 r)) c (set_ontop x None)))).
      rewrite (put_frames_eq _ c (set_ontop x None)) by (cbn; eapply nth_upd_eq; eauto).
      cbn [put_rec emit add_var s_rec s_vars s_thr s_nusr s_tr]. rewrite upd_upd.
      eapply (inv_pf n s (add_var s (VLive false r)) _ t c x (set_frames (set_ontop x None) (FU (set_objs g' (OFib v :: uf_objs g')) :: r')) None [] None []
               [EvCtor (OnCtx c) (OFib v); EvResumed c r; EvOntopRet c g0 r] I Hc Ht); try reflexivity; cbn [set_frames set_ontop r_frames]; rewrite ?Hfs; auto.
      + intros e [<-|[<-|[<-|[]]]]; apply (calls_here n s t c x I Hc Ht); split; cbn; congruence.
      + counts. rewrite ?Hm, ?Ho, ?Hca, ?Hb2. cbn. lia.
      + counts. left. rewrite ?Hm, ?Ho, ?Hca, ?Hb2. cbn. lia.
      + counts. rewrite ?Hm, ?Ho, ?Hca, ?Hb2. cbn. lia.
      + counts. rewrite ?Hm, ?Ho, ?Hca, ?Hb2. unfold v. cbn [put_rec emit s_vars sumf]. destruct (length (s_vars s) =? v0); cbn; lia.
      + intros h [<-|H]; [|left; right; right; right; exact H]. right.
        exact (i_frm _ _ _ _ I c x (FU g') Hc ltac:(rewrite Hfs; right; right; left; reflexivity)).
      + intros [H|H]; [discriminate|]. right; right; right; exact H.
    - destruct g as [g| | | | | | | | | |]; try contradiction. cbn [good0]. intros _. apply Hpop; [exact Hok|]. cbn in *. rewrite Hb. exact Logic.I.
    - cbn [good0]. intros _. apply Hpop; [exact Hok|exact Hb].
  Qed.

  Lemma leave_exn_good e : uf_mode f = MUnw e -> uf_objs f = [] -> good0 n (leave_exn s c f rest e).
  Proof.
    intros Hm Ho. pose proof fin_good as Gfin. pose proof l_wf as Hwf. pose proof l_fin as Hfin. pose proof l_ok as Hfok. unfold leave_exn.
    destruct rest as [|g rest'] eqn:Hr.
    { cbn in Hwf. destruct Hwf as [H [_ Hk]]. rewrite Hk. exact Logic.I. }
    rewrite wfs_cons in Hwf. destruct Hwf as [[Hok Hb] Hwf]. unfold fok in Hok. rewrite Hm in Hok.
    cbn [frame_ok] in Hfok. rewrite Hm in Hfok. destruct Hfok as [Hex _].
    destruct (uf_kind f) eqn:Hk.
    - tauto.
    - subst g. destruct rest' as [|g' r']; [|rewrite wfs_cons in Hwf; destruct Hwf as [[] _]].
      destruct e as [e|p]; [exact Logic.I|]. cbn [good0]. intros _. apply Gfin; auto.
    - subst g. destruct rest' as [|g' r']; [destruct Hwf|]. rewrite wfs_cons in Hwf. destruct Hwf as [Hb2 Hwf].
      destruct g' as [g'| | | | | | | | | |]; try contradiction. cbn in Hb2.
      cbn [raise_to good0]. intros _.
      eapply (inv_pf0 n s _ t c x _ None [] None [] [EvRaised c e; EvOntopExn c g0 e] I Hc Ht); try reflexivity; rewrite ?Hfs; auto;
        try solve [counts; rewrite ?Hm, ?Ho, ?Hok, ?Hb2; cbn; lia].
      + intros h [<-|[<-|[]]]; apply (calls_here n s t c x I Hc Ht); split; cbn; congruence.
      + intros h [<-|H]; [|left; right; right; right; exact H]. right.
        pose proof (i_frm _ _ _ _ I c x (FU g') Hc ltac:(rewrite Hfs; right; right; left; reflexivity)) as A. cbn [frame_ok set_mode uf_mode uf_caught] in *.
        split; [exact Hex|apply A].
      + intros [H|H]; [discriminate|]. right; right; right; exact H.
      + apply (wfs_set_fu _ g'); [reflexivity|exact Logic.I|exact Hwf].
    - destruct g as [g| | | | | | | | | |]; try contradiction. cbn in Hb. cbn [good0]. intros _.
      eapply (inv_pf0 n s s t c x _ None [] None [] [] I Hc Ht); try reflexivity; rewrite ?Hfs; auto;
        try solve [counts; rewrite ?Hm, ?Ho, ?Hok, ?Hb; cbn; lia].
      + intros h [].
      + intros h [<-|H]; [|left; right; right; exact H]. right.
        pose proof (i_frm _ _ _ _ I c x (FU g) Hc ltac:(rewrite Hfs; right; left; reflexivity)) as A. cbn [frame_ok set_mode uf_mode uf_caught] in *.
        split; [exact Hex|apply A].
      + intros [H|H]; [discriminate|]. right; right; exact H.
      + apply (wfs_set_fu _ g); [reflexivity|exact Logic.I|exact Hwf].
    - exact Logic.I.
  Qed.

  Lemma pop_obj_good o l :
    uf_objs f = o :: l -> (forall e, uf_mode f <> MLand e) ->
    good0 n (destroy s t c (FU (set_objs f l) :: rest) (OnCtx c) o).
  Proof.
    intros Ho Hm. pose proof l_wf as Hwf. apply (destroy_here n s t c x I Hc Ht); rewrite ?Hfs; auto.
    - counts. rewrite Ho. cbn. lia.
    - intros h [<-|H]; [right; exact l_ok|left; right; exact H].
    - intros [H|H]; [discriminate|right; exact H].
    - cbn. destruct (uf_mode f) eqn:E; try exact Logic.I. apply (Hm e). reflexivity.
    - intros d E; injection E as <-. apply (c_not_freed n s t c x I Hc Ht).
  Qed.

  (** changing the control state of the frame on top *)
  Lemma set_uf_good s1 f' new :
    s_rec s1 = s_rec s -> s_thr s1 = s_thr s -> s_tr s1 = new ++ s_tr s ->
    forallb plain new = true -> (forall e, In e new -> here c e) ->
    uf_kind f' = uf_kind f -> fok f' ->
    (forall e, wfr e (FU f') + sumf (wvar e) (s_vars s1) = wfr e (FU f) + sumf (wvar e) (s_vars s)) ->
    (forall e, wvr e (FU f') + sumf (wvar e) (s_vars s1) <= wvr e (FU f) + sumf (wvar e) (s_vars s)) ->
    wtk (FU f') = wtk (FU f) ->
    (forall v, wobs v (uf_objs f') + auto_live (nth_error (s_vars s) v) = wobs v (uf_objs f) + auto_live (nth_error (s_vars s1) v)) ->
    frame_ok s c (FU f') ->
    SInv n (put_frames s1 c (FU f' :: rest)).
  Proof.
    intros E1 E2 E3 E4 E5 E6 E7 H1 H2 H3 H4 H5.
    eapply (inv_pf0 n s s1 t c x (FU f' :: rest) None [] None [] new I Hc Ht); auto; rewrite ?Hfs; auto.
    - intros e He. apply (calls_here n s t c x I Hc Ht). auto.
    - intros e. specialize (H1 e). unfold wfs_. cbn [sumf wh]. lia.
    - intros e. specialize (H2 e). left. unfold wvs_. cbn [sumf wh]. lia.
    - unfold wtks. cbn [sumf]. rewrite H3. reflexivity.
    - intros v. specialize (H4 v). unfold wofs, wids. cbn [sumf wof]. lia.
    - intros h [<-|H]; [right; exact H5|left; right; exact H].
    - intros [H|H]; [discriminate|right; exact H].
    - apply (wfs_set_fu _ f); auto. exact l_wf.
    - reflexivity.
  Qed.
End Leave.

Lemma tau_good n s t c x :
  SInv n s -> nth_error (s_rec s) c = Some x -> nth_error (s_thr s) t = Some c ->
  good n s (tau_step s t c (r_frames x)).
Proof.
  intros I Hc Ht. destruct (x_running n s t c x I Hc Ht) as (Hal & Htf & Hwf & Htop & Hrc).
  unfold tau_step. destruct (r_frames x) as [|f0 rest] eqn:Hfs; [destruct Htop|].
  destruct f0 as [f| | | | | |p| | | |d fail]; try discriminate Htop.
  - destruct (uf_mode f) as [|e|r|e] eqn:Hm; try exact Logic.I; apply good0_good.
    + destruct (uf_objs f) as [|o l] eqn:Ho.
      * eapply leave_ret_good; eauto.
      * eapply pop_obj_good; eauto. congruence.
    + destruct (uf_objs f) as [|o l] eqn:Ho.
      * eapply leave_exn_good; eauto.
      * eapply pop_obj_good; eauto. congruence.
  - destruct rest as [|g rest]; [|rewrite wfs_cons in Hwf; destruct Hwf as [[] _]].
    destruct p as [d|]; [|cbn; auto]. rewrite Hc. apply good0_good.
    pose proof (i_fin _ _ _ _ I c x (Some d) Hc ltac:(rewrite Hfs; reflexivity)) as Hev.
    pose proof (i_frm _ _ _ _ I c x (FFin (Some d)) Hc ltac:(rewrite Hfs; left; reflexivity)) as Hok. cbn [frame_ok] in Hok.
    change (put_rec s c (set_done x [FRes; FRunEnd])) with (with_rec s c (set_done x [FRes; FRunEnd])).
    destruct Hok as [[Hp Hd]|[Hp Hd]].
    + apply (exit_dtor_good n s t c d x); auto.
    + eapply (idle_good n s t c d x _ None SwExit I Hc Ht); auto; try discriminate.
      * cbn. pose proof (rec_cnt d s c x Hc) as H. rewrite Hfs in H. unfold wfs_ in H. cbn in H. rewrite Nat.eqb_refl in H. cbn in H. lia.
      * constructor; cbn [set_done r_main r_alive r_alloc r_caps r_force r_frames r_term hd_error]; auto; rewrite ?Hfs; try discriminate; try reflexivity.
        -- intros e. unfold wfs_. cbn. rewrite (Nat.eqb_sym d e). lia.
        -- intros f [<-|[<-|[]]]; split; auto.
        -- split; [reflexivity|exact Hp].
        -- unfold shape. cbn. rewrite Hal. split; [exact (proj1 (i_shape _ _ _ _ I c x Hc))|]. repeat split. exact Hwf.
  - apply good0_good. eapply rel_step_good; eauto.
Qed.
