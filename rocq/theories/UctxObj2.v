(** Objects, exceptions and results of calls in the ucontext machine: release, creation, user steps. *)
From Coq Require Import List Arith Bool Lia.
From Verif Require Import ListUtil Uctx UctxSpec UctxInv UctxInv2 UctxInv3 UctxInv4 UctxInv5 UctxInv6 UctxInv7 UctxInj UctxObj.
Import ListNotations.

Lemma frames_set x fs : r_frames x = fs -> x = set_frames x fs.
Proof. intros <-. destruct x; reflexivity. Qed.

Lemma k_same s s' : K s -> s_rec s' = s_rec s -> s_tr s' = s_tr s -> VI (s_vars s') (s_nusr s') (s_tr s) -> K s'.
Proof. intros [K1 K2 K3 K4 K5] R1 R2 V. constructor; rewrite ?R1, ?R2; auto. Qed.

Section Ctx.
  Variables (n t c : nat).

  (** a record that is being released has no objects on its stack *)
  Lemma released_frames s x d b rest y :
    SInv n s -> nth_error (s_rec s) c = Some x -> r_frames x = FRel d b :: rest -> nth_error (s_rec s) d = Some y -> r_alive y = true ->
    fsobjs (r_frames y) = [].
  Proof.
    intros HI Hc Hfs Hd Ha. pose proof (i_frm _ _ _ _ HI c x (FRel d b) Hc ltac:(rewrite Hfs; left; reflexivity)) as F.
    pose proof (i_shape _ _ _ _ HI d y Hd) as [_ S]. rewrite Ha in S. cbn in F. destruct b.
    - destruct F as (_ & _ & F). unfold top in F. rewrite Hd in F. destruct (r_term y); [destruct S as [S _]; rewrite S; reflexivity|].
      destruct S as [S _]. destruct (r_frames y) as [|g [|g' fs]]; [reflexivity| |].
      + injection F as ->. reflexivity.
      + injection F as ->. apply wfs_cons in S. destruct S as [[] _].
    - destruct F as [F _]. unfold term in F. rewrite Hd in F. rewrite F in S. destruct S as [S _]. rewrite S. reflexivity.
  Qed.

  Lemma rel_step_k s x d fail rest :
    SInv n s -> K s -> nth_error (s_rec s) c = Some x -> nth_error (s_thr s) t = Some c -> r_frames x = FRel d fail :: rest ->
    wfs (r_main x) (FRel d fail :: rest) -> kgood n (rel_step s t c d fail rest).
  Proof.
    intros HI HK Hc Ht Hfs Hwf. unfold rel_step. destruct (nth_error (s_rec s) d) as [y|] eqn:Hd; [|exact I].
    destruct (r_alive y) eqn:Hal; [|exact I].
    assert (Hrd : runs s d = false).
    { pose proof (frame_cnt d s c x (FRel d fail) Hc ltac:(rewrite Hfs; left; reflexivity)) as A.
      cbn in A. rewrite Nat.eqb_refl in A. cbn in A.
      destruct (inv_runs_false _ _ _ _ d HI) as (z & _ & _ & B); [lia|exact B]. }
    assert (Ne : d <> c) by (intros ->; rewrite runs_false in Hrd; exact (Hrd t Ht)).
    pose proof (released_frames s x d fail rest y HI Hc Hfs Hd Hal) as Hno.
    pose proof (k_loc _ HK d y Hd) as [L1 L2 L3 L4]. unfold objs in L1. rewrite Hno in L1. cbn [app] in L1.
    pose proof (k_loc _ HK c x Hc) as [X1 X2 X3 X4]. unfold objs in X1. rewrite Hfs in X1, X2, X3. cbn [fsobjs flat_map fobjs app] in X1.
    inversion X2 as [|? ? _ X2']; subst.
    pose proof (ready_after _ (k_hd _ HK)) as Haf.
    assert (Hb : fail = false -> is_fin (hd_error rest) = false).
    { intros ->. destruct rest as [|g rest]; [reflexivity|]. apply wfs_cons in Hwf. destruct Hwf as [Hb _]. destruct g; try contradiction; reflexivity. }
    destruct (r_caps y) as [|o l] eqn:Hcaps.
    - destruct (r_alloc y) as [a|]; [|exact I]. set (s1 := emit (put_rec s d (set_dead y)) (EvFree d a c)).
      assert (G : K s1).
      { eapply (k_step s s1 d y (set_dead y) [EvFree d a c] HK Hd); try reflexivity.
        - intros e _ (t' & f & [E|Hi]); [discriminate|]. exists t', f; exact Hi.
        - constructor.
          + cbn. rewrite L1. reflexivity.
          + constructor.
          + cbn. discriminate.
          + discriminate.
        - cbn [s1 emit put_rec s_vars s_nusr]. apply (vi_noob _ _ [_]); [reflexivity|exact (k_v _ HK)].
        - cbn [app]. rewrite always_cons. split; [|exact (k_rule _ HK)]. split; [exact L1|]. split; [apply res_ok; auto|exact I]. }
      assert (Hc1 : nth_error (s_rec s1) c = Some x) by (unfold s1; cbn; rewrite nth_upd_ne; auto).
      assert (Ob1 : stack_objs (s_tr s1) c = fsobjs rest ++ r_caps x) by exact X1.
      assert (Fk1 : Forall (fok_exn (s_tr s1) c) rest) by (apply (fok_app [EvFree d a c]); exact X2').
      destruct fail.
      + destruct rest as [|[f| | |e| | | | | | |] rest]; try exact I. intros _.
        eapply (k_pf s1 _ c x _ [EvThrow c 1] G Hc1); try reflexivity.
        * repeat constructor.
        * exact Ob1.
        * inversion Fk1 as [|? ? A B]; subst. constructor; [|apply (fok_app [_]); exact B]. intros e He.
          unfold fexn, uexn, set_mode in He. cbn [uf_mode uf_caught] in He. apply in_app_or in He. destruct He as [[<-|[]]|He]; [left; reflexivity|].
          apply (origin_app [_]). apply A. unfold fexn, uexn. apply in_or_app. auto.
        * rewrite Hfs. split; [reflexivity|]. apply wfs_cons in Hwf. destruct Hwf as [Hr _]. cbn in Hr. unfold wtks. cbn. rewrite Hr. lia.
        * discriminate.
        * cbn [emit s_vars s_nusr]. apply (vi_noob _ _ [_]); [reflexivity|exact (k_v _ G)].
        * cbn [app]. rewrite always_cons. split; [apply kr_dull; [reflexivity|exact I]|exact (k_rule _ G)].
      + intros _. eapply (k_pf s1 _ c x rest [] G Hc1); try reflexivity.
        * constructor.
        * exact Ob1.
        * exact Fk1.
        * rewrite Hfs. split; [reflexivity|]. unfold wtks. cbn. auto.
        * intros p Hp. specialize (Hb eq_refl). rewrite Hp in Hb. discriminate.
        * exact (k_v _ G).
        * exact (k_rule _ G).
    - apply destroy_live. intros Hv.
      set (s0 := put_rec s d (set_caps y l)).
      assert (Hc0 : nth_error (s_rec s0) c = Some x) by (unfold s0; cbn; rewrite nth_upd_ne; auto).
      eapply (destroy_k n s0 t c x); eauto.
      + assert (Rn : match o with OFib v => forall p, ~ In (EvDtor p o) (s_tr s) | OUsr _ => True end).
        { destruct o as [v|u]; [|exact I]. destruct (Hv v eq_refl) as (b & h & E). unfold s0 in E. cbn in E.
          pose proof (proj2 (k_v _ HK) v) as A. rewrite E in A. exact (proj2 A). }
        assert (Rr : krule (EvDtor (OnCtx d) o) (s_tr s)).
        { split; [|split; [apply res_ok; auto|exact I]]. cbn. rewrite L1. split; [reflexivity|]. destruct o; auto. }
        assert (Vd : VI (s_vars (dstate s0 (OnCtx d) o)) (s_nusr (dstate s0 (OnCtx d) o)) (EvDtor (OnCtx d) o :: s_tr s)).
        { destruct o as [v|u].
          - destruct (Hv v eq_refl) as (b & h & E). cbn. eapply vi_dtor; eauto. exact (k_v _ HK).
          - cbn. apply vi_dtor_usr. exact (k_v _ HK). }
        assert (Hs : s_rec (dstate s0 (OnCtx d) o) = upd (s_rec s) d (set_caps y l)) by (destruct o; reflexivity).
        assert (Htr : s_tr (dstate s0 (OnCtx d) o) = EvDtor (OnCtx d) o :: s_tr s) by (destruct o; reflexivity).
        assert (G : K (dstate s0 (OnCtx d) o)).
        { eapply (k_step s _ d y (set_caps y l) [EvDtor (OnCtx d) o] HK Hd); auto.
          - intros e Nd. apply (stack_objs_oev d); auto. repeat constructor.
          - intros e _ (t' & f & [E|Hi]); [discriminate|]. exists t', f; exact Hi.
          - constructor.
            + cbn [app stack_objs]. rewrite Nat.eqb_refl, L1. unfold objs. cbn [set_caps r_frames r_caps tl]. rewrite Hno. reflexivity.
            + apply (fok_app [_]). exact L2.
            + cbn [set_caps r_frames r_term r_alive]. intros (t' & f & [E|Hi]); [discriminate|]. apply L3. exists t', f; exact Hi.
            + cbn [set_caps r_frames]. intros p Hp (t' & f & [E|Hi]); [discriminate|]. apply (unw_by_app [_]). apply L4; auto. exists t', f; exact Hi.
          - cbn [app]. rewrite always_cons. split; [exact Rr|exact (k_rule _ HK)].
          - exact I. }
        rewrite <- Hfs. rewrite put_frames_same; [exact G|]. rewrite Hs, nth_upd_ne; auto.
      + intros v b e -> E. unfold s0 in E. cbn in E. destruct (var_fact n s t c v b e HI Ht E) as (A & _ & B). split; [exact A|].
        intros He. unfold s0, top. cbn [put_rec s_rec]. rewrite nth_upd. destruct (Nat.eqb_spec d e) as [<-|Nd]; [|exact (B He)].
        specialize (B He). unfold top in B. rewrite Hd in B. destruct (Nat.ltb_spec d (length (s_rec s))) as [L|L]; [exact B|]. apply nth_some_lt in Hd. lia.
  Qed.

  Lemma exit_ok s x d rest :
    SInv n s -> K s -> nth_error (s_rec s) c = Some x -> nth_error (s_thr s) t = Some c -> r_frames x = FFin (Some d) :: rest ->
    d <> c /\ (calm_ev (EvSwitch t c d SwExit) (s_tr s) ->
      (forall y, nth_error (s_rec s) d = Some y -> r_force y = true -> top s d <> Some FRes) /\
      (forall e, top s d = Some (FDt e) -> exists t', In (EvSwitch t' d c SwUnwind) (s_tr s))).
  Proof.
    intros HI HK Hc Ht Hfs.
    assert (Ne : d <> c).
    { pose proof (frame_cnt d s c x (FFin (Some d)) Hc ltac:(rewrite Hfs; left; reflexivity)) as A.
      cbn in A. rewrite Nat.eqb_refl in A. cbn in A.
      destruct (inv_runs_false _ _ _ _ d HI) as (z & _ & _ & B); [lia|]. intros ->. rewrite runs_false in B. exact (B t Ht). }
    split; [exact Ne|]. cbn. intros Hcalm.
    pose proof (i_frm _ _ _ _ HI c x (FFin (Some d)) Hc ltac:(rewrite Hfs; left; reflexivity)) as F. cbn in F.
    destruct F as [[F1 F2]|[F1 F2]].
    - split; [intros y _ _; congruence|]. intros e He.
      assert (Hu : unwound (s_tr s) c) by (eapply (i_unw2 _ _ _ _ HI c x Hc); left; lia).
      destruct (kl_fin _ _ _ (k_loc _ HK c x Hc) (Some d)) as (t' & m & E & Hi); [rewrite Hfs; reflexivity|exact Hu|].
      injection E as <-. eauto.
    - split.
      + intros y Hy Hfo Hto. assert (Hu : unwound (s_tr s) d) by (eapply (i_unw2 _ _ _ _ HI d y Hy); right; exact Hfo).
        assert (Htm : r_term y = false).
        { destruct (r_term y) eqn:E; [|reflexivity]. exfalso. apply Hcalm. apply (i_done _ _ _ _ HI d y Hy). left. exact E. }
        destruct (i_unw _ _ _ _ HI d y Hy Hu Htm) as [A _]. unfold top in Hto. rewrite Hy in Hto. contradiction.
      + intros e He. destruct F2 as [F2|F2]; congruence.
  Qed.

  Lemma tau_k s x :
    SInv n s -> K s -> nth_error (s_rec s) c = Some x -> nth_error (s_thr s) t = Some c -> kgood n (tau_step s t c (r_frames x)).
  Proof.
    intros HI HK Hc Ht. unfold tau_step. destruct (inv_running _ _ _ _ _ _ _ HI Ht Hc) as (Hal & Htf & Hwf & Htop & Hrc).
    destruct (r_frames x) as [|[f| | |e| | |p| |p| |d b] rest] eqn:Hfs; try exact I.
    - destruct (uf_mode f) eqn:Hm; try exact I; (destruct (uf_objs f) as [|o l] eqn:Ho; [|eapply local_destroy; eauto]).
      + eapply leave_ret_k; eauto.
      + eapply leave_exn_k; eauto.
    - destruct p as [d|]; [|exact I]. rewrite Hc. destruct (exit_ok s x d rest HI HK Hc Ht Hfs) as [Ne Hex].
      pose proof (k_loc _ HK c x Hc) as [X1 X2 X3 X4]. unfold objs in X1. rewrite Hfs in X1, X2.
      apply switch_k.
      + eapply (k_step s _ c x (set_done x (FRes :: FRunEnd :: rest)) [] HK Hc); try reflexivity; auto.
        * constructor.
          -- exact X1.
          -- inversion X2; subst. constructor; [intros ? []|]. constructor; [intros ? []|]. assumption.
          -- cbn. discriminate.
          -- discriminate.
        * exact (k_v _ HK).
        * exact (k_rule _ HK).
        * exact (k_hd _ HK).
      + change (s_tr (put_rec s c (set_done x (FRes :: FRunEnd :: rest)))) with (s_tr s). intros Hcalm. destruct (Hex Hcalm) as [A B].
        unfold sw_ok. unfold top in *. cbn [put_rec s_rec s_tr]. rewrite nth_upd_ne by auto. split; [discriminate|]. split; [intros _; exact A|]. intros e He. split; [reflexivity|exact (B e He)].
    - destruct rest as [|g rest]; [cbn in Hwf; contradiction|]. apply wfs_cons in Hwf. destruct Hwf as [[] _].
    - apply (rel_step_k s x); auto.
  Qed.

  Lemma new_fib_k s s1 x f rest b h :
    K s -> nth_error (s_rec s) c = Some x -> r_frames x = FU f :: rest -> s_rec s1 = s_rec s -> s_tr s1 = s_tr s -> VI (s_vars s1) (s_nusr s1) (s_tr s) ->
    kgood n (new_fib s1 c f rest b h).
  Proof.
    intros HK Hc Hfs R1 R2 V. pose proof (ready_after _ (k_hd _ HK)) as Haf. pose proof (k_objs _ _ _ _ _ HK Hc Hfs) as Hob.
    unfold new_fib. cbv zeta.
    assert (G : forall p f', s_tr s1 = s_tr s -> (b = true -> p = OnHeap) -> oev c (EvCtor p (OFib (length (s_vars s1)))) ->
       uf_mode f' = uf_mode f -> uf_caught f' = uf_caught f ->
       stack_objs (EvCtor p (OFib (length (s_vars s1))) :: s_tr s) c = uf_objs f' ++ fsobjs rest ++ r_caps x ->
       K (put_frames (emit (add_var s1 (VLive b h)) (EvCtor p (OFib (length (s_vars s1))))) c (FU f' :: rest))).
    { intros p f' _ Hp Hoe Hm Hca Hst.
      eapply (k_fu s _ c x f f' rest [EvCtor p (OFib (length (s_vars s1)))] HK Hc Hfs); try reflexivity.
      - exact R1.
      - cbn. rewrite R2. reflexivity.
      - constructor; [exact Hoe|constructor].
      - exact Hst.
      - intros e He. left. unfold uexn in *. rewrite Hm, Hca in He. exact He.
      - cbn. rewrite Hm, Hca. reflexivity.
      - cbn [emit add_var s_vars s_nusr app]. apply vi_new; auto.
      - cbn [app]. rewrite always_cons. split; [eapply kr_ctor_fib; eauto|exact (k_rule _ HK)]. }
    destruct b; intros _; apply G; auto; try reflexivity; try discriminate.
    cbn. rewrite Nat.eqb_refl, Hob. reflexivity.
  Qed.

  (** the captured objects are constructed in the new record *)
  Lemma do_caps_k d l : forall s acc s' caps, do_caps s d l acc = Some (s', caps) ->
    (forall e, length (s_rec s) <= e -> stack_objs (s_tr s) e = if Nat.eqb e d then acc else []) ->
    (forall e x, nth_error (s_rec s) e = Some x -> e <> d) ->
    (forall e x, nth_error (s_rec s) e = Some x -> kloc (s_tr s) e x) ->
    VI (s_vars s) (s_nusr s) (s_tr s) -> always krule (s_tr s) -> ready (s_tr s) ->
    s_rec s' = s_rec s /\
    (forall e, length (s_rec s) <= e -> stack_objs (s_tr s') e = if Nat.eqb e d then caps else []) /\
    (forall e x, nth_error (s_rec s) e = Some x -> kloc (s_tr s') e x) /\
    VI (s_vars s') (s_nusr s') (s_tr s') /\ always krule (s_tr s') /\ ready (s_tr s') /\
    forall c', unwound (s_tr s') c' -> unwound (s_tr s) c'.
  Proof.
    assert (Kx : forall tr e x o, e <> d -> kloc tr e x -> kloc (EvCtor (OnCtx d) o :: tr) e x).
    { intros tr e x o N. apply (kloc_ext [_]).
      - apply (stack_objs_oev d); auto. repeat constructor.
      - apply unwound_nosw. reflexivity. }
    assert (St : forall tr o e acc, stack_objs tr e = (if Nat.eqb e d then acc else []) ->
      stack_objs (EvCtor (OnCtx d) o :: tr) e = if Nat.eqb e d then o :: acc else []).
    { intros tr o e acc H. cbn. rewrite (Nat.eqb_sym d e), H. destruct (Nat.eqb e d); reflexivity. }
    induction l as [|[v|] l IH]; intros s acc s' caps; cbn [do_caps].
    - injection 1 as <- <-. auto 10.
    - destruct (get_var s v) as [[b h]|] eqn:Hv; [|discriminate]. intros H H1 H2 H3 H4 H5 H6.
      apply get_var_some in Hv.
      eapply IH in H.
      + destruct H as (A1 & A2 & A3 & A4 & A5 & A6 & A7). cbn [put_var add_var emit s_rec s_tr] in *. split; [exact A1|]. split; [exact A2|]. split; [exact A3|]. split; [exact A4|]. split; [exact A5|]. split; [exact A6|]. intros c' Hc'. apply A7 in Hc'.
        destruct Hc' as (t' & f & [E|Hi]); [discriminate|]. exists t', f; exact Hi.
      + cbn [put_var add_var emit s_rec s_tr]. intros e He. apply St. auto.
      + cbn [put_var add_var emit s_rec s_tr]. exact H2.
      + cbn [put_var add_var emit s_rec s_tr]. intros e x Hx. apply Kx; eauto.
      + cbn [put_var add_var emit s_rec s_tr s_vars s_nusr]. rewrite <- (upd_length (s_vars s) v (VLive b None)). apply vi_new; [discriminate|]. eapply vi_set; eauto.
      + cbn [put_var add_var emit s_rec s_tr]. rewrite always_cons. split; [|exact H5]. eapply kr_ctor_fib; [apply ready_after; exact H6|exact H4].
      + exact I.
    - intros H H1 H2 H3 H4 H5 H6. eapply IH in H.
      + destruct H as (A1 & A2 & A3 & A4 & A5 & A6 & A7). cbn [s_rec s_tr] in *. split; [exact A1|]. split; [exact A2|]. split; [exact A3|]. split; [exact A4|]. split; [exact A5|]. split; [exact A6|]. intros c' Hc'. apply A7 in Hc'.
        destruct Hc' as (t' & f & [E|Hi]); [discriminate|]. exists t', f; exact Hi.
      + cbn [s_rec s_tr]. intros e He. apply St. auto.
      + cbn [s_rec s_tr]. exact H2.
      + cbn [s_rec s_tr]. intros e x Hx. apply Kx; eauto.
      + cbn [s_rec s_tr s_vars s_nusr]. apply vi_usr. exact H4.
      + cbn [s_rec s_tr]. rewrite always_cons. split; [|exact H5]. eapply kr_ctor_usr; [apply ready_after; exact H6|exact H4].
      + exact I.
  Qed.

  Lemma do_create_k s x f rest a l ok :
    SInv n s -> K s -> nth_error (s_rec s) c = Some x -> r_frames x = FU f :: rest -> kgood n (do_create s c f rest a l ok).
  Proof.
    intros HI HK Hc Hfs. unfold do_create. cbv zeta. set (d := length (s_rec s)).
    destruct (do_caps (emit s (EvAlloc d a)) d l []) as [[s1 caps]|] eqn:Hd; [|exact I].
    apply do_caps_k in Hd.
    2:{ cbn. intros e He. rewrite (k_none _ HK e He). destruct (Nat.eqb e d); reflexivity. }
    2:{ cbn. intros e z Hz. apply nth_some_lt in Hz. unfold d. lia. }
    2:{ cbn. intros e z Hz. apply (kloc_ext [_]); [reflexivity|apply unwound_nosw; reflexivity|]. exact (k_loc _ HK e z Hz). }
    2:{ cbn. apply (vi_noob _ _ [_]); [reflexivity|exact (k_v _ HK)]. }
    2:{ cbn. rewrite always_cons. split; [apply kr_dull; [reflexivity|apply ready_after, k_hd; auto]|exact (k_rule _ HK)]. }
    2:{ exact I. }
    destruct Hd as (R1 & R2 & R3 & R4 & R5 & R6 & R7). cbn [emit s_rec s_thr s_tr] in R1, R2, R3, R7.
    set (y := mk_r _ _ _ _ _ _ _ _ _). set (s2 := mk_s _ _ _ _ _).
    assert (G : K s2).
    { constructor; auto.
      - intros e z. unfold s2; cbn [s_rec s_tr]. rewrite R1. intros Hz. apply nth_app_cases in Hz. destruct Hz as [[_ Hz]|[-> ->]]; [auto|].
        constructor.
        + rewrite R2 by lia. fold d. rewrite Nat.eqb_refl. reflexivity.
        + unfold y. cbn. constructor; [intros ? []|constructor].
        + intros Hu. exfalso. apply R7 in Hu. destruct Hu as (t' & f0 & [E|Hi]); [discriminate|].
          destruct (i_len _ _ _ _ HI (length (s_rec s)) (le_n _)) as (_ & _ & _ & A). apply A. exists t', f0; exact Hi.
        + discriminate.
      - intros e. unfold s2; cbn [s_rec s_tr]. rewrite R1, app_length. cbn [length]. intros He. rewrite R2 by lia. unfold d.
        destruct (Nat.eqb_spec e (length (s_rec s))); [lia|reflexivity]. }
    assert (Hc2 : nth_error (s_rec s2) c = Some x).
    { unfold s2; cbn [s_rec]. rewrite R1, nth_error_app1; [exact Hc|]. eapply nth_some_lt; eauto. }
    destruct ok; [eapply new_fib_k; eauto; exact (k_v _ G)|]. intros _.
    pose proof (k_loc _ G c x Hc2) as [X1 X2 X3 X4]. unfold objs in X1. rewrite Hfs in X1, X2.
    eapply (k_pf s2 _ c x _ [_] G Hc2); try reflexivity.
    - repeat constructor.
    - exact X1.
    - constructor; [intros ? []|]. apply (fok_app [_]). exact X2.
    - rewrite Hfs. split; [reflexivity|]. unfold wtks. cbn. auto.
    - discriminate.
    - cbn [emit s_vars s_nusr]. apply (vi_noob _ _ [_]); [reflexivity|exact (k_v _ G)].
    - cbn [app]. rewrite always_cons. split; [apply kr_dull; [reflexivity|apply ready_after, k_hd; auto]|exact (k_rule _ G)].
  Qed.

  Lemma resume_ok s v b d k : SInv n s -> nth_error (s_thr s) t = Some c -> nth_error (s_vars s) v = Some (VLive b (Some d)) ->
    k = SwJump \/ (exists g, k = SwOntop g) -> calm_ev (EvSwitch t c d k) (s_tr s) -> d <> c /\ sw_ok s c d k.
  Proof.
    intros HI Ht Hv Hk Hcalm. destruct (var_fact n s t c v b d HI Ht Hv) as (A & B & _). split; [exact A|].
    assert (Hnd : ~ done (s_tr s) d) by (destruct Hk as [->|[g ->]]; cbn in Hcalm; tauto).
    split; [destruct Hk as [->|[g ->]]; discriminate|]. split.
    - intros _ y Hy Hfo Hto. assert (Hu : unwound (s_tr s) d) by (eapply (i_unw2 _ _ _ _ HI d y Hy); right; exact Hfo).
      assert (Htm : r_term y = false).
      { destruct (r_term y) eqn:E; [|reflexivity]. exfalso. apply Hnd. apply (i_done _ _ _ _ HI d y Hy). left. exact E. }
      destruct (i_unw _ _ _ _ HI d y Hy Hu Htm) as [C _]. unfold top in Hto. rewrite Hy in Hto. contradiction.
    - intros e He. destruct B as [B|B]; congruence.
  Qed.

  Lemma user_k s x f rest o :
    SInv n s -> K s -> nth_error (s_rec s) c = Some x -> nth_error (s_thr s) t = Some c -> r_frames x = FU f :: rest ->
    kgood n (user_step s t c f rest o).
  Proof.
    intros HI HK Hc Ht Hfs. pose proof (k_objs _ _ _ _ _ HK Hc Hfs) as Hob. pose proof (k_v _ HK) as V. pose proof (ready_after _ (k_hd _ HK)) as Haf.
    assert (Hset : forall f' s1, s_rec s1 = s_rec s -> s_tr s1 = s_tr s -> VI (s_vars s1) (s_nusr s1) (s_tr s) ->
              uf_objs f' = uf_objs f -> (forall e, In e (uexn f') -> In e (uexn f)) -> wtk (FU f) <= wtk (FU f') -> K (put_frames s1 c (FU f' :: rest))).
    { intros f' s1 R1 R2 V1 H1 H2 H3. eapply k_fu0; eauto. }
    assert (Hthr : forall e0 f', uf_objs f' = uf_objs f -> (forall e, In e (uexn f') -> In e (uexn f) \/ e = XUser e0) -> wtk (FU f) <= wtk (FU f') ->
              K (put_frames (emit s (EvThrow c e0)) c (FU f' :: rest))).
    { intros e0 f' H1 H2 H3. eapply (k_fu s _ c x f f' rest [EvThrow c e0] HK Hc Hfs); try reflexivity; auto.
      - repeat constructor.
      - cbn. rewrite Hob, H1. reflexivity.
      - intros e He. apply H2 in He. destruct He as [He| ->]; [left; exact He|right; left; reflexivity].
      - apply (vi_noob _ _ [_]); [reflexivity|exact V].
      - cbn [app]. rewrite always_cons. split; [apply kr_dull; [reflexivity|exact Haf]|exact (k_rule _ HK)]. }
    assert (Hsw : forall src b d k, nth_error (s_vars s) src = Some (VLive b (Some d)) -> k = SwJump \/ (exists g, k = SwOntop g) ->
              kgood n (switch (put_frames (put_var s src (VLive b None)) c (FRes :: FU f :: rest)) t c d k)).
    { intros src b d k Hv Hk. apply switch_k.
      - eapply (k_push (put_var s src (VLive b None)) c x); eauto.
        assert (G : K (put_var s src (VLive b None))) by (apply (k_same s); auto; eapply vi_set; eauto).
        rewrite <- Hfs. rewrite put_frames_same; auto.
      - rewrite put_frames_tr. cbn [put_var s_tr]. intros Hcalm.
        destruct (resume_ok s src b d k HI Ht Hv Hk Hcalm) as [Ne (A & B & C)]. unfold sw_ok. rewrite put_frames_tr.
        rewrite (top_put _ c x) by auto. change (top (put_var s src (VLive b None)) d) with (top s d). split; [exact A|]. split; [|exact C].
        intros Nk y. rewrite (put_frames_rec _ _ _ x) by exact Hc. cbn [put_var s_rec]. rewrite nth_upd_ne by auto. exact (B Nk y). }
    unfold user_step. destruct (uf_mode f) eqn:Hm.
    - destruct o as [heap| |a l r|src heap|dst src|va vb|v| |src|src g| |v|e| | | |]; try exact I.
      + eapply new_fib_k; eauto.
      + intros _. eapply (k_fu s _ c x f _ rest [EvCtor (OnCtx c) (OUsr (s_nusr s))] HK Hc Hfs); try reflexivity; auto.
        * repeat constructor.
        * cbn. rewrite Nat.eqb_refl, Hob. reflexivity.
        * cbn. apply vi_usr. exact V.
        * cbn [app]. rewrite always_cons. split; [eapply kr_ctor_usr; eauto|exact (k_rule _ HK)].
      + destruct r; [eapply do_create_k; eauto| |eapply do_create_k; eauto].
        intros _. apply Hthr; [reflexivity| |].
        * intros e He. unfold uexn, set_mode in *. cbn [uf_mode uf_caught] in He. rewrite Hm. apply in_app_or in He. destruct He as [[<-|[]]|He]; auto.
        * cbn. rewrite Hm. lia.
      + destruct (get_var s src) as [[b h]|] eqn:Hv; [|exact I]. apply get_var_some in Hv. eapply new_fib_k; eauto. cbn. eapply vi_set; eauto.
      + destruct (get_var s dst) as [[bd hd]|] eqn:Hd; [|exact I]. destruct (get_var s src) as [[bs hs]|] eqn:Hs; [|exact I].
        apply get_var_some in Hd. apply get_var_some in Hs.
        destruct (Nat.eqb_spec dst src) as [E|N]; [intros _; exact HK|].
        set (s1 := put_var (put_var s src (VLive bs None)) dst (VLive bd hs)).
        assert (G : K s1).
        { apply (k_same s); auto. cbn. eapply vi_set; [rewrite nth_upd_ne by auto; exact Hd|]. eapply vi_set; eauto. }
        eapply (drop_k n s1 t c x); eauto.
        * rewrite <- Hfs. rewrite put_frames_same; auto.
        * intros d ->. destruct (var_fact n s t c dst bd d HI Ht Hd) as (A & _ & B). auto.
      + destruct (get_var s va) as [[ba ha]|] eqn:Ha; [|exact I]. destruct (get_var s vb) as [[bb hb]|] eqn:Hb; [|exact I].
        apply get_var_some in Ha. apply get_var_some in Hb. intros _. apply (k_same s); auto. cbn.
        destruct (Nat.eq_dec va vb) as [->|N].
        * assert (E : (ba, ha) = (bb, hb)) by congruence. injection E as -> ->. eapply vi_set; [|eapply vi_set; eauto].
          eapply nth_upd_eq; eauto.
        * eapply vi_set; [rewrite nth_upd_ne by auto; exact Hb|]. eapply vi_set; eauto.
      + destruct (get_var s v) as [[[] h]|] eqn:Hv; try exact I. apply get_var_some in Hv.
        eapply (destroy_k n s t c x); eauto.
        * assert (G : K (dstate s OnHeap (OFib v))).
          { pose proof (proj2 V v) as A. rewrite Hv in A. destruct A as [A1 A2]. specialize (A1 eq_refl).
            eapply (k_step s _ c x x [EvDtor OnHeap (OFib v)] HK Hc); try reflexivity.
            - cbn. symmetry. apply upd_same. exact Hc.
            - intros e _ (t' & f0 & [E|Hi]); [discriminate|]. exists t', f0; exact Hi.
            - apply (kloc_ext [_]); [reflexivity|apply unwound_nosw; reflexivity|]. exact (k_loc _ HK c x Hc).
            - cbn. eapply vi_dtor; eauto.
            - cbn [app]. rewrite always_cons. split; [|exact (k_rule _ HK)]. split; [exact (conj A1 A2)|]. split; [apply res_ok; auto|exact I]. }
          rewrite <- Hfs. rewrite put_frames_same; auto.
        * intros w b d E Hw. destruct (var_fact n s t c w b d HI Ht Hw) as (A & _ & B). auto.
      + destruct (uf_objs f) as [|o0 l0] eqn:Ho; [exact I|]. eapply local_destroy; eauto.
      + destruct (get_var s src) as [[b [d|]]|] eqn:Hv; try exact I. apply get_var_some in Hv. eapply Hsw; eauto.
      + destruct (get_var s src) as [[b [d|]]|] eqn:Hv; try exact I. apply get_var_some in Hv. eapply Hsw; eauto.
      + intros _. eapply (k_push s c x); eauto.
      + assert (Hs : forall w, forced_caught f = false -> kgood n (match get_var s w with
              | Some (b, h) => Next (put_frames (put_var s w (VLive b None)) c (FU (set_caught f None (MRet h)) :: rest))
              | None => Invalid end)).
        { intros w Hfc. destruct (get_var s w) as [[b h]|] eqn:Hw; [|exact I]. apply get_var_some in Hw. intros _. apply Hset; try reflexivity.
          - cbn. eapply vi_set; eauto.
          - intros e []. 
          - cbn. unfold forced_caught in Hfc. rewrite Hm. destruct (uf_caught f) as [[]|]; try discriminate; cbn; lia. }
        assert (Hn : forced_caught f = false -> K (put_frames s c (FU (set_caught f None (MRet None)) :: rest))).
        { intros Hfc. apply Hset; try reflexivity; auto.
          - intros e [].
          - cbn. unfold forced_caught in Hfc. rewrite Hm. destruct (uf_caught f) as [[]|]; try discriminate; cbn; lia. }
        destruct (uf_kind f); try exact I; destruct (forced_caught f) eqn:Hfc; try exact I; destruct v as [v|]; try exact I;
          try (intros _; apply Hn; reflexivity); apply Hs; reflexivity.
      + destruct (forced_caught f) eqn:Hfc; [exact I|]. intros _. apply Hthr; [reflexivity| |].
        * intros e0 He. unfold uexn, set_caught in He. cbn in He. destruct He as [<-|[]]. auto.
        * cbn. unfold forced_caught in Hfc. rewrite Hm. destruct (uf_caught f) as [[]|]; try discriminate; cbn; lia.
      + destruct (uf_caught f) as [[]|] eqn:Hca; try exact I. intros _. apply Hset; try reflexivity; auto.
        * intros e0 [].
        * cbn. rewrite Hm, Hca. cbn. lia.
      + destruct (uf_caught f) as [e0|] eqn:Hca; try exact I. intros _. apply Hset; try reflexivity; auto.
        * intros e1 He. unfold uexn in *. cbn in He. rewrite Hm, Hca. cbn. exact He.
        * cbn. rewrite Hm, Hca. lia.
    - destruct o; try exact I.
      + destruct (uf_caught f) eqn:Hca; try exact I. intros _. apply Hset; try reflexivity; auto.
        * intros e1 He. unfold uexn in *. cbn in He. rewrite Hm, Hca. cbn. exact He.
        * cbn. rewrite Hm, Hca. lia.
      + destruct (forced_caught f) eqn:Hfc; try exact I. intros _. apply Hset; try reflexivity; auto.
        * intros e1 He. unfold uexn in *. cbn in He. rewrite Hm. apply in_or_app. left. exact He.
        * cbn. unfold forced_caught in Hfc. rewrite Hm. destruct (uf_caught f) as [[]|]; try discriminate; cbn; lia.
    - exact I.
    - exact I.
  Qed.
End Ctx.

Theorem step_k n s t l : SInv n s -> K s -> kgood n (step s t l).
Proof.
  intros HI HK. unfold step. destruct (nth_error (s_thr s) t) as [c|] eqn:Ht; [|exact I].
  destruct (nth_error (s_rec s) c) as [x|] eqn:Hc; [|exact I]. destruct l as [|o].
  - apply tau_k; auto.
  - destruct (r_frames x) as [|[f| | |e| | | | | | |] rest] eqn:Hfs; try exact I. eapply user_k; eauto.
Qed.

Lemma init_k n : K (init n).
Proof.
  constructor.
  - intros c x H. assert (x = main_rec) as ->.
    { cbn in H. apply nth_error_In in H. apply in_map_iff in H. destruct H as (k & E & _). auto. }
    constructor.
    + reflexivity.
    + cbn. constructor; [intros ? []|constructor].
    + intros (t & f & []).
    + discriminate.
  - reflexivity.
  - split; [intros p o []|]. intros v. cbn. destruct v; cbn; auto.
  - apply always_nil.
  - exact I.
Qed.

Lemma run_k n l : forall s, SInv n s -> K s -> forall s', run s l = Next s' -> calm (s_tr s') -> SInv n s' /\ K s'.
Proof.
  induction l as [|[t a] l IH]; intros s HI HK s'; cbn [run].
  - injection 1 as <-. auto.
  - pose proof (step_good n s t a HI) as G. pose proof (step_k n s t a HI HK) as GK.
    destruct (step s t a) as [s1| | | | |]; try discriminate. intros Hr Hcalm.
    pose proof (run_ext l s1) as E. rewrite Hr in E. cbn in E, G, GK.
    assert (Hc1 : calm (s_tr s1)) by (eapply grows_calm; eauto).
    apply (IH s1); auto.
Qed.
Lemma calm_k n l s : run (init n) l = Next s -> calm (s_tr s) -> SInv n s /\ K s.
Proof. intros H. eapply run_k; eauto using init_inv, init_k. Qed.
