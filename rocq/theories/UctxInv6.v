(** User operations and creation; the invariant holds after every calm history. *)
From Coq Require Import List Arith Bool Lia.
From Verif Require Import ListUtil Uctx UctxSpec UctxInv UctxInv2 UctxInv3 UctxInv4 UctxInv5.
Import ListNotations.

Lemma get_var_some s v b h : get_var s v = Some (b, h) -> nth_error (s_vars s) v = Some (VLive b h).
Proof. unfold get_var. destruct (nth_error (s_vars s) v) as [[|]|]; congruence. Qed.

Definition ids (l : list obj) : list nat := flat_map objl l.

Lemma wids_ids v l : wids v (ids l) = wobs v l.
Proof.
  unfold ids, wobs, wids. induction l as [|o l IH]; cbn [flat_map sumf]; [reflexivity|].
  rewrite sumf_app, IH. destruct o; cbn; lia.
Qed.

Lemma caps_inv n d l : forall s acc s1 caps t c x,
  Inv n s None (ids acc) -> nth_error (s_rec s) c = Some x -> nth_error (s_thr s) t = Some c ->
  is_fin (hd_error (r_frames x)) = false -> d = length (s_rec s) ->
  do_caps s d l acc = Some (s1, caps) ->
  Inv n s1 None (ids caps) /\ s_rec s1 = s_rec s /\ s_thr s1 = s_thr s /\ incl (s_tr s) (s_tr s1).
Proof.
  induction l as [|[v|] l IH]; intros s acc s1 caps t c x I Hc Ht F Hd; cbn [do_caps].
  - injection 1 as <- <-. auto using incl_refl.
  - destruct (get_var s v) as [[b h]|] eqn:Hv; [|discriminate]. apply get_var_some in Hv. intros Hdo.
    apply (IH _ _ _ _ t c x) in Hdo; auto.
    + destruct Hdo as (J1 & J2 & J3 & J4). split; [exact J1|]. split; [exact J2|]. split; [exact J3|]. intros e He. apply J4. right. exact He.
    + eapply (inv_vars n s _ t c x None _ None _ [EvCtor (OnCtx d) (OFib (length (s_vars s)))] I Hc Ht); try reflexivity; auto.
      * intros e [<-|[]]. split; [|discriminate]. cbn. intros e' <-. apply (i_len _ _ _ _ I). lia.
      * intros e. cbn [emit add_var put_var s_vars]. rewrite sumf_app. cbn [sumf wvar wh].
        pose proof (wvar_upd _ _ _ (VLive b None) e Hv) as E. cbn [wvar wh] in E. lia.
      * intros v'. cbn [emit add_var put_var s_vars ids flat_map objl app]. rewrite auto_live_app, upd_length.
        rewrite (auto_live_upd _ _ _ _ None v' Hv). unfold wids. cbn [sumf auto_live]. fold (ids acc).
        destruct (length (s_vars s) =? v'); cbn; lia.
  - intros Hdo. apply (IH _ _ _ _ t c x) in Hdo; auto.
    + destruct Hdo as (J1 & J2 & J3 & J4). split; [exact J1|]. split; [exact J2|]. split; [exact J3|]. intros e He. apply J4. right. exact He.
    + eapply (inv_vars n s _ t c x None _ None _ [EvCtor (OnCtx d) (OUsr (s_nusr s))] I Hc Ht); try reflexivity; auto.
      intros e [<-|[]]. split; [|discriminate]. cbn. intros e' <-. apply (i_len _ _ _ _ I). lia.
Qed.

(** a new record; its handle is on the way *)
Lemma create_inv n s caps a :
  Inv n s None (ids caps) -> In (EvAlloc (length (s_rec s)) a) (s_tr s) ->
  Inv n (mk_s (s_rec s ++ [mk_r [FStart] false None None false false true (Some a) caps]) (s_vars s) (s_thr s) (s_nusr s) (s_tr s))
      (Some (length (s_rec s))) [].
Proof.
  intros I Hev. set (d := length (s_rec s)). set (y := mk_r _ _ _ _ _ _ _ _ _). set (s' := mk_s _ _ _ _ _).
  assert (Hnth : forall e, nth_error (s_rec s') e = if Nat.eqb d e then Some y else nth_error (s_rec s) e).
  { intros e. unfold s'; cbn [s_rec]. destruct (Nat.eqb_spec d e) as [<-|E1]; [apply nth_app_last|].
    destruct (Nat.lt_ge_cases e d).
    - apply nth_error_app1. exact H.
    - rewrite (proj2 (nth_error_None _ _)), (proj2 (nth_error_None _ _)); auto; rewrite ?app_length; cbn; unfold d in *; lia. }
  assert (Hnone : nth_error (s_rec s) d = None) by (apply nth_error_None; unfold d; lia).
  assert (Hno : forall e, e <> d -> nth_error (s_rec s') e = nth_error (s_rec s) e).
  { intros e E. rewrite Hnth. destruct (Nat.eqb_spec d e); [congruence|reflexivity]. }
  assert (Hsum : forall g : rcd -> nat, sumf g (s_rec s') = sumf g (s_rec s) + g y).
  { intros g. unfold s'; cbn [s_rec]. rewrite sumf_app. cbn [sumf]. lia. }
  assert (Hcnt : forall e, cnt e s' = cnt e s) by (intros e; unfold cnt; rewrite Hsum; cbn; lia).
  assert (Hcv : forall e, cv e s' = cv e s) by (intros e; unfold cv; rewrite Hsum; cbn; lia).
  assert (Hpd : forall e, pend e s' = pend e s) by (intros e; unfold pend; rewrite Hsum; cbn; lia).
  assert (Hrun : forall t, nth_error (s_thr s) t <> Some d).
  { intros t E. pose proof (i_runs _ _ _ _ I t d E) as A. unfold alive in A. rewrite Hnone in A. discriminate. }
  assert (Hruns : runs s d = false) by (apply runs_false; exact Hrun).
  assert (Hcd : cnt d s = 0).
  { destruct (i_cnt _ _ _ _ I d) as [A _]. unfold rest_ in A. rewrite Hnone in A. lia. }
  assert (Hfd : forall e z, nth_error (s_rec s) e = Some z -> In (FDt d) (r_frames z) -> False).
  { intros e z H1 H2. pose proof (i_frm _ _ _ _ I e z _ H1 H2) as A. cbn in A. unfold alive in A. rewrite Hnone in A. destruct A as (_ & A & _). discriminate. }
  assert (Hpd0 : pend d s = 0).
  { unfold pend. apply sumf_zero. intros z Hz. apply In_nth_error in Hz. destruct Hz as [e Hz].
    unfold wprec, wpds. apply sumf_zero. intros f Hf. destruct f as [| | |d'| | | | | | |]; try reflexivity. cbn.
    destruct (Nat.eqb_spec d' d) as [->|]; [|reflexivity]. exfalso. exact (Hfd e z Hz Hf). }
  destruct (i_len _ _ _ _ I d ltac:(unfold d; lia)) as (L1 & L2 & L3 & L4).
  destruct I as [I1 I2 I3 I4 I5 I6 I7 I8 I9 I10 I11 I12 I13 I14 I15 I16 I17 I18 I19].
  constructor; change (s_thr s') with (s_thr s); change (s_vars s') with (s_vars s); change (s_tr s') with (s_tr s); auto.
  - intros e. rewrite Hcnt. unfold rest_, is_main. rewrite Hnth. change (s_thr s') with (s_thr s).
    destruct (Nat.eqb_spec d e) as [<-|E].
    + rewrite wh_self, Hcd. unfold runs in Hruns. rewrite Hruns. cbn. auto.
    + rewrite wh_ne by exact E. exact (I1 e).
  - intros e. rewrite Hcv. unfold idle, top. rewrite Hnth. destruct (Nat.eqb_spec d e) as [<-|E]; [auto|].
    rewrite wh_ne by exact E. exact (I2 e).
  - intros e z f Hz Hf. rewrite Hnth in Hz. destruct (Nat.eqb_spec d e) as [<-|E].
    + injection Hz as <-. destruct Hf as [<-|[]]. exact Logic.I.
    + eapply frame_ok_ext; [| | | |exact (I3 e z f Hz Hf)]; auto.
      * intros b Hb. unfold top. rewrite Hno; [reflexivity|]. intros ->. pose proof (frame_cnt d s e z f Hz Hf). lia.
      * intros b Hb. unfold term, alive, is_main. rewrite Hno; [auto|]. intros ->.
        destruct Hb as [Hb|Hb]; [pose proof (frame_cnt d s e z f Hz Hf); lia|]. subst f. exact (Hfd e z Hz Hf).
      * apply incl_refl.
  - intros e z Hz. rewrite Hpd. rewrite Hnth in Hz. destruct (Nat.eqb_spec d e) as [<-|E]; [|exact (I4 e z Hz)].
    injection Hz as <-. cbn. exact Hpd0.
  - intros v. unfold own. rewrite Hsum. specialize (I5 v). rewrite wids_ids in I5. unfold own in I5. unfold worec at 2. cbn. unfold wids; cbn. unfold wobs in *. lia.
  - intros t c H. unfold alive. rewrite Hno; [exact (I8 t c H)|]. intros ->. exact (Hrun t H).
  - intros e z Hz. change (runs s' e) with (runs s e). rewrite Hnth in Hz. destruct (Nat.eqb_spec d e) as [<-|E]; [|exact (I9 e z Hz)].
    injection Hz as <-. rewrite Hruns. unfold shape. cbn. repeat split; auto. discriminate.
  - intros e z Hz Hu Hzt. rewrite Hnth in Hz. destruct (Nat.eqb_spec d e) as [<-|E]; [|exact (I10 e z Hz Hu Hzt)]. contradiction.
  - intros e z Hz. rewrite Hpd. rewrite Hnth in Hz. destruct (Nat.eqb_spec d e) as [<-|E]; [|exact (I11 e z Hz)].
    injection Hz as <-. cbn. intros [H|H]; [lia|discriminate].
  - intros e z Hz. rewrite Hnth in Hz. destruct (Nat.eqb_spec d e) as [<-|E]; [|exact (I12 e z Hz)].
    injection Hz as <-. cbn. split; [intros H; contradiction|intros [H|H]; discriminate].
  - intros e z Hz. rewrite Hnth in Hz. destruct (Nat.eqb_spec d e) as [<-|E]; [|exact (I13 e z Hz)].
    injection Hz as <-. cbn. split; [auto|]. split; [intros [H|[]]; discriminate|auto].
  - intros e z Hz. rewrite Hnth in Hz. destruct (Nat.eqb_spec d e) as [<-|E]; [|exact (I14 e z Hz)].
    injection Hz as <-. cbn. split; [intros H; contradiction|discriminate].
  - intros e z b Hz Hb. rewrite Hnth in Hz. destruct (Nat.eqb_spec d e) as [<-|E]; [|exact (I15 e z b Hz Hb)].
    injection Hz as <-. cbn in Hb. injection Hb as <-. exact Hev.
  - intros e He. apply I16. unfold s' in He. cbn [s_rec] in He. rewrite app_length in He. cbn in He. lia.
  - intros e z p Hz Hp. rewrite Hnth in Hz. destruct (Nat.eqb_spec d e) as [<-|E]; [|exact (I19 e z p Hz Hp)].
    injection Hz as <-. discriminate.
Qed.

Section User.
  Variables (n : nat) (t c : nat) (f : uframe) (rest : list frame).
  Hypothesis Hm : uf_mode f = MRun.

  (** construct a fiber that takes over the handle on the way *)
  Lemma new_fib_good s x heap h :
    Inv n s h [] -> nth_error (s_rec s) c = Some x -> nth_error (s_thr s) t = Some c -> r_frames x = FU f :: rest ->
    good0 n (new_fib s c f rest heap h).
  Proof.
    intros I Hc Ht Hfs. unfold new_fib. cbv zeta.
    destruct (inv_running _ _ _ _ _ _ _ I Ht Hc) as (Hal & Htf & Hwf & Htop & Hrc). rewrite Hfs in Hwf.
    assert (Hok : forall l, fok (set_objs f l)) by (intros l; unfold fok; cbn; rewrite Hm; exact Logic.I).
    destruct heap; cbn [good0]; intros _.
    - eapply (inv_pf0 n s _ t c x _ h [] None [] [EvCtor OnHeap (OFib (length (s_vars s)))] I Hc Ht); try reflexivity; rewrite ?Hfs; auto.
      + intros e [<-|[]]. split; cbn; [tauto|discriminate].
      + counts. lia.
      + counts. left. lia.
      + counts. destruct (length (s_vars s) =? v); cbn; lia.
    - eapply (inv_pf0 n s _ t c x _ h [] None [] [EvCtor (OnCtx c) (OFib (length (s_vars s)))] I Hc Ht); try reflexivity; rewrite ?Hfs; auto.
      + intros e [<-|[]]. apply (here_calls _ _ _ _ _ _ _ _ I Hc Ht). split; cbn; [auto|discriminate].
      + counts. lia.
      + counts. left. lia.
      + counts. destruct (length (s_vars s) =? v); cbn; lia.
      + intros g [<-|H]; [right|left; right; exact H].
        exact (i_frm _ _ _ _ I c x (FU f) Hc ltac:(rewrite Hfs; left; reflexivity)).
      + intros [H|H]; [discriminate|right; exact H].
  Qed.

  Lemma do_create_good s x a l ok :
    SInv n s -> nth_error (s_rec s) c = Some x -> nth_error (s_thr s) t = Some c -> r_frames x = FU f :: rest ->
    good0 n (do_create s c f rest a l ok).
  Proof.
    intros I Hc Ht Hfs. unfold do_create. cbv zeta. set (d := length (s_rec s)).
    assert (F : is_fin (hd_error (r_frames x)) = false) by (rewrite Hfs; reflexivity).
    destruct (do_caps (emit s (EvAlloc d a)) d l []) as [[s1 caps]|] eqn:Hd; [|exact Logic.I].
    assert (I0 : Inv n (emit s (EvAlloc d a)) None (ids [])).
    { eapply (inv_vars n s _ t c x None [] None _ [EvAlloc d a] I Hc Ht); try reflexivity; auto.
      intros e [<-|[]]. split; cbn; [tauto|discriminate]. }
    apply (caps_inv n d l _ _ _ _ t c x I0) in Hd; auto.
    destruct Hd as (I1 & Hrec & Hthr & Hinc). cbn [emit s_rec s_thr s_tr] in Hrec, Hthr, Hinc.
    pose proof (create_inv n s1 caps a I1 ltac:(rewrite Hrec; apply Hinc; left; reflexivity)) as I2.
    rewrite Hrec in I2. fold d in I2. rewrite Hrec.
    set (y := mk_r _ _ _ _ _ _ _ _ _) in *. set (s2 := mk_s _ _ _ _ _) in *.
    assert (Hc2 : nth_error (s_rec s2) c = Some x).
    { unfold s2. cbn [s_rec]. rewrite nth_error_app1; [exact Hc|]. eapply nth_some_lt; eauto. }
    assert (Ht2 : nth_error (s_thr s2) t = Some c) by (unfold s2; cbn [s_thr]; rewrite Hthr; exact Ht).
    destruct ok.
    - eapply new_fib_good; eauto.
    - cbn [good0]. intros _.
      assert (I3 : Inv n (emit s2 (EvFail d)) (Some d) []).
      { eapply (inv_vars n s2 _ t c x (Some d) [] (Some d) [] [EvFail d] I2 Hc2 Ht2); try reflexivity; auto.
        intros e [<-|[]]. split; cbn; [tauto|discriminate]. }
      destruct (inv_running _ _ _ _ _ _ _ I2 Ht2 Hc2) as (Hal & Htf & Hwf & Htop & Hrc). rewrite Hfs in Hwf.
      assert (Hd2 : nth_error (s_rec s2) d = Some y) by (unfold s2, d; apply nth_app_last).
      eapply (inv_pf0 n (emit s2 (EvFail d)) _ t c x _ (Some d) [] None [] [] I3 Hc2 Ht2); try reflexivity; rewrite ?Hfs; auto.
      + intros e [].
      + counts. lia.
      + counts. left. lia.
      + intros g [<-|H]; [right|left; exact H]. cbn [frame_ok]. unfold is_main, top. cbn [emit s_rec s_tr]. rewrite Hd2. cbn. auto.
      + intros [H|H]; [discriminate|exact H].
      + rewrite wfs_cons. split; [exact Hm|exact Hwf].
  Qed.

  Lemma jump_good s x src b d k :
    SInv n s -> nth_error (s_rec s) c = Some x -> nth_error (s_thr s) t = Some c -> r_frames x = FU f :: rest ->
    nth_error (s_vars s) src = Some (VLive b (Some d)) -> k <> SwUnwind -> k <> SwExit ->
    good0 n (switch (put_frames (put_var s src (VLive b None)) c (FRes :: FU f :: rest)) t c d k).
  Proof.
    intros I Hc Ht Hfs Hv Hk Hk2. set (s1 := put_var s src (VLive b None)).
    assert (I1 : Inv n s1 (Some d) []).
    { eapply (inv_vars n s _ t c x None [] (Some d) [] [] I Hc Ht); try reflexivity; auto.
      - intros e [].
      - rewrite Hfs; reflexivity.
      - intros e. unfold s1. cbn [put_var s_vars]. pose proof (wvar_upd _ _ _ (VLive b None) e Hv) as E. cbn [wvar wh] in *. lia.
      - intros v. unfold s1. cbn [put_var s_vars]. rewrite (auto_live_upd _ _ _ _ None v Hv). reflexivity. }
    assert (Hc1 : nth_error (s_rec s1) c = Some x) by exact Hc.
    destruct (inv_running _ _ _ _ _ _ _ I Ht Hc) as (Hal & Htf & Hwf & Htop & Hrc). rewrite Hfs in Hwf.
    rewrite (put_frames_eq _ _ _ _ Hc1).
    eapply (idle_good n s1 t c d x (set_frames x (FRes :: FU f :: rest)) (Some d) k I1 Hc1 Ht); auto.
    - rewrite wh_self. lia.
    - constructor; cbn [set_frames r_main r_alive r_alloc r_caps r_force r_frames r_term hd_error]; auto; rewrite ?Hfs; try reflexivity.
      + intros e. unfold wfs_. cbn [sumf wfr wh]. rewrite (Nat.eqb_sym d e). lia.
      + intros g [<-|H]; [split; auto|]. split; [|auto]. exact (wfs_nofin _ _ _ Hwf eq_refl g H).
      + rewrite Htf. split; [reflexivity|]. reflexivity.
      + unfold shape. cbn [set_frames r_main r_alive r_alloc r_frames r_term]. rewrite Hal, Htf.
        split; [exact (proj1 (i_shape _ _ _ _ I c x Hc))|]. split; [|reflexivity]. rewrite wfs_cons. split; [exact Hm|exact Hwf].
    - congruence.
    - apply (i_idle _ _ _ _ I1). rewrite wh_self. lia.
  Qed.
End User.

Lemma user_good n s t c x f rest o :
  SInv n s -> nth_error (s_rec s) c = Some x -> nth_error (s_thr s) t = Some c -> r_frames x = FU f :: rest ->
  good n s (user_step s t c f rest o).
Proof.
  intros I Hc Ht Hfs. unfold user_step.
  pose proof (l_wf n s t c x f rest I Hc Ht Hfs) as Hwf.
  pose proof (l_ok n s c x f rest I Hc Hfs) as Hok.
  assert (F : is_fin (hd_error (r_frames x)) = false) by (rewrite Hfs; reflexivity).
  assert (Hset : forall f' s1 new, s_rec s1 = s_rec s -> s_thr s1 = s_thr s -> s_vars s1 = s_vars s -> s_tr s1 = new ++ s_tr s ->
      forallb plain new = true -> (forall e, In e new -> here c e) ->
      uf_kind f' = uf_kind f -> uf_objs f' = uf_objs f -> fok f' ->
      (forall e, wfr e (FU f') = wfr e (FU f)) -> (forall e, wvr e (FU f') = wvr e (FU f)) -> wtk (FU f') = wtk (FU f) ->
      frame_ok s c (FU f') -> SInv n (put_frames s1 c (FU f' :: rest))).
  { intros f' s1 new R1 R2 R3 R4 P1 P2 H1 H2 H3 H4 H5 H6 H7.
    eapply (set_uf_good n s t c x f rest I Hc Ht Hfs s1 f' new); auto; rewrite R3.
    - intros e. rewrite H4. reflexivity.
    - intros e. rewrite H5. lia.
    - intros v. rewrite H2. reflexivity. }
  assert (Hcaught : forced_caught f = false -> (forall e, wox e (uf_caught f) = 0) /\ match uf_caught f with Some x => tx x | None => 0 end = 0).
  { unfold forced_caught. destruct (uf_caught f) as [[]|]; cbn; try congruence; auto. }
  assert (Hnil : forall e : event, In e [] -> here c e) by (intros e []).
  destruct (uf_mode f) as [|e|r|e] eqn:Hm; try exact Logic.I.
  - assert (Hdt : dtor_ok (r_frames x)) by (rewrite Hfs; cbn; rewrite Hm; exact Logic.I).
    cbn [frame_ok] in Hok. rewrite Hm in Hok. destruct Hok as [_ Hoc].
    destruct o as [heap| |a l r|src heap|dst src|va vb|v| |src|src g| |v|e| | | |].
    + apply good0_good. eapply (new_fib_good n t c f rest Hm s x); eauto.
    + apply good0_good. cbn [good0]. intros _. eapply (set_uf_good n s t c x f rest I Hc Ht Hfs _ _ [EvCtor (OnCtx c) (OUsr (s_nusr s))]); try reflexivity; auto.
      * intros e [<-|[]]. split; cbn; [auto|discriminate].
      * unfold fok. cbn. rewrite Hm. exact Logic.I.
      * cbn [frame_ok set_objs uf_mode uf_caught]. rewrite Hm. auto.
    + apply good0_good. destruct r.
      * eapply do_create_good; eauto.
      * cbn [good0]. intros _. apply (Hset _ _ [EvThrow c 0]); try reflexivity.
        -- intros e [<-|[]]. split; cbn; congruence.
        -- intros e. cbn. rewrite Hm. reflexivity.
        -- intros e. cbn. rewrite Hm. reflexivity.
        -- cbn. rewrite Hm. reflexivity.
        -- cbn [frame_ok set_mode uf_mode uf_caught]. split; [exact Logic.I|exact Hoc].
      * eapply do_create_good; eauto.
    + apply good0_good. destruct (get_var s src) as [[b h]|] eqn:Hv; [|exact Logic.I]. apply get_var_some in Hv.
      eapply (new_fib_good n t c f rest Hm _ x); eauto.
      eapply (inv_vars n s _ t c x None [] h [] [] I Hc Ht); try reflexivity; auto.
      * intros e [].
      * intros e. cbn [put_var s_vars]. pose proof (wvar_upd _ _ _ (VLive b None) e Hv) as E. cbn [wvar wh] in *. lia.
      * intros v. cbn [put_var s_vars]. rewrite (auto_live_upd _ _ _ _ None v Hv). reflexivity.
    + apply good0_good. destruct (get_var s dst) as [[bd hd]|] eqn:Hvd; [|exact Logic.I].
      destruct (get_var s src) as [[bs hs]|] eqn:Hvs; [|exact Logic.I]. apply get_var_some in Hvd, Hvs.
      destruct (Nat.eqb_spec dst src) as [->|Hne]; [cbn; intros _; exact I|].
      assert (Hvd1 : nth_error (upd (s_vars s) src (VLive bs None)) dst = Some (VLive bd hd)) by (rewrite nth_upd_ne; auto).
      rewrite <- Hfs. apply drop_good; auto.
      eapply (inv_vars n s _ t c x None [] hd [] [] I Hc Ht); try reflexivity; auto.
      * intros e [].
      * intros e. cbn [put_var s_vars]. pose proof (wvar_upd _ _ _ (VLive bs None) e Hvs) as E1. pose proof (wvar_upd _ _ _ (VLive bd hs) e Hvd1) as E2.
        cbn [wvar wh] in *. lia.
      * intros v. cbn [put_var s_vars]. rewrite (auto_live_upd _ _ _ _ hs v Hvd1), (auto_live_upd _ _ _ _ None v Hvs). reflexivity.
    + apply good0_good. destruct (get_var s va) as [[ba ha]|] eqn:Hva; [|exact Logic.I].
      destruct (get_var s vb) as [[bb hb]|] eqn:Hvb; [|exact Logic.I]. apply get_var_some in Hva, Hvb. cbn [good0]. intros _.
      assert (Hvb1 : exists h', nth_error (upd (s_vars s) va (VLive ba hb)) vb = Some (VLive bb h')
                  /\ forall k, wh k h' = wh k hb).
      { destruct (Nat.eqb_spec va vb) as [->|Hne].
        - rewrite Hva in Hvb. injection Hvb as <- <-. exists ha. split; [eapply nth_upd_eq; eauto|reflexivity].
        - exists hb. split; [rewrite nth_upd_ne; auto|reflexivity]. }
      destruct Hvb1 as [h' [Hvb1 Hh']].
      eapply (inv_vars n s _ t c x None [] None [] [] I Hc Ht); try reflexivity; auto.
      * intros e [].
      * intros e. cbn [put_var s_vars]. pose proof (wvar_upd _ _ _ (VLive ba hb) e Hva) as E1.
        pose proof (wvar_upd _ _ _ (VLive bb (if va =? vb then hb else ha)) e Hvb1) as E2. specialize (Hh' e).
        cbn [wvar] in *. destruct (Nat.eqb_spec va vb) as [->|].
        -- rewrite Hva in Hvb. injection Hvb as <- <-. lia.
        -- lia.
      * intros v. cbn [put_var s_vars]. rewrite (auto_live_upd _ _ _ _ _ v Hvb1), (auto_live_upd _ _ _ _ _ v Hva). reflexivity.
    + apply good0_good. destruct (get_var s v) as [[b h]|] eqn:Hv; [|exact Logic.I]. apply get_var_some in Hv.
      destruct b; [|exact Logic.I]. rewrite <- Hfs.
      apply (destroy_good n s t c x OnHeap (OFib v) []); auto.
      * discriminate. * right. eauto.
    + apply good0_good. destruct (uf_objs f) as [|o l] eqn:Ho; [exact Logic.I|]. eapply pop_obj_good; eauto. congruence.
    + destruct (get_var s src) as [[b h]|] eqn:Hv; [|exact Logic.I]. apply get_var_some in Hv.
      destruct h as [d|]; [|cbn; auto]. apply good0_good. eapply jump_good; eauto; discriminate.
    + destruct (get_var s src) as [[b h]|] eqn:Hv; [|exact Logic.I]. apply get_var_some in Hv.
      destruct h as [d|]; [|cbn; auto]. apply good0_good. eapply jump_good; eauto; discriminate.
    + apply good0_good. cbn [good0]. intros _.
      eapply (inv_pf0 n s s t c x _ None [] None [] [] I Hc Ht); try reflexivity; rewrite ?Hfs; auto.
      * intros e [].
      * intros g [<-|H]; [right; cbn; auto|left; exact H].
      * intros [H|H]; [discriminate|exact H].
      * rewrite wfs_cons. split; [|exact Hwf]. cbn. split; [exact Logic.I|exact Hm].
    + apply good0_good. assert (Hnone : (match uf_kind f with KMain => False | _ => True end) -> forced_caught f = false ->
               SInv n (put_frames s c (FU (set_caught f None (MRet None)) :: rest))).
      { intros Hk Hfc. destruct (Hcaught Hfc) as [C1 C2]. apply (Hset _ s []); try reflexivity; auto.
        - unfold fok; cbn. split; [reflexivity|]. destruct (uf_kind f); auto.
        - intros k. cbn. rewrite Hm, C1. reflexivity.
        - intros k. cbn. rewrite Hm. reflexivity.
        - cbn. rewrite Hm. rewrite C2. reflexivity.
        - cbn. auto. }
      assert (Hsome : forall w, match uf_kind f with KMain | KPlain | KDtor _ => False | _ => True end -> forced_caught f = false ->
               good0 n (match get_var s w with
                     | Some (b, h) => Next (put_frames (put_var s w (VLive b None)) c (FU (set_caught f None (MRet h)) :: rest))
                     | None => Invalid end)).
      { intros w Hk Hfc. destruct (Hcaught Hfc) as [C1 C2]. destruct (get_var s w) as [[b h]|] eqn:Hv; [|exact Logic.I]. apply get_var_some in Hv. cbn [good0]. intros _.
        eapply (set_uf_good n s t c x f rest I Hc Ht Hfs _ _ []); try reflexivity; auto.
        - unfold fok; cbn. split; [reflexivity|]. destruct (uf_kind f); auto; tauto.
        - intros k. cbn [s_vars put_var wfr set_caught uf_mode uf_caught wox]. rewrite Hm, C1.
          pose proof (wvar_upd _ _ _ (VLive b None) k Hv) as E. cbn [wvar wh] in E. lia.
        - intros k. cbn [s_vars put_var wvr set_caught uf_mode uf_caught wox]. rewrite Hm.
          pose proof (wvar_upd _ _ _ (VLive b None) k Hv) as E. cbn [wvar wh] in E. lia.
        - cbn. rewrite Hm, C2. reflexivity.
        - intros v'. cbn [s_vars put_var set_caught uf_objs]. rewrite (auto_live_upd _ _ _ _ None v' Hv). reflexivity.
        - cbn. auto. }
      destruct (uf_kind f) eqn:Hk; try exact Logic.I; destruct (forced_caught f) eqn:Hfc; try exact Logic.I;
        destruct v as [v|]; try exact Logic.I; cbn [good0]; first [intros _; apply Hnone; [exact Logic.I|reflexivity] | apply Hsome; [exact Logic.I|reflexivity]].
    + apply good0_good. destruct (forced_caught f) eqn:Hfc; [exact Logic.I|]. destruct (Hcaught eq_refl) as [C1 C2]. cbn [good0]. intros _.
      apply (Hset _ _ [EvThrow c e]); try reflexivity; auto.
      * intros h [<-|[]]. split; cbn; congruence.
      * intros k. cbn. rewrite Hm, C1. reflexivity.
      * intros k. cbn. rewrite Hm. reflexivity.
      * cbn. rewrite Hm, C2. reflexivity.
      * cbn. auto.
    + apply good0_good. exact Logic.I.
    + apply good0_good. exact Logic.I.
    + apply good0_good. destruct (uf_caught f) as [[e|h]|] eqn:Hca; try exact Logic.I. cbn [good0]. intros _. apply (Hset _ s []); try reflexivity; auto.
      * intros k. cbn. rewrite Hm, Hca. reflexivity.
      * intros k. cbn. rewrite Hm. reflexivity.
      * cbn. rewrite Hm, Hca. reflexivity.
      * cbn. auto.
    + apply good0_good. destruct (uf_caught f) as [e|] eqn:Hca; try exact Logic.I. cbn [good0]. intros _. apply (Hset _ s []); try reflexivity; auto.
      * intros k. cbn [wfr set_caught uf_mode uf_caught wox]. rewrite Hm, Hca. cbn. lia.
      * intros k. cbn. rewrite Hm. reflexivity.
      * cbn. rewrite Hm, Hca. cbn. lia.
      * cbn [frame_ok set_caught uf_mode uf_caught]. auto.
  - cbn [frame_ok] in Hok. rewrite Hm in Hok. destruct Hok as [Hoe Hoc].
    destruct o; try exact Logic.I; apply good0_good.
    + destruct (uf_caught f) as [y|] eqn:Hca; [exact Logic.I|]. cbn [good0]. intros _. apply (Hset _ s []); try reflexivity; auto.
      * intros k. cbn [wfr set_caught uf_mode uf_caught wox]. rewrite Hm, Hca. cbn. lia.
      * intros k. cbn. rewrite Hm. reflexivity.
      * cbn. rewrite Hm, Hca. cbn. lia.
      * cbn [frame_ok set_caught uf_mode uf_caught]. auto.
    + destruct (forced_caught f) eqn:Hfc; [exact Logic.I|]. destruct (Hcaught eq_refl) as [C1 C2]. cbn [good0]. intros _. apply (Hset _ s []); try reflexivity; auto.
      * intros k. cbn [wfr set_caught uf_mode uf_caught wox]. rewrite Hm, C1. cbn. lia.
      * intros k. cbn. rewrite Hm. reflexivity.
      * cbn. rewrite Hm, C2. cbn. lia.
      * cbn [frame_ok set_caught uf_mode uf_caught]. auto.
Qed.

Theorem step_good n s t l : SInv n s -> good n s (step s t l).
Proof.
  intros I. unfold step. destruct (nth_error (s_thr s) t) as [c|] eqn:Ht; [|exact Logic.I].
  pose proof (i_runs _ _ _ _ I t c Ht) as A. unfold alive in A.
  destruct (nth_error (s_rec s) c) as [x|] eqn:Hc; [|discriminate].
  destruct l as [|o].
  - apply tau_good; auto.
  - destruct (r_frames x) as [|[f| | | | | | | | | |] rest] eqn:Hfs; try exact Logic.I.
    eapply user_good; eauto.
Qed.
