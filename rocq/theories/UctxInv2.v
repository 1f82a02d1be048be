(** The switch preserves the invariant of the ucontext machine. *)
From Coq Require Import List Arith Bool Lia.
From Verif Require Import ListUtil Uctx UctxSpec UctxInv.
Import ListNotations.

(** history of a switch of thread t to context d *)
Record sw_ext (n t d : nat) (tr tr' : list event) : Prop := mk_sw {
  sw_incl : incl tr tr';
  sw_ent : forall e, e <> d -> (entered tr' e <-> entered tr e);
  sw_freed : forall e, freed tr' e <-> freed tr e;
  sw_unw : forall e, e <> d -> (unwound tr' e <-> unwound tr e);
  sw_done : forall e, done tr' e <-> done tr e;
  sw_run : running tr' t = d /\ forall t', t' <> t -> running tr' t' = running tr t';
  sw_hd : no_switch tr';
  sw_rule : always (rule n) tr' }.

Lemma inv_runs_false n s fl ol e : Inv n s fl ol -> 0 < cnt e s + wh e fl ->
  exists y, nth_error (s_rec s) e = Some y /\ r_alive y = true /\ runs s e = false.
Proof. intros I H. destruct (i_cnt _ _ _ _ I e) as [A _]. apply rest_pos. lia. Qed.

Lemma inv_running n s fl ol t c x : Inv n s fl ol -> nth_error (s_thr s) t = Some c -> nth_error (s_rec s) c = Some x ->
  r_alive x = true /\ r_term x = false /\ wfs (r_main x) (r_frames x) /\ top_ok active (r_frames x) /\ runs s c = true.
Proof.
  intros I Ht Hc. pose proof (i_runs _ _ _ _ I t c Ht) as A. unfold alive in A. rewrite Hc in A.
  pose proof (i_shape _ _ _ _ I c x Hc) as B. assert (R : runs s c = true) by (apply runs_nth; eauto).
  unfold shape in B. rewrite A, R in B. destruct (r_term x); [destruct B as (_ & _ & B & _); discriminate|].
  tauto.
Qed.

Lemma inv_switch n s s' t c d x y x' y' fl ol :
  Inv n s fl ol ->
  nth_error (s_rec s) c = Some x -> nth_error (s_thr s) t = Some c ->
  nth_error (s_rec s) d = Some y -> c <> d ->
  s_rec s' = upd (upd (s_rec s) c x') d y' -> s_thr s' = upd (s_thr s) t d ->
  r_main x' = r_main x -> r_alive x' = r_alive x -> r_alloc x' = r_alloc x -> r_caps x' = r_caps x ->
  r_main y' = r_main y -> r_alive y' = r_alive y -> r_alloc y' = r_alloc y -> r_caps y' = r_caps y ->
  r_term y' = false -> r_term y = false ->
  sw_ext n t d (s_tr s) (s_tr s') ->
  (forall e, wfs_ e (r_frames x') + wfs_ e (r_frames y') + sumf (wvar e) (s_vars s') + b2n (Nat.eqb e d)
           = wfs_ e (r_frames x) + wfs_ e (r_frames y) + sumf (wvar e) (s_vars s) + wh e fl + b2n (Nat.eqb e c)) ->
  (forall e, e <> c -> wvs_ e (r_frames x') + wvs_ e (r_frames y') + sumf (wvar e) (s_vars s')
          <= wvs_ e (r_frames x) + wvs_ e (r_frames y) + sumf (wvar e) (s_vars s)) ->
  (hd_error (r_frames x') = Some FRes \/ cv c s' = 0) ->
  (forall e, e <> c -> e <> d -> wpds e (r_frames x') + wpds e (r_frames y') = wpds e (r_frames x) + wpds e (r_frames y)) ->
  wtks (r_frames y') + wpds d (r_frames x) + wpds d (r_frames y) = wtks (r_frames y) + wpds d (r_frames x') + wpds d (r_frames y') ->
  (if r_term x' then pend c s' = 0
   else is_fin (hd_error (r_frames x)) = false /\
        wtks (r_frames x') + wpds c (r_frames x) + wpds c (r_frames y) = wtks (r_frames x) + wpds c (r_frames x') + wpds c (r_frames y')) ->
  pend c s' <= pend c s ->
  (forall v, wofs v (r_frames x') + wofs v (r_frames y') + auto_live (nth_error (s_vars s) v)
           = wofs v (r_frames x) + wofs v (r_frames y) + auto_live (nth_error (s_vars s') v)) ->
  (forall f, In f (r_frames x') -> is_fin (Some f) = false /\ (In f (r_frames x) \/ frame_ok s' c f \/ (frame_ok s c f /\ wfr c f = 0))) ->
  (forall f, In f (r_frames y') -> is_fin (Some f) = false /\ (In f (r_frames y) \/ frame_ok s' d f \/ (frame_ok s d f /\ wfr c f = 0))) ->
  (In FRun (r_frames x') -> In FRun (r_frames x)) ->
  (In FRun (r_frames y') -> entered (s_tr s') d) ->
  (hd_error (r_frames y) = Some FStart -> entered (s_tr s') d) ->
  (r_term x' = false -> unwound (s_tr s) c -> hd_error (r_frames x') <> Some FRes) ->
  hd_error (r_frames x') <> Some FStart ->
  (0 < pend d s' \/ r_force y' = true -> unwound (s_tr s') d) ->
  (r_force x' = true -> r_force x = true) ->
  (done (s_tr s) c <-> r_term x' = true) ->
  shape false x' -> shape true y' ->
  Inv n s' None ol.
Proof.
  intros I Hc Ht Hd Hne Hrec Hthr M1 A1 L1 K1 M2 A2 L2 K2 T2 T2' SW Hcnt0 Hcv0 Hcvc Hpd Htkd Htkc Hpc Hown Hfx Hfy
    HRx HRy HSy Hux HSx Hud Hfc Hdc Hshx Hshy.
  pose proof (nth_some_lt _ _ _ Hc) as Hlc. pose proof (nth_some_lt _ _ _ Hd) as Hld.
  assert (Hd1 : nth_error (upd (s_rec s) c x') d = Some y) by (rewrite nth_upd_ne; auto).
  assert (Hnth : forall e, nth_error (s_rec s') e =
            if Nat.eqb e d then Some y' else if Nat.eqb e c then Some x' else nth_error (s_rec s) e).
  { intros e. rewrite Hrec. destruct (Nat.eqb_spec e d) as [->|E1].
    - eapply nth_upd_eq; eauto.
    - rewrite nth_upd_ne by auto. destruct (Nat.eqb_spec e c) as [->|E2].
      + eapply nth_upd_eq; eauto.
      + rewrite nth_upd_ne; auto. }
  assert (Hnd : nth_error (s_rec s') d = Some y') by (rewrite Hnth, Nat.eqb_refl; reflexivity).
  assert (Hnc : nth_error (s_rec s') c = Some x').
  { rewrite Hnth. destruct (Nat.eqb_spec c d); [congruence|]. now rewrite Nat.eqb_refl. }
  assert (Hno : forall e, e <> c -> e <> d -> nth_error (s_rec s') e = nth_error (s_rec s) e).
  { intros e H1 H2. rewrite Hnth. destruct (Nat.eqb_spec e d); [congruence|]. destruct (Nat.eqb_spec e c); [congruence|reflexivity]. }
  assert (Hcase : forall e z, nth_error (s_rec s') e = Some z ->
            (e = d /\ z = y') \/ (e = c /\ z = x') \/ (e <> c /\ e <> d /\ nth_error (s_rec s) e = Some z)).
  { intros e z. rewrite Hnth. destruct (Nat.eqb_spec e d); [intros E; injection E as <-; auto|].
    destruct (Nat.eqb_spec e c); [intros E; injection E as <-; auto|auto]. }
  assert (Hsum : forall f : rcd -> nat, sumf f (s_rec s') + f x + f y = sumf f (s_rec s) + f x' + f y').
  { intros f. rewrite Hrec. pose proof (sumf_upd f _ c x' x Hc). pose proof (sumf_upd f _ d y' y Hd1). lia. }
  destruct (inv_running _ _ _ _ _ _ _ I Ht Hc) as (Hal & Htf & Hwfx & Htopx & Hrc).
  destruct I as [I1 I2 I3 I4 I5 I6 I7 I8 I9 I10 I11 I12 I13 I14 I15 I16 I17 I18 I19].
  assert (Hcs0 : cnt c s + wh c fl = 0).
  { destruct (I1 c) as [A _]. rewrite (rest_run s t c Ht) in A. lia. }
  assert (Hcnt' : forall e, cnt e s' + b2n (Nat.eqb e d) = cnt e s + wh e fl + b2n (Nat.eqb e c)).
  { intros e. unfold cnt. pose proof (Hsum (wrec e)) as E. unfold wrec in E at 2 3 5 6. specialize (Hcnt0 e). lia. }
  assert (Hds : cnt d s + wh d fl = 1 /\ cnt d s' = 0).
  { pose proof (Hcnt' d) as E. rewrite Nat.eqb_refl in E. destruct (Nat.eqb_spec d c); [congruence|]. cbn in E.
    destruct (I1 d) as [A _]. pose proof (rest_le s d). lia. }
  destruct Hds as [Hds1 Hds0].
  assert (Hrd : r_alive y = true /\ runs s d = false).
  { destruct (I1 d) as [A _]. destruct (rest_pos s d ltac:(lia)) as (y0 & B1 & B2 & B3). rewrite Hd in B1. injection B1 as <-. auto. }
  destruct Hrd as [Hald Hrd].
  assert (Hlt : t < length (s_thr s)) by (eapply nth_some_lt; eauto).
  assert (Hthn : forall t', nth_error (s_thr s') t' = if Nat.eqb t t' then Some d else nth_error (s_thr s) t').
  { intros t'. rewrite Hthr, nth_upd. destruct (Nat.eqb_spec t t') as [<-|]; [|reflexivity].
    apply Nat.ltb_lt in Hlt. now rewrite Hlt. }
  assert (Hrun' : forall e, runs s' e = if Nat.eqb e d then true else if Nat.eqb e c then false else runs s e).
  { intros e. destruct (Nat.eqb_spec e d) as [->|E1].
    - apply runs_nth. exists t. rewrite Hthn, Nat.eqb_refl. reflexivity.
    - destruct (Nat.eqb_spec e c) as [->|E2].
      + apply runs_false. intros t' H. rewrite Hthn in H. destruct (Nat.eqb_spec t t') as [Eq|Et]; [congruence|].
        apply Et. exact (I7 t t' c Ht H).
      + destruct (runs s e) eqn:Er.
        * apply runs_nth in Er. destruct Er as [t' Er]. apply runs_nth. exists t'. rewrite Hthn.
          destruct (Nat.eqb_spec t t') as [Eq|]; [congruence|exact Er].
        * apply runs_false. intros t2 H. rewrite Hthn in H. destruct (Nat.eqb_spec t t2) as [Eq|Et]; [congruence|]. rewrite runs_false in Er.
          exact (Er t2 H). }
  assert (Hmain : forall e, is_main s' e = is_main s e).
  { intros e. unfold is_main. rewrite Hnth. destruct (Nat.eqb_spec e d) as [->|]; [now rewrite Hd|].
    destruct (Nat.eqb_spec e c) as [->|]; [now rewrite Hc|reflexivity]. }
  assert (Haliv : forall e, alive s' e = alive s e).
  { intros e. unfold alive. rewrite Hnth. destruct (Nat.eqb_spec e d) as [->|]; [now rewrite Hd|].
    destruct (Nat.eqb_spec e c) as [->|]; [now rewrite Hc|reflexivity]. }
  assert (Hterm : forall e, e <> c -> term s' e = term s e).
  { intros e He. unfold term. rewrite Hnth. destruct (Nat.eqb_spec e d) as [->|]; [rewrite Hd; congruence|].
    destruct (Nat.eqb_spec e c) as [->|]; [congruence|reflexivity]. }
  assert (Hrest : forall e, rest_ s' e + b2n (Nat.eqb e d) = rest_ s e + b2n (Nat.eqb e c)).
  { intros e. unfold rest_. rewrite Hnth. fold (runs s' e). fold (runs s e). rewrite Hrun'.
    destruct (Nat.eqb_spec e d) as [->|E1].
    - rewrite Hd, Hald, A2, Hald, Hrd. destruct (Nat.eqb_spec d c); [congruence|]. reflexivity.
    - destruct (Nat.eqb_spec e c) as [->|E2].
      + rewrite Hc, A1, Hal, Hrc. reflexivity.
      + cbn. lia. }
  assert (Hpend : forall e, pend e s' + wpds e (r_frames x) + wpds e (r_frames y) = pend e s + wpds e (r_frames x') + wpds e (r_frames y')).
  { intros e. exact (Hsum (wprec e)). }
  assert (Hpne : forall e, e <> c -> e <> d -> pend e s' = pend e s).
  { intros e H1 H2. specialize (Hpend e). specialize (Hpd e H1 H2). lia. }
  assert (Htop : forall e, e <> c -> e <> d -> top s' e = top s e).
  { intros e H1 H2. unfold top. now rewrite Hno. }
  assert (Hpt : forall e z f, nth_error (s_rec s') e = Some z -> In f (r_frames z) -> f = FDt c -> 0 < pend c s').
  { intros e z f H1 H2 ->. unfold pend. pose proof (sumf_le (wprec c) _ _ _ H1) as A. unfold wprec in A at 1.
    apply In_nth_error in H2. destruct H2 as [k H2]. pose proof (sumf_le (wpd c) _ _ _ H2) as B.
    cbn in B. rewrite Nat.eqb_refl in B. unfold wpds in A. cbn in B. lia. }
  (* frames that were there before *)
  assert (Hold0 : forall e z f, nth_error (s_rec s') e = Some z -> In f (r_frames z) ->
            frame_ok s e f -> wfr c f = 0 ->
            (is_fin (Some f) = true -> e <> c /\ e <> d) -> frame_ok s' e f).
  { intros e z f Hz Hin Hz0 Hin0 Hfin. eapply frame_ok_ext; [| | | |exact Hz0].
    - intros b Hb. apply Htop; intros ->.
      + lia.
      + pose proof (frame_cnt d s' e z f Hz Hin). lia.
    - intros F. destruct (Hfin F). apply Hpne; auto.
    - intros b Hb. rewrite Hmain, Haliv. split; [|auto].
      destruct (Nat.eq_dec b c) as [->|Hbc]; [|apply Hterm; exact Hbc].
      destruct Hb as [Hb|Hb]; [lia|].
      pose proof (Hpt e z f Hz Hin Hb) as Hpp. unfold term. rewrite Hnc, Hc, Htf.
      destruct (r_term x'); [lia|reflexivity].
    - exact (sw_incl _ _ _ _ _ SW). }
  assert (Hold : forall e z z0 f, nth_error (s_rec s') e = Some z -> In f (r_frames z) ->
            nth_error (s_rec s) e = Some z0 -> In f (r_frames z0) ->
            (is_fin (Some f) = true -> e <> c /\ e <> d) -> frame_ok s' e f).
  { intros e z z0 f Hz Hin Hz0 Hin0 Hfin. eapply Hold0; eauto.
    pose proof (frame_cnt c s e z0 f Hz0 Hin0). lia. }
  constructor.
  - intros e. rewrite Hmain. cbn [wh]. specialize (Hcnt' e). specialize (Hrest e). destruct (I1 e) as [B1 B2].
    split; [lia|]. intros Hm. specialize (B2 Hm). lia.
  - intros e He. cbn [wh] in He. destruct (Nat.eq_dec e c) as [->|Hec].
    + unfold idle, top. rewrite Hnc. destruct Hcvc as [H|H]; [auto|lia].
    + destruct (Nat.eq_dec e d) as [->|Hed]; [pose proof (cv_le d s'); lia|].
      unfold idle. rewrite !Htop by auto. apply I2. unfold cv in *.
      pose proof (Hsum (wvrec e)) as E. unfold wvrec in E at 2 3 5 6. specialize (Hcv0 e Hec). lia.
  - intros e z f Hz Hin. destruct (Hcase e z Hz) as [[-> ->]|[[-> ->]|(H1 & H2 & H3)]].
    + destruct (Hfy f Hin) as [F [H|[H|[H H']]]]; [|exact H|eapply Hold0; eauto; congruence]. eapply Hold; eauto. congruence.
    + destruct (Hfx f Hin) as [F [H|[H|[H H']]]]; [|exact H|eapply Hold0; eauto; congruence]. eapply Hold; eauto. congruence.
    + eapply Hold; eauto.
  - intros e z Hz. destruct (Hcase e z Hz) as [[-> ->]|[[-> ->]|(H1 & H2 & H3)]].
    + rewrite T2. destruct (is_fin (hd_error (r_frames y'))); [exact Logic.I|].
      pose proof (I4 d y Hd) as E. rewrite T2' in E.
      assert (Fy : is_fin (hd_error (r_frames y)) = false).
      { pose proof (I9 d y Hd) as S9. unfold shape in S9. rewrite Hald, T2', Hrd in S9. destruct S9 as (_ & _ & S9).
        destruct (r_frames y) as [|[] r]; cbn in *; try discriminate; auto. }
      rewrite Fy in E. pose proof (Hpend d). lia.
    + destruct (r_term x') eqn:Tx; [exact Htkc|]. destruct (is_fin (hd_error (r_frames x'))); [exact Logic.I|].
      destruct Htkc as [Fx E2]. pose proof (I4 c x Hc) as E. rewrite Htf, Fx in E. pose proof (Hpend c). lia.
    + rewrite Hpne by auto. exact (I4 e z H3).
  - intros v. unfold own in *. pose proof (Hsum (worec v)) as E. unfold worec in E at 2 3 5 6.
    rewrite K1, K2 in E. specialize (Hown v). specialize (I5 v). lia.
  - split; [rewrite Hthr, upd_length; apply I6|]. intros t' c' H'. rewrite Hthn in H'.
    destruct (Nat.eqb_spec t t') as [<-|Et].
    + injection H' as <-. apply (sw_run _ _ _ _ _ SW).
    + rewrite (proj2 (sw_run _ _ _ _ _ SW)) by auto. now apply I6.
  - intros t1 t2 c' H1 H2. rewrite Hthn in H1, H2.
    destruct (Nat.eqb_spec t t1) as [<-|E1], (Nat.eqb_spec t t2) as [<-|E2]; auto.
    + injection H1 as <-. exfalso. rewrite runs_false in Hrd. exact (Hrd t2 H2).
    + injection H2 as <-. exfalso. rewrite runs_false in Hrd. exact (Hrd t1 H1).
    + eauto.
  - intros t' c' H'. rewrite Hthn in H'. rewrite Haliv. destruct (Nat.eqb_spec t t') as [<-|Et]; [|eauto].
    injection H' as <-. unfold alive. rewrite Hd. exact Hald.
  - intros e z Hz. rewrite Hrun'. destruct (Hcase e z Hz) as [[-> ->]|[[-> ->]|(H1 & H2 & H3)]].
    + rewrite Nat.eqb_refl. exact Hshy.
    + destruct (Nat.eqb_spec c d); [congruence|]. rewrite Nat.eqb_refl. exact Hshx.
    + destruct (Nat.eqb_spec e d); [congruence|]. destruct (Nat.eqb_spec e c); [congruence|]. exact (I9 e z H3).
  - intros e z Hz Hu Hzt. destruct (Hcase e z Hz) as [[-> ->]|[[-> ->]|(H1 & H2 & H3)]].
    + unfold shape in Hshy. rewrite T2, A2, Hald in Hshy. destruct Hshy as (_ & _ & Hto).
      destruct (r_frames y') as [|f0 r]; [destruct Hto|]. cbn in *. split; intros E; injection E as ->; discriminate.
    + rewrite (sw_unw _ _ _ _ _ SW) in Hu by auto. auto.
    + rewrite (sw_unw _ _ _ _ _ SW) in Hu by auto. exact (I10 e z H3 Hu Hzt).
  - intros e z Hz Hp. destruct (Hcase e z Hz) as [[-> ->]|[[-> ->]|(H1 & H2 & H3)]].
    + exact (Hud Hp).
    + rewrite (sw_unw _ _ _ _ _ SW) by auto. apply (I11 c x Hc). destruct Hp as [Hp|Hp]; [left; lia|right; auto].
    + rewrite (sw_unw _ _ _ _ _ SW) by auto. apply (I11 e z H3). rewrite Hpne in Hp by auto. exact Hp.
  - intros e z Hz. rewrite (sw_done _ _ _ _ _ SW). destruct (Hcase e z Hz) as [[-> ->]|[[-> ->]|(H1 & H2 & H3)]].
    + rewrite (I12 d y Hd), T2, T2'.
      assert (Fy : is_fin (hd_error (r_frames y)) = false).
      { pose proof (I9 d y Hd) as S9. unfold shape in S9. rewrite Hald, T2', Hrd in S9. destruct S9 as (_ & _ & S9).
        destruct (r_frames y) as [|[] r]; cbn in *; try discriminate; auto. }
      assert (Fy' : is_fin (hd_error (r_frames y')) = false).
      { destruct (r_frames y') as [|f0 r] eqn:Ey; [reflexivity|]. cbn [hd_error]. apply Hfy. now left. }
      rewrite Fy, Fy'. tauto.
    + rewrite Hdc. assert (Fx' : is_fin (hd_error (r_frames x')) = false).
      { destruct (r_frames x') as [|f0 r] eqn:Ey; [reflexivity|]. cbn [hd_error]. apply Hfx. now left. }
      rewrite Fx'. intuition discriminate.
    + exact (I12 e z H3).
  - intros e z Hz.
    assert (Hinc : In (EvFail e) (s_tr s) -> In (EvFail e) (s_tr s')) by (intros; apply (sw_incl _ _ _ _ _ SW); auto).
    destruct (Hcase e z Hz) as [[-> ->]|[[-> ->]|(H1 & H2 & H3)]].
    + split; [|split]; auto.
      * intros E. exfalso. unfold shape in Hshy. rewrite T2, A2, Hald in Hshy. destruct Hshy as (_ & _ & Hto).
        destruct (r_frames y') as [|f0 r]; [destruct Hto|]. cbn in *. injection E as ->. discriminate.
      * rewrite M2. destruct (I13 d y Hd) as (_ & _ & [H|[H|[H|H]]]); auto.
        left. destruct H as [r H]. exists r. apply (sw_incl _ _ _ _ _ SW). exact H.
    + rewrite !(sw_ent _ _ _ _ _ SW) by auto. destruct (I13 c x Hc) as (B1 & B2 & B3). rewrite M1.
      repeat split; try tauto.
      assert (hd_error (r_frames x) <> Some FStart).
      { destruct (r_frames x) as [|f0 r]; [discriminate|]. cbn in *. intros E; injection E as ->; discriminate. }
      tauto.
    + rewrite !(sw_ent _ _ _ _ _ SW) by auto. destruct (I13 e z H3) as (B1 & B2 & B3). repeat split; tauto.
  - intros e z Hz. rewrite (sw_freed _ _ _ _ _ SW). destruct (Hcase e z Hz) as [[-> ->]|[[-> ->]|(H1 & H2 & H3)]].
    + rewrite A2. exact (I14 d y Hd).
    + rewrite A1. exact (I14 c x Hc).
    + exact (I14 e z H3).
  - intros e z a Hz Ha. apply (sw_incl _ _ _ _ _ SW). destruct (Hcase e z Hz) as [[-> ->]|[[-> ->]|(H1 & H2 & H3)]].
    + rewrite L2 in Ha. exact (I15 d y a Hd Ha).
    + rewrite L1 in Ha. exact (I15 c x a Hc Ha).
    + exact (I15 e z a H3 Ha).
  - intros e He. rewrite Hrec, !upd_length in He. rewrite (sw_ent _ _ _ _ _ SW), (sw_freed _ _ _ _ _ SW), (sw_unw _ _ _ _ _ SW), (sw_done _ _ _ _ _ SW) by lia.
    exact (I16 e He).
  - exact (sw_hd _ _ _ _ _ SW).
  - exact (sw_rule _ _ _ _ _ SW).
  - intros e z p Hz Hh. destruct (Hcase e z Hz) as [[-> ->]|[[-> ->]|(H1 & H2 & H3)]].
    + destruct (r_frames y') as [|f0 r] eqn:Ey; [discriminate|]. injection Hh as ->. destruct (Hfy (FFin p) (or_introl eq_refl)) as [F _]. discriminate.
    + destruct (r_frames x') as [|f0 r] eqn:Ey; [discriminate|]. injection Hh as ->. destruct (Hfx (FFin p) (or_introl eq_refl)) as [F _]. discriminate.
    + apply (sw_incl _ _ _ _ _ SW). exact (I19 e z p H3 Hh).
Qed.
