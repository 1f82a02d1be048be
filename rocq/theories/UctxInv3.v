(** Every switch of the ucontext machine preserves the invariant. *)
From Coq Require Import List Arith Bool Lia.
From Verif Require Import ListUtil Uctx UctxSpec UctxInv UctxInv2.
Import ListNotations.

Lemma upd_upd {A} (l : list A) n x y : upd (upd l n x) n y = upd l n y.
Proof. revert n; induction l as [|z l IH]; intros [|n]; cbn; auto. now rewrite IH. Qed.
Lemma upd_same {A} (l : list A) n x : nth_error l n = Some x -> upd l n x = l.
Proof. revert n; induction l as [|z l IH]; intros [|n] H; cbn in *; try discriminate; f_equal; auto; congruence. Qed.

Definition enters_only (d : nat) (e : event) : Prop :=
  match e with EvEnter c _ => c = d | _ => plain e = true end.

Lemma sw_intro n t c d k tr ev more :
  forallb plain more = true -> enters_only d ev ->
  (forall e, In e more -> calls n (ev :: EvSwitch t c d k :: tr) e) ->
  t < n -> running tr t = c -> (forall t', t' < n -> running tr t' <> d) ->
  ~ freed tr c -> ~ freed tr d -> no_switch tr -> always (rule n) tr ->
  (k = SwExit -> In (EvDone c (Some d)) tr) ->
  rule n ev (EvSwitch t c d k :: tr) ->
  sw_ext n t d tr (more ++ ev :: EvSwitch t c d k :: tr).
Proof.
  intros Hp Hev Hcalls Htn Hrun Hnot Hfc Hfd Hns Hal Hex Hrule.
  assert (Hns2 : no_switch (ev :: EvSwitch t c d k :: tr)).
  { unfold no_switch. cbn. destruct ev; auto. cbn in Hev. discriminate. }
  constructor.
  - intros e He. apply in_or_app. right. right. right. exact He.
  - intros e He. rewrite entered_plain, !entered_cons by exact Hp. split.
    + intros [[r ->]|[[r E]|H]]; [cbn in Hev; congruence|discriminate|exact H].
    + auto.
  - intros e. rewrite freed_plain, !freed_cons by exact Hp. split.
    + intros [[a [o ->]]|[[a [o E]]|H]]; [discriminate|discriminate|exact H].
    + auto.
  - intros e He. rewrite unwound_plain, !unwound_cons by exact Hp. split.
    + intros [[a [o ->]]|[[a [o E]]|H]]; [discriminate|congruence|exact H].
    + auto.
  - intros e. rewrite done_plain, !done_cons by exact Hp. split.
    + intros [[a ->]|[[a E]|H]]; [discriminate|discriminate|exact H].
    + auto.
  - assert (Hr : forall t', running (ev :: EvSwitch t c d k :: tr) t' = if Nat.eqb t t' then d else running tr t').
    { intros t'. cbn [running]. destruct ev; auto. discriminate. }
    split.
    + rewrite running_plain, Hr, Nat.eqb_refl by exact Hp. reflexivity.
    + intros t' Ht'. rewrite running_plain, Hr by exact Hp. destruct (Nat.eqb_spec t t'); [congruence|reflexivity].
  - apply no_switch_plain; auto.
  - apply always_plain; auto. rewrite !always_cons. split; [exact Hrule|]. split; [|exact Hal].
    unfold rule. repeat split.
    + intros e He. cbn. intros [<-|<-]; contradiction.
    + exact Htn.
    + exact Hrun.
    + exact Hnot.
    + cbn. intros e E. discriminate.
    + unfold next_rule0. unfold no_switch in Hns. destruct (hd_error tr) as [[]|]; try exact Logic.I; contradiction.
    + cbn. destruct k; auto.
Qed.

(** facts about the two contexts of a switch *)
Lemma target_facts n s fl ol d : Inv n s fl ol -> 0 < cnt d s + wh d fl ->
  exists y, nth_error (s_rec s) d = Some y /\ r_alive y = true /\ runs s d = false /\
    ~ freed (s_tr s) d /\ (forall t', t' < n -> running (s_tr s) t' <> d) /\
    (r_term y = true -> done (s_tr s) d) /\
    (r_term y = false -> wfs (r_main y) (r_frames y) /\ top_ok waiting (r_frames y)).
Proof.
  intros I H. destruct (inv_runs_false _ _ _ _ _ I H) as (y & Hy & Ha & Hr). exists y.
  do 3 (split; [assumption|]). split; [|split; [|split]].
  - rewrite (i_freed _ _ _ _ I d y Hy). congruence.
  - intros t' Ht'. destruct (i_thr _ _ _ _ I) as [Hl Hth]. rewrite <- Hl in Ht'.
    destruct (nth_error (s_thr s) t') as [c'|] eqn:E; [|apply nth_error_None in E; lia].
    rewrite (Hth t' c' E). intros ->. rewrite runs_false in Hr. exact (Hr t' E).
  - intros Ht. apply (i_done _ _ _ _ I d y Hy). auto.
  - pose proof (i_shape _ _ _ _ I d y Hy) as S9. unfold shape in S9. rewrite Ha, Hr in S9.
    intros Ht. rewrite Ht in S9. tauto.
Qed.

Lemma source_facts n s fl ol t c x : Inv n s fl ol -> nth_error (s_thr s) t = Some c -> nth_error (s_rec s) c = Some x ->
  t < n /\ running (s_tr s) t = c /\ ~ freed (s_tr s) c /\ cnt c s + wh c fl = 0.
Proof.
  intros I Ht Hc. destruct (i_thr _ _ _ _ I) as [Hl Hth]. split; [|split; [|split]].
  - rewrite <- Hl. eapply nth_some_lt; eauto.
  - auto.
  - rewrite (i_freed _ _ _ _ I c x Hc). destruct (inv_running _ _ _ _ _ _ _ I Ht Hc) as [A _]. congruence.
  - destruct (i_cnt _ _ _ _ I c) as [A _]. rewrite (rest_run s t c Ht) in A. lia.
Qed.

Lemma auto_live_app l x v :
  auto_live (nth_error (l ++ [x]) v) =
  auto_live (nth_error l v) + (if Nat.eqb (length l) v then auto_live (Some x) else 0).
Proof.
  destruct (Nat.eqb_spec (length l) v) as [<-|E].
  - rewrite nth_app_last. replace (nth_error l (length l)) with (@None var); [reflexivity|].
    symmetry. apply nth_error_None. lia.
  - destruct (Nat.lt_ge_cases v (length l)).
    + rewrite nth_error_app1 by auto. lia.
    + replace (nth_error (l ++ [x]) v) with (@None var).
      2:{ symmetry; apply nth_error_None. rewrite app_length; cbn; lia. }
      replace (nth_error l v) with (@None var); [reflexivity|]. symmetry; apply nth_error_None; lia.
Qed.

(** unfold all counts on explicit frame lists *)
Ltac counts :=
  intros; unfold wfs_, wvs_, wpds, wtks, wofs, wobs, wids;
  repeat (rewrite ?sumf_app, ?auto_live_app; cbn [sumf wfr wvr wpd wtk wof wobs wvar wh wx wox tx wob uf_mode uf_objs uf_caught uf_kind
       set_mode set_objs set_caught auto_live s_vars emit add_var put_var r_frames set_frames set_from set_ontop set_force set_done set_caps set_dead]); unfold wobs in *.

Lemma put_frames_rec s c fs x : nth_error (s_rec s) c = Some x -> s_rec (put_frames s c fs) = upd (s_rec s) c (set_frames x fs).
Proof. intros H. unfold put_frames. rewrite H. reflexivity. Qed.
Lemma put_frames_thr s c fs : s_thr (put_frames s c fs) = s_thr s.
Proof. unfold put_frames. destruct (nth_error (s_rec s) c); reflexivity. Qed.
Lemma put_frames_vars s c fs : s_vars (put_frames s c fs) = s_vars s.
Proof. unfold put_frames. destruct (nth_error (s_rec s) c); reflexivity. Qed.
Lemma put_frames_tr s c fs : s_tr (put_frames s c fs) = s_tr s.
Proof. unfold put_frames. destruct (nth_error (s_rec s) c); reflexivity. Qed.
Lemma put_frames_nusr s c fs : s_nusr (put_frames s c fs) = s_nusr s.
Proof. unfold put_frames. destruct (nth_error (s_rec s) c); reflexivity. Qed.
Lemma put_frames_nth s c fs x : nth_error (s_rec s) c = Some x ->
  nth_error (s_rec (put_frames s c fs)) c = Some (set_frames x fs).
Proof. intros H. rewrite (put_frames_rec _ _ _ x H). eapply nth_upd_eq; eauto. Qed.

Lemma wfs_cons main f g r : wfs main (f :: g :: r) <-> below f g /\ wfs main (g :: r).
Proof. reflexivity. Qed.
Lemma wfs_fok main f r : wfs main (FU f :: r) -> fok f.
Proof. destruct r; cbn; tauto. Qed.
Lemma wfs_set_fu main f f' r :
  uf_kind f' = uf_kind f -> fok f' -> wfs main (FU f :: r) -> wfs main (FU f' :: r).
Proof. intros Hk Hf. destruct r as [|g r]; cbn [wfs bottom below]; rewrite Hk; tauto. Qed.

Lemma wfs_nofin m l : forall h, wfs m (h :: l) -> is_fin (Some h) = false -> forall f, In f (h :: l) -> is_fin (Some f) = false.
Proof.
  induction l as [|a l IH]; intros h Hw Hf f [E|E]; try (subst f; exact Hf).
  - destruct E.
  - rewrite wfs_cons in Hw. destruct Hw as [Hb Hw]. apply (IH a Hw); [|exact E].
    destruct a; try reflexivity. destruct h as [u| | | | | | | | | |dd [|]]; cbn in Hb; try contradiction.
    destruct Hb as [_ Hb]. destruct (uf_kind u); cbn in Hb; try contradiction; discriminate.
Qed.

(** what every step must satisfy *)
Definition good (n : nat) (s : state) (o : outcome) : Prop :=
  match o with
  | Next s' => calm (s_tr s') -> SInv n s'
  | UB tr => ~ calm tr
  | AssertFail tr => calm tr -> tr = s_tr s
  | _ => True
  end.

Lemma calm_switch new t c d k tr : calm (new ++ EvSwitch t c d k :: tr) -> calm_ev (EvSwitch t c d k) tr.
Proof. intros H. apply always_app in H. apply always_cons in H. apply H. Qed.

(** the switching side of resume, resume_with and of the end of a context *)
Record src (s : state) (c d : nat) (x x' : rcd) (fl : option nat) : Prop := mk_src {
  sr_main : r_main x' = r_main x; sr_alive : r_alive x' = r_alive x; sr_alloc : r_alloc x' = r_alloc x; sr_caps : r_caps x' = r_caps x;
  sr_force : r_force x' = true -> r_force x = true;
  sr_wfs : forall e, wfs_ e (r_frames x') + b2n (Nat.eqb e d) = wfs_ e (r_frames x) + wh e fl;
  sr_wvs : forall e, wvs_ e (r_frames x') = wvs_ e (r_frames x);
  sr_wpd : forall e, wpds e (r_frames x') = wpds e (r_frames x);
  sr_wof : forall v, wofs v (r_frames x') = wofs v (r_frames x);
  sr_hd : hd_error (r_frames x') = Some FRes;
  sr_fr : forall f, In f (r_frames x') -> is_fin (Some f) = false /\ (In f (r_frames x) \/ f = FRes \/ f = FRunEnd);
  sr_term : if r_term x' then is_fin (hd_error (r_frames x)) = true /\ pend c s = 0
            else is_fin (hd_error (r_frames x)) = false /\ wtks (r_frames x') = wtks (r_frames x);
  sr_shape : shape false x' }.

Definition good0 (n : nat) (o : outcome) : Prop :=
  match o with
  | Next s' => calm (s_tr s') -> SInv n s'
  | UB tr | AssertFail tr => ~ calm tr
  | _ => True
  end.

Section Switch.
  Variables (n : nat) (s : state) (t c d : nat) (x x' : rcd) (y : rcd) (fl : option nat) (k : swk).
  Hypothesis I : Inv n s fl [].
  Hypothesis Hc : nth_error (s_rec s) c = Some x.
  Hypothesis Ht : nth_error (s_thr s) t = Some c.
  Hypothesis Hd : nth_error (s_rec s) d = Some y.
  Hypothesis Hpos : 0 < cnt d s + wh d fl.
  Hypothesis Hty : r_term y = false.

  Lemma sw_ne : c <> d.
  Proof. intros ->. destruct (source_facts _ _ _ _ _ _ _ I Ht Hc) as (_ & _ & _ & A). lia. Qed.

  (** the state in which the target continues *)
  Definition sw_state (y' : rcd) (vs : list var) (tr : list event) : state :=
    mk_s (upd (upd (s_rec s) c x') d y') vs (upd (s_thr s) t d) (s_nusr s) tr.

  Lemma sw_calls ev o : ev = EvCtor (OnCtx d) o \/ actor ev = Some d /\ executes ev d /\ (forall e, executes ev e -> e = d) ->
    forall tr, ~ freed tr d -> running tr t = d -> calls n tr ev.
  Proof.
    intros H tr Hf Hr. destruct (source_facts _ _ _ _ _ _ _ I Ht Hc) as (A & _). destruct H as [->|(H1 & H2 & H3)]; split.
    - cbn. intros e <-. exact Hf.
    - cbn. discriminate.
    - intros e He. rewrite (H3 e He). exact Hf.
    - intros e He. rewrite H1 in He. injection He as <-. eauto.
  Qed.

  Lemma sw_ext1 ev more :
    forallb plain more = true -> (forall e, In e more -> exists o, e = EvCtor (OnCtx d) o) ->
    enters_only d ev -> rule n ev (EvSwitch t c d k :: s_tr s) ->
    (k = SwExit -> In (EvDone c (Some d)) (s_tr s)) ->
    sw_ext n t d (s_tr s) (more ++ ev :: EvSwitch t c d k :: s_tr s).
  Proof.
    intros H1 H2 H3 H4 H5.
    destruct (source_facts _ _ _ _ _ _ _ I Ht Hc) as (A1 & A2 & A3 & A4).
    destruct (target_facts _ _ _ _ _ I Hpos) as (y0 & B1 & B2 & B3 & B4 & B5 & B6 & B7).
    apply sw_intro; auto.
    - intros e He. destruct (H2 e He) as [o ->]. apply (sw_calls _ o).
      + left; reflexivity.
      + rewrite !freed_cons. intros [[a [b ->]]|[[a [b E]]|H]]; [discriminate|discriminate|contradiction].
      + cbn [running]. rewrite Nat.eqb_refl. destruct ev; auto. discriminate.
    - exact (i_hd _ _ _ _ I).
    - exact (i_tr _ _ _ _ I).
  Qed.

  (** rules for the first event after the switch *)
  Lemma sw_rule1 ev :
    enters_only d ev -> actor ev = Some d -> (forall e, executes ev e -> e = d) ->
    next_rule0 ev (EvSwitch t c d k :: s_tr s) -> life_rule ev (EvSwitch t c d k :: s_tr s) ->
    rule n ev (EvSwitch t c d k :: s_tr s).
  Proof.
    intros H1 H2 H3 H4 H5.
    destruct (source_facts _ _ _ _ _ _ _ I Ht Hc) as (A1 & A2 & A3 & A4).
    destruct (target_facts _ _ _ _ _ I Hpos) as (y0 & B1 & B2 & B3 & B4 & B5 & B6 & B7).
    split; [|split; [|split]]; auto.
    - split.
      + intros e He Hx. rewrite (H3 e Hx) in He. apply freed_cons in He. destruct He as [[a [b E]]|He]; [discriminate|contradiction].
      + destruct ev; auto. discriminate.
    - split.
      + destruct ev; auto. discriminate.
      + intros e He. rewrite H2 in He. injection He as <-. exists t. cbn. rewrite Nat.eqb_refl. auto.
  Qed.

  Section Idle.
  Hypothesis SR : src s c d x x' fl.
  Hypothesis Hunw : r_term x' = false -> ~ unwound (s_tr s) c.
  Hypothesis Hex : k = SwExit -> In (EvDone c (Some d)) (s_tr s).
  Hypothesis Hk : k <> SwUnwind.
  Hypothesis Hid : idle s d.

  (** the target is in resume()/resume_with() or new *)
  Lemma sw_idle_inv s' y' :
    s_rec s' = upd (upd (s_rec s) c x') d y' -> s_thr s' = upd (s_thr s) t d ->
    r_main y' = r_main y -> r_alive y' = r_alive y -> r_alloc y' = r_alloc y -> r_caps y' = r_caps y ->
    r_term y' = false -> r_force y' = r_force y ->
    sw_ext n t d (s_tr s) (s_tr s') ->
    (forall e, wfs_ e (r_frames y') + sumf (wvar e) (s_vars s') = wfs_ e (r_frames y) + sumf (wvar e) (s_vars s) + b2n (Nat.eqb e c)) ->
    (forall e, wvs_ e (r_frames y') + sumf (wvar e) (s_vars s') = wvs_ e (r_frames y) + sumf (wvar e) (s_vars s) + b2n (Nat.eqb e c)) ->
    (forall e, wpds e (r_frames y') = wpds e (r_frames y)) ->
    wtks (r_frames y') = wtks (r_frames y) ->
    (forall v, wofs v (r_frames y') + auto_live (nth_error (s_vars s) v) = wofs v (r_frames y) + auto_live (nth_error (s_vars s') v)) ->
    (forall f, In f (r_frames y') -> is_fin (Some f) = false /\ (In f (r_frames y) \/ frame_ok s' d f \/ (frame_ok s d f /\ wfr c f = 0))) ->
    (In FRun (r_frames y') -> entered (s_tr s') d) ->
    (hd_error (r_frames y) = Some FStart -> entered (s_tr s') d) ->
    shape true y' ->
    SInv n s'.
  Proof.
    intros E1 E2 E3 E4 E5 E6 E7 E8 SW D1 D2 D3 D4 D5 D6 D7 D8 D9.
    assert (Hsum : forall f : rcd -> nat, sumf f (s_rec s') + f x + f y = sumf f (s_rec s) + f x' + f y').
    { intros f. rewrite E1. pose proof sw_ne as Hne.
      assert (Hd1 : nth_error (upd (s_rec s) c x') d = Some y) by (rewrite nth_upd_ne; auto).
      pose proof (sumf_upd f _ c x' x Hc). pose proof (sumf_upd f _ d y' y Hd1). lia. }
    assert (Hpend : forall e, pend e s' = pend e s).
    { intros e. pose proof (Hsum (wprec e)) as E. unfold wprec in E at 2 3 5 6. rewrite D3, (sr_wpd _ _ _ _ _ _ SR) in E. unfold pend. lia. }
    assert (Hincl : unwound (s_tr s) d -> unwound (s_tr s') d).
    { intros (a & b & H). exists a, b. apply (sw_incl _ _ _ _ _ SW). exact H. }
    destruct SR as [S1 S2 S3 S4 S5 S6 S7 S8 S9 S10 S11 S12 S13].
    eapply (inv_switch n s s' t c d x y x' y' fl [] I Hc Ht Hd sw_ne E1 E2 S1 S2 S3 S4 E3 E4 E5 E6 E7 Hty SW).
    - intros e. specialize (S6 e). specialize (D1 e). lia.
    - intros e He. rewrite S7. specialize (D2 e). destruct (Nat.eqb_spec e c); [congruence|]. cbn in D2. lia.
    - left. exact S10.
    - intros e _ _. rewrite S8, D3. reflexivity.
    - rewrite D4, S8, D3. lia.
    - destruct (r_term x'); [rewrite Hpend; apply S12|]. destruct S12 as [F W]. split; [exact F|]. rewrite W, S8, D3. lia.
    - rewrite Hpend. lia.
    - intros v. rewrite S9. specialize (D5 v). lia.
    - intros f Hin. destruct (S11 f Hin) as [F [H|[-> | ->]]]; split; auto; right; left; exact Logic.I.
    - exact D6.
    - intros H. destruct (S11 _ H) as [_ [H1|[H1|H1]]]; [exact H1|discriminate|discriminate].
    - exact D7.
    - exact D8.
    - intros Hf Hu. exfalso. exact (Hunw Hf Hu).
    - rewrite S10. discriminate.
    - rewrite Hpend, E8. intros H. apply Hincl. exact (i_unw2 _ _ _ _ I d y Hd H).
    - exact S5.
    - rewrite (i_done _ _ _ _ I c x Hc). destruct (inv_running _ _ _ _ _ _ _ I Ht Hc) as (_ & -> & _).
      destruct (r_term x'); destruct S12 as [-> _]; intuition discriminate.
    - exact S13.
    - exact D9.
  Qed.
  End Idle.
End Switch.

(** the state handed to [switch] *)
Definition with_rec (s : state) (c : nat) (x' : rcd) : state :=
  mk_s (upd (s_rec s) c x') (s_vars s) (s_thr s) (s_nusr s) (s_tr s).

Lemma calm_not_done new t c d k tr : calm (new ++ EvSwitch t c d k :: tr) -> k <> SwUnwind -> ~ done tr d.
Proof. intros H Hk. apply calm_switch in H. destruct k; cbn in H; try tauto; congruence. Qed.
Lemma calm_not_unw new t c d k tr : calm (new ++ EvSwitch t c d k :: tr) -> k <> SwUnwind -> k <> SwExit -> ~ unwound tr c.
Proof. intros H Hk. apply calm_switch in H. destruct k; cbn in H; try tauto; congruence. Qed.

Definition new_target (y : rcd) (c : nat) (k : swk) : rcd :=
  match k with
  | SwOntop g => set_ontop (set_from y (Some c)) (Some g)
  | SwUnwind => set_force (set_from y (Some c)) true
  | _ => set_from y (Some c)
  end.

Lemma switch_eq s t c d k x' y :
  nth_error (s_rec s) d = Some y -> c <> d -> r_alive y = true -> runs s d = false ->
  switch (with_rec s c x') t c d k =
  arrive (mk_s (upd (upd (s_rec s) c x') d (new_target y c k)) (s_vars s) (upd (s_thr s) t d) (s_nusr s) (EvSwitch t c d k :: s_tr s)) d.
Proof.
  intros Hd Hne Ha Hr. unfold switch, with_rec; cbn [s_rec s_thr s_vars s_nusr s_tr].
  rewrite nth_upd_ne by auto. rewrite Hd. unfold runs in Hr. rewrite Ha, Hr. cbn [andb negb]. destruct k; reflexivity.
Qed.

Lemma put_frames_eq s c x fs : nth_error (s_rec s) c = Some x ->
  put_frames s c fs = mk_s (upd (s_rec s) c (set_frames x fs)) (s_vars s) (s_thr s) (s_nusr s) (s_tr s).
Proof. intros H. unfold put_frames. rewrite H. reflexivity. Qed.

Lemma idle_good n s t c d x x' fl k :
  Inv n s fl [] -> nth_error (s_rec s) c = Some x -> nth_error (s_thr s) t = Some c ->
  0 < cnt d s + wh d fl -> src s c d x x' fl -> k <> SwUnwind -> (r_term x' = false -> k <> SwExit) ->
  (k = SwExit -> In (EvDone c (Some d)) (s_tr s)) -> idle s d ->
  good0 n (switch (with_rec s c x') t c d k).
Proof.
  intros I Hc Ht Hpos SR Hk Hkx Hex Hid.
  destruct (target_facts _ _ _ _ _ I Hpos) as (y & Hd & Hya & Hyr & Hyf & Hyt & Hydone & Hywf).
  pose proof (sw_ne n s t c d x fl I Hc Ht Hpos) as Hne.
  rewrite (switch_eq s t c d k x' y Hd Hne Hya Hyr).
  set (y2 := new_target y c k). set (tr1 := EvSwitch t c d k :: s_tr s).
  assert (Hd1 : nth_error (upd (s_rec s) c x') d = Some y) by (rewrite nth_upd_ne; auto).
  assert (Hd2 : nth_error (upd (upd (s_rec s) c x') d y2) d = Some y2) by (eapply nth_upd_eq; eauto).
  assert (F2 : r_frames y2 = r_frames y /\ r_from y2 = Some c /\ r_force y2 = r_force y /\ r_main y2 = r_main y /\
               r_alive y2 = r_alive y /\ r_alloc y2 = r_alloc y /\ r_caps y2 = r_caps y /\ r_term y2 = r_term y).
  { unfold y2. destruct k; cbn; auto 10; congruence. }
  destruct F2 as (F1 & F2 & F3 & F4 & F5 & F6 & F7 & F8).
  unfold arrive; cbn [s_rec]. rewrite Hd2, F1. cbn [s_vars].
  destruct (r_term y) eqn:Hty.
  { (* a finished target is excluded *)
    pose proof (i_shape _ _ _ _ I d y Hd) as S9. unfold shape in S9. rewrite Hya, Hyr, Hty in S9. destruct S9 as (_ & S9 & _).
    rewrite S9. specialize (Hydone eq_refl).
    assert (Hbad : forall new, ~ calm (new ++ tr1)) by (intros new Hcalm; exact (calm_not_done _ _ _ _ _ _ Hcalm Hk Hydone)).
    destruct (r_force y2); cbn [raise_to good0]; [exact Logic.I|].
    destruct (r_ontop y2) as [g|]; cbn [ret_to good0].
    - intros Hcalm. exfalso. revert Hcalm. rewrite put_frames_tr. cbn [s_tr emit add_var put_rec].
      apply (Hbad [_; _]).
    - intros Hcalm. exfalso. revert Hcalm. rewrite put_frames_tr. cbn [s_tr emit add_var put_rec].
      apply (Hbad [_]). }
  destruct (Hywf eq_refl) as [Hwf Hwait].
  assert (Hshape : forall fs, wfs (r_main y) fs -> top_ok active fs -> forall z, shape true (set_frames (set_from y2 z) fs) /\ shape true (set_frames y2 fs)).
  { intros fs H1 H2 z. unfold shape. cbn [set_frames set_from r_main r_alive r_alloc r_term r_frames].
    rewrite F4, F5, F6, F8, Hya. pose proof (i_shape _ _ _ _ I d y Hd) as [S9 _]. auto. }
  unfold idle, top in Hid. rewrite Hd in Hid.
  destruct (r_frames y) as [|f0 rest] eqn:Hfy; [destruct Hid; discriminate|]. cbn [hd_error] in Hid.
  destruct Hid as [E|E]; injection E as ->.
  - (* a new context *)
    destruct rest as [|g0 r0]; [|rewrite wfs_cons in Hwf; destruct Hwf as [[] _]]. cbn in Hwf.
    cbn [good0]. rewrite F2, put_frames_tr. cbn [s_tr emit add_var]. intros Hcalm. fold tr1 in Hcalm.
    rewrite (put_frames_eq _ d y2) by exact Hd2.
    cbn [s_rec s_vars s_thr s_nusr s_tr emit add_var].
    assert (Hnu : r_term x' = false -> ~ unwound (s_tr s) c).
    { intros H. exact (calm_not_unw [_; _] _ _ _ _ _ Hcalm Hk (Hkx H)). }
    assert (SW : sw_ext n t d (s_tr s) ([EvCtor (OnCtx d) (OFib (length (s_vars s)))] ++ EvEnter d (Some c) :: tr1)).
    { eapply (sw_ext1 n s t c d x fl k I Hc Ht Hpos); try reflexivity; auto.
      - cbn. intros e [<-|[]]. eauto.
      - apply (sw_rule1 n s t c d x fl k I Hc Ht Hpos); try reflexivity.
        + cbn. intros e <-. reflexivity.
        + unfold next_rule0. cbn. destruct k; auto 10; congruence.
        + cbn. split; [|eauto 6]. rewrite entered_cons. intros [[r E]|E]; [discriminate|].
          apply (i_ent _ _ _ _ I d y Hd); [rewrite Hfy; reflexivity|exact E]. }
    assert (Hen : entered ([EvCtor (OnCtx d) (OFib (length (s_vars s)))] ++ EvEnter d (Some c) :: tr1) d).
    { exists (Some c). cbn. auto. }
    eapply (sw_idle_inv n s t c d x x' y fl I Hc Ht Hd Hpos Hty SR Hnu).
    + cbn [s_rec]. rewrite upd_upd. reflexivity.
    + reflexivity.
    + exact F4. + exact F5. + exact F6. + exact F7. + cbn. now rewrite F8. + exact F3.
    + exact SW.
    + rewrite Hfy. counts. rewrite (Nat.eqb_sym c e). lia.
    + rewrite Hfy. counts. rewrite (Nat.eqb_sym c e). lia.
    + rewrite Hfy. counts. lia.
    + rewrite Hfy. counts. lia.
    + rewrite Hfy. counts. destruct (length (s_vars s) =? v); cbn; lia.
    + cbn. intros f [<-|[<-|[]]]; split; auto; right; left; cbn; auto.
    + intros _. exact Hen.
    + intros _. exact Hen.
    + refine (proj2 (Hshape _ _ _ None)); [|reflexivity]. cbn. rewrite Hwf. repeat split.
  - (* suspended in resume() or resume_with() *)
    destruct rest as [|g0 r0]; [cbn in Hwf; contradiction|]. rewrite wfs_cons in Hwf. destruct Hwf as [Hb Hwf].
    destruct g0 as [g| | | | | | | | | |]; try contradiction. cbn in Hb.
    assert (Hforce : r_force y = false).
    { destruct (r_force y) eqn:E; [|reflexivity]. exfalso.
      pose proof (i_unw2 _ _ _ _ I d y Hd (or_intror E)) as Hu. destruct (i_unw _ _ _ _ I d y Hd Hu Hty) as [A _].
      apply A. rewrite Hfy. reflexivity. }
    rewrite F3, Hforce, F2.
    assert (Hrun : In FRun r0 -> entered (s_tr s) d).
    { intros H. apply (i_ent _ _ _ _ I d y Hd). rewrite Hfy. right. right. exact H. }
    destruct (r_ontop y2) as [go|] eqn:Hon.
    + (* an injected function *)
      cbn [good0]. rewrite put_frames_tr. cbn [s_tr emit add_var put_rec]. intros Hcalm. fold tr1 in Hcalm.
      set (y3 := set_from y2 None).
      assert (Hd3 : nth_error (upd (upd (upd (s_rec s) c x') d y2) d y3) d = Some y3) by (eapply nth_upd_eq; eauto).
      rewrite (put_frames_eq _ d y3) by exact Hd3.
      cbn [s_rec s_vars s_thr s_nusr s_tr emit add_var put_rec].
      assert (Hnu : r_term x' = false -> ~ unwound (s_tr s) c).
      { intros H. exact (calm_not_unw [_; _] _ _ _ _ _ Hcalm Hk (Hkx H)). }
      assert (SW : sw_ext n t d (s_tr s) ([EvCtor (OnCtx d) (OFib (length (s_vars s)))] ++ EvOntop d go (Some c) :: tr1)).
      { eapply (sw_ext1 n s t c d x fl k I Hc Ht Hpos); try reflexivity; auto.
        - cbn. intros e [<-|[]]. eauto.
        - apply (sw_rule1 n s t c d x fl k I Hc Ht Hpos); try reflexivity.
          + cbn. intros e <-. reflexivity.
          + unfold next_rule0. cbn. destruct k; eauto 10; congruence. }
      eapply (sw_idle_inv n s t c d x x' y fl I Hc Ht Hd Hpos Hty SR Hnu).
      * cbn [s_rec]. rewrite !upd_upd. reflexivity.
      * reflexivity.
      * exact F4. * exact F5. * exact F6. * exact F7. * cbn. now rewrite F8. * exact F3.
      * exact SW.
      * rewrite Hfy. counts. rewrite (Nat.eqb_sym c e). lia.
      * rewrite Hfy. counts. rewrite (Nat.eqb_sym c e). lia.
      * rewrite Hfy. counts. lia.
      * rewrite Hfy. counts. lia.
      * rewrite Hfy. counts. destruct (length (s_vars s) =? v); cbn; lia.
      * rewrite Hfy. cbn [r_frames set_frames]. intros f [<-|[<-|H]]; [split; auto; right; left; cbn; auto..|].
        split; [|left; right; exact H]. exact (wfs_nofin _ _ _ Hwf eq_refl f H).
      * cbn [r_frames set_frames]. intros [H|[H|[H|H]]]; try discriminate.
        destruct (Hrun H) as [r Hr]. exists r. apply (sw_incl _ _ _ _ _ SW). exact Hr.
      * rewrite Hfy. discriminate.
      * refine (proj1 (Hshape _ _ _ None)); [|reflexivity]. cbn [wfs below uf_kind]. repeat split; auto. 
    + (* return *)
      cbn [ret_to good0]. rewrite put_frames_tr. cbn [s_tr emit add_var put_rec s_vars]. intros Hcalm. fold tr1 in Hcalm.
      set (y3 := set_from y2 None).
      assert (Hd3 : nth_error (upd (upd (upd (s_rec s) c x') d y2) d y3) d = Some y3) by (eapply nth_upd_eq; eauto).
      rewrite (put_frames_eq _ d y3) by exact Hd3.
      cbn [s_rec s_vars s_thr s_nusr s_tr emit add_var put_rec].
      assert (Hnu : r_term x' = false -> ~ unwound (s_tr s) c).
      { intros H. exact (calm_not_unw [_; _] _ _ _ _ _ Hcalm Hk (Hkx H)). }
      assert (SW : sw_ext n t d (s_tr s) ([EvCtor (OnCtx d) (OFib (length (s_vars s)))] ++ EvResumed d (Some c) :: tr1)).
      { eapply (sw_ext1 n s t c d x fl k I Hc Ht Hpos); try reflexivity; auto.
        - cbn. intros e [<-|[]]. eauto.
        - apply (sw_rule1 n s t c d x fl k I Hc Ht Hpos); try reflexivity.
          + cbn. intros e <-. reflexivity.
          + unfold next_rule0. cbn. destruct k; eauto 10; congruence. }
      eapply (sw_idle_inv n s t c d x x' y fl I Hc Ht Hd Hpos Hty SR Hnu).
      * cbn [s_rec]. rewrite !upd_upd. reflexivity.
      * reflexivity.
      * exact F4. * exact F5. * exact F6. * exact F7. * cbn. now rewrite F8. * exact F3.
      * exact SW.
      * rewrite Hfy. counts. rewrite Hb, (Nat.eqb_sym c e). lia.
      * rewrite Hfy. counts. rewrite Hb, (Nat.eqb_sym c e). lia.
      * rewrite Hfy. counts. lia.
      * rewrite Hfy. counts. rewrite Hb. lia.
      * rewrite Hfy. counts. destruct (length (s_vars s) =? v); cbn; lia.
      * rewrite Hfy. cbn [r_frames set_frames]. intros f [<-|H].
        -- split; [reflexivity|]. right. right.
           pose proof (i_frm _ _ _ _ I d y (FU g) Hd ltac:(rewrite Hfy; right; left; reflexivity)) as A.
           split; [exact A|]. pose proof (frame_cnt c s d y (FU g) Hd ltac:(rewrite Hfy; right; left; reflexivity)) as B.
           destruct (source_facts _ _ _ _ _ _ _ I Ht Hc) as (_ & _ & _ & B2). change (wfr c (FU (set_objs g (OFib (length (s_vars s)) :: uf_objs g)))) with (wfr c (FU g)). lia.
        -- split; [|left; right; right; exact H]. apply (wfs_nofin _ _ _ Hwf eq_refl f). right. exact H.
      * cbn [r_frames set_frames]. intros [H|H]; try discriminate.
        destruct (Hrun H) as [r Hr]. exists r. apply (sw_incl _ _ _ _ _ SW). exact Hr.
      * rewrite Hfy. discriminate.
      * refine (proj1 (Hshape _ _ _ None)); [|reflexivity]. apply (wfs_set_fu _ g); [reflexivity| |exact Hwf]. unfold fok. cbn. rewrite Hb. exact Logic.I.
Qed.

Definition dtor_ok (fs : list frame) : Prop := match fs with f :: _ => dtor_below f | [] => False end.
Lemma dtor_ok_fin fs : dtor_ok fs -> is_fin (hd_error fs) = false.
Proof. destruct fs as [|[] r]; cbn; tauto. Qed.
Lemma dtor_ok_active fs : dtor_ok fs -> top_ok active fs.
Proof. destruct fs as [|[] r]; cbn; tauto || reflexivity. Qed.
Lemma wfs_dt m d fs : dtor_ok fs -> wfs m fs -> wfs m (FDt d :: fs).
Proof. destruct fs as [|f r]; [intros []|]. intros H1 H2. rewrite wfs_cons. split; [exact H1|exact H2]. Qed.

Lemma unwind_good n s t c d x :
  Inv n s (Some d) [] -> nth_error (s_rec s) c = Some x -> nth_error (s_thr s) t = Some c ->
  dtor_ok (r_frames x) -> is_main s d = false -> term s d = false ->
  good0 n (switch (with_rec s c (set_frames x (FDt d :: r_frames x))) t c d SwUnwind).
Proof.
  intros I Hc Ht Hdt Hdm Hdterm.
  assert (Hpos : 0 < cnt d s + wh d (Some d)) by (rewrite wh_self; lia).
  destruct (target_facts _ _ _ _ _ I Hpos) as (y & Hd & Hya & Hyr & Hyf & Hyt & Hydone & Hywf).
  pose proof (sw_ne n s t c d x _ I Hc Ht Hpos) as Hne.
  assert (Hty : r_term y = false) by (unfold term in Hdterm; rewrite Hd in Hdterm; exact Hdterm).
  set (x' := set_frames x (FDt d :: r_frames x)).
  rewrite (switch_eq s t c d SwUnwind x' y Hd Hne Hya Hyr). cbn [new_target].
  set (y2 := set_force (set_from y (Some c)) true). set (tr1 := EvSwitch t c d SwUnwind :: s_tr s).
  assert (Hd1 : nth_error (upd (s_rec s) c x') d = Some y) by (rewrite nth_upd_ne; auto).
  assert (Hd2 : nth_error (upd (upd (s_rec s) c x') d y2) d = Some y2) by (eapply nth_upd_eq; eauto).
  destruct (Hywf Hty) as [Hwf Hwait].
  assert (Hid : idle s d) by (apply (i_idle _ _ _ _ I); rewrite wh_self; lia).
  destruct (inv_running _ _ _ _ _ _ _ I Ht Hc) as (Hal & Htf & Hwfx & Htopx & Hrc).
  destruct (source_facts _ _ _ _ _ _ _ I Ht Hc) as (A1 & A2 & A3 & A4).
  unfold arrive; cbn [s_rec]. rewrite Hd2. change (r_frames y2) with (r_frames y). cbn [s_vars].
  unfold idle, top in Hid. rewrite Hd in Hid.
  destruct (r_frames y) as [|f0 rest] eqn:Hfy; [destruct Hid; discriminate|]. cbn [hd_error] in Hid.
  destruct Hid as [E|E]; injection E as ->.
  - cbn [good0]. rewrite put_frames_tr. cbn [s_tr emit add_var]. intros Hcalm. exfalso.
    apply (calm_switch [_; _]) in Hcalm. cbn in Hcalm.
    apply (i_ent _ _ _ _ I d y Hd); [rewrite Hfy; reflexivity|exact Hcalm].
  - destruct rest as [|g0 r0]; [cbn in Hwf; contradiction|]. rewrite wfs_cons in Hwf. destruct Hwf as [Hb Hwf].
    destruct g0 as [g| | | | | | | | | |]; try contradiction. cbn in Hb.
    change (r_force y2) with true. cbv iota. change (r_from y2) with (Some c).
    cbn [raise_to good0]. rewrite put_frames_tr. cbn [s_tr emit add_var put_rec]. intros Hcalm. fold tr1 in Hcalm.
    set (y3 := set_from y2 None).
    assert (Hd3 : nth_error (upd (upd (upd (s_rec s) c x') d y2) d y3) d = Some y3) by (eapply nth_upd_eq; eauto).
    rewrite (put_frames_eq _ d y3) by exact Hd3.
    cbn [s_rec s_vars s_thr s_nusr s_tr emit add_var put_rec].
    set (y' := set_frames y3 (FU (set_mode g (MLand (XForced (Some c)))) :: r0)).
    assert (SW : sw_ext n t d (s_tr s) ([] ++ EvRaised d (XForced (Some c)) :: tr1)).
    { eapply (sw_ext1 n s t c d x _ SwUnwind I Hc Ht Hpos); try reflexivity; auto; try discriminate.
      - cbn. intros e [].
      - apply (sw_rule1 n s t c d x _ SwUnwind I Hc Ht Hpos); try reflexivity.
        + cbn. intros e <-. reflexivity. }
    assert (Hnu : ~ unwound (s_tr s) d).
    { intros Hu. destruct (i_unw _ _ _ _ I d y Hd Hu Hty) as [A _]. apply A. rewrite Hfy. reflexivity. }
    assert (Hp0 : pend d s = 0).
    { destruct (Nat.eq_dec (pend d s) 0) as [E|E]; [exact E|]. exfalso. apply Hnu. apply (i_unw2 _ _ _ _ I d y Hd). left. lia. }
    pose proof (i_tok _ _ _ _ I d y Hd) as Htk. rewrite Hty, Hfy in Htk. cbn [hd_error is_fin] in Htk.
    rewrite Hp0 in Htk. unfold wtks in Htk. cbn [sumf wtk] in Htk. rewrite Hb in Htk.
    set (s' := mk_s _ _ _ _ _).
    assert (Hsrec : s_rec s' = upd (upd (s_rec s) c x') d y') by (unfold s'; cbn [s_rec]; rewrite !upd_upd; reflexivity).
    assert (Hcc : nth_error (s_rec s') c = Some x').
    { rewrite Hsrec, nth_upd_ne by auto. eapply nth_upd_eq; eauto. }
    assert (Hsum : forall f : rcd -> nat, sumf f (s_rec s') + f x + f y = sumf f (s_rec s) + f x' + f y').
    { intros f. rewrite Hsrec.
      pose proof (sumf_upd f _ c x' x Hc). pose proof (sumf_upd f _ d y' y Hd1). lia. }
    assert (Hpend : forall e, pend e s' = pend e s + b2n (Nat.eqb d e)).
    { intros e. pose proof (Hsum (wprec e)) as E. unfold pend. unfold wprec in E at 2 3 5 6. unfold y', x', wpds in E.
      rewrite Hfy in E. cbn [r_frames set_frames sumf wpd] in E. lia. }
    assert (Hun : unwound (s_tr s') d) by (exists t, c; cbn; auto).
    eapply (inv_switch n s s' t c d x y x' y' (Some d) [] I Hc Ht Hd Hne Hsrec); try reflexivity; auto.
    + intros e. rewrite Hfy. try change (s_vars s') with (s_vars s). unfold x', y'. counts. rewrite Hb, (Nat.eqb_sym c e), (Nat.eqb_sym d e). lia.
    + intros e He. rewrite Hfy. try change (s_vars s') with (s_vars s). unfold x', y'. counts. rewrite Hb. lia.
    + right. pose proof (cv_le c s) as B. unfold cv in *. pose proof (Hsum (wvrec c)) as E.
      unfold wvrec in E at 2 3 5 6. unfold y', x', wvs_ in E. rewrite Hfy in E. cbn [r_frames set_frames sumf wvr set_mode uf_mode] in E.
      rewrite Hb in E. change (s_vars s') with (s_vars s). lia.
    + intros e He1 He2. rewrite Hfy. try change (s_vars s') with (s_vars s). unfold x', y'. counts. destruct (Nat.eqb_spec d e); [congruence|]. cbn. lia.
    + rewrite Hfy. try change (s_vars s') with (s_vars s). unfold x', y'. counts. rewrite Hb, Nat.eqb_refl. cbn. lia.
    + change (r_term x') with (r_term x). rewrite Htf. split; [apply dtor_ok_fin; exact Hdt|].
      rewrite Hfy. try change (s_vars s') with (s_vars s). unfold x', y'. counts. destruct (Nat.eqb_spec d c); [congruence|]. cbn. lia.
    + rewrite Hpend. destruct (Nat.eqb_spec d c); [congruence|]. cbn. lia.
    + intros v. rewrite Hfy. try change (s_vars s') with (s_vars s). unfold x', y'. counts. lia.
    + unfold x'. cbn [r_frames set_frames]. intros f [<-|H].
      * split; [reflexivity|]. right. left. cbn [frame_ok]. unfold term, alive, is_main. rewrite Hsrec.
        rewrite (nth_upd_eq _ _ _ _ Hd1). cbn. unfold is_main in Hdm. rewrite Hd in Hdm. auto.
      * split; [|auto]. destruct (r_frames x) as [|h l]; [destruct H|].
        apply (wfs_nofin _ _ _ Hwfx); [|exact H]. exact (dtor_ok_fin _ Hdt).
    + unfold y'. cbn [r_frames set_frames]. intros f [<-|H].
      * split; [reflexivity|]. right. left. cbn [frame_ok set_mode uf_mode uf_caught]. split.
        -- cbn. exists c. split; [reflexivity|]. unfold top. rewrite Hcc. reflexivity.
        -- destruct (uf_caught g) as [[e|p]|]; cbn; auto. cbn in Htk. lia.
      * split; [|rewrite Hfy; left; right; right; exact H]. apply (wfs_nofin _ _ _ Hwf eq_refl f). right. exact H.
    + unfold x'. cbn [r_frames set_frames]. intros [H|H]; [discriminate|exact H].
    + unfold y'. cbn [r_frames set_frames]. intros [H|H]; [discriminate|].
      assert (Hen : entered (s_tr s) d) by (apply (i_ent _ _ _ _ I d y Hd); rewrite Hfy; right; right; exact H).
      destruct Hen as [r Hr]. exists r. cbn. auto.
    + rewrite Hfy. discriminate.
    + intros _ _. unfold x'. cbn. discriminate.
    + unfold x'. cbn. discriminate.
    + rewrite (i_done _ _ _ _ I c x Hc), Htf, (dtor_ok_fin _ Hdt). cbn. rewrite Htf. intuition discriminate.
    + unfold shape, x'. cbn. rewrite Hal, Htf. pose proof (i_shape _ _ _ _ I c x Hc) as [S9 _]. split; [exact S9|].
      split; [|reflexivity]. apply (wfs_dt _ d); auto.
    + unfold shape, y'. cbn [r_main r_alive r_alloc r_term r_frames set_frames set_done]; change (r_alloc y3) with (r_alloc y); change (r_alive y3) with (r_alive y); change (r_term y3) with (r_term y); change (r_main y3) with (r_main y). rewrite Hya, Hty. pose proof (i_shape _ _ _ _ I d y Hd) as [S9 _]. split; [exact S9|].
      split; [|reflexivity]. apply (wfs_set_fu _ g); [reflexivity|exact Logic.I|exact Hwf].
Qed.

(** a context that was asked to unwind finishes *)
Lemma exit_dtor_good n s t c d x :
  SInv n s -> nth_error (s_rec s) c = Some x -> nth_error (s_thr s) t = Some c ->
  r_frames x = [FFin (Some d)] -> pend c s = 1 -> top s d = Some (FDt c) -> In (EvDone c (Some d)) (s_tr s) ->
  good0 n (switch (with_rec s c (set_done x [FRes; FRunEnd])) t c d SwExit).
Proof.
  intros I Hc Ht Hfx Hp1 Htd Hdone.
  assert (Hpos : 0 < cnt d s + wh d None).
  { cbn. pose proof (rec_cnt d s c x Hc) as H. rewrite Hfx in H. unfold wfs_ in H. cbn in H. rewrite Nat.eqb_refl in H. cbn in H. lia. }
  destruct (target_facts _ _ _ _ _ I Hpos) as (y & Hd & Hya & Hyr & Hyf & Hyt & Hydone & Hywf).
  pose proof (sw_ne n s t c d x _ I Hc Ht Hpos) as Hne.
  unfold top in Htd. rewrite Hd in Htd.
  destruct (r_frames y) as [|f0 rest] eqn:Hfy; [discriminate|]. injection Htd as ->.
  assert (Hty : r_term y = false).
  { destruct (r_term y) eqn:E; [|reflexivity].
    pose proof (i_shape _ _ _ _ I d y Hd) as S9. unfold shape in S9. rewrite Hya, Hyr, E, Hfy in S9. destruct S9 as (_ & S9 & _). discriminate. }
  destruct (Hywf Hty) as [Hwf Hwait].
  set (x' := set_done x [FRes; FRunEnd]).
  rewrite (switch_eq s t c d SwExit x' y Hd Hne Hya Hyr). cbn [new_target].
  set (y2 := set_from y (Some c)). set (tr1 := EvSwitch t c d SwExit :: s_tr s).
  assert (Hd1 : nth_error (upd (s_rec s) c x') d = Some y) by (rewrite nth_upd_ne; auto).
  assert (Hd2 : nth_error (upd (upd (s_rec s) c x') d y2) d = Some y2) by (eapply nth_upd_eq; eauto).
  assert (Hc2 : nth_error (upd (upd (s_rec s) c x') d y2) c = Some x').
  { rewrite nth_upd_ne by auto. eapply nth_upd_eq; eauto. }
  destruct (inv_running _ _ _ _ _ _ _ I Ht Hc) as (Hal & Htf & Hwfx & Htopx & Hrc).
  unfold arrive; cbn [s_rec]. rewrite Hd2. change (r_frames y2) with (r_frames y). rewrite Hfy, Hc2.
  change (r_alive x') with (r_alive x). rewrite Hal. change (r_term x') with true. cbv iota.
  set (y3 := set_from y2 None).
  cbn [good0]. rewrite put_frames_tr. cbn [s_tr emit put_rec]. intros Hcalm. fold tr1 in Hcalm.
  assert (Hd3 : nth_error (upd (upd (upd (s_rec s) c x') d y2) d y3) d = Some y3) by (eapply nth_upd_eq; eauto).
  rewrite (put_frames_eq _ d y3) by exact Hd3.
  cbn [s_rec s_vars s_thr s_nusr s_tr emit put_rec].
  set (y' := set_frames y3 (FRel c false :: rest)).
  assert (Huc : unwound (s_tr s) c) by (apply (i_unw2 _ _ _ _ I c x Hc); left; lia).
  assert (SW : sw_ext n t d (s_tr s) ([] ++ EvDestroyed d :: tr1)).
  { eapply (sw_ext1 n s t c d x _ SwExit I Hc Ht Hpos); try reflexivity; auto; try discriminate.
    - cbn. intros e [].
    - apply (sw_rule1 n s t c d x _ SwExit I Hc Ht Hpos); try reflexivity.
      + cbn. intros e <-. reflexivity.
      + unfold next_rule0. cbn. right. right. right. split; [reflexivity|]. apply unwound_cons. auto. }
  set (s' := mk_s _ _ _ _ _).
  assert (Hsrec : s_rec s' = upd (upd (s_rec s) c x') d y') by (unfold s'; cbn [s_rec]; rewrite !upd_upd; reflexivity).
  assert (Hsum : forall f : rcd -> nat, sumf f (s_rec s') + f x + f y = sumf f (s_rec s) + f x' + f y').
  { intros f. rewrite Hsrec.
    pose proof (sumf_upd f _ c x' x Hc). pose proof (sumf_upd f _ d y' y Hd1). lia. }
  assert (Hpend : forall e, pend e s' + b2n (Nat.eqb c e) = pend e s).
  { intros e. pose proof (Hsum (wprec e)) as E. unfold pend. unfold wprec in E at 2 3 5 6. unfold y', x', wpds in E.
    rewrite Hfx, Hfy in E. cbn [r_frames set_frames set_done sumf wpd] in E. lia. }
  assert (Hmx : r_main x = false) by (rewrite Hfx in Hwfx; exact Hwfx).
  assert (Hcc : nth_error (s_rec s') c = Some x').
  { rewrite Hsrec, nth_upd_ne by auto. eapply nth_upd_eq; eauto. }
  assert (Hnof : forall f, In f (FDt c :: rest) -> is_fin (Some f) = false) by (apply (wfs_nofin _ _ _ Hwf eq_refl)).
  eapply (inv_switch n s s' t c d x y x' y' None [] I Hc Ht Hd Hne Hsrec); try reflexivity; auto.
  - intros e. rewrite Hfy, Hfx. try change (s_vars s') with (s_vars s). unfold x', y'. counts. rewrite (Nat.eqb_sym c e), (Nat.eqb_sym d e). lia.
  - intros e He. rewrite Hfy, Hfx. try change (s_vars s') with (s_vars s). unfold x', y'. counts. lia.
  - intros e He1 He2. rewrite Hfy, Hfx. try change (s_vars s') with (s_vars s). unfold x', y'. counts. destruct (Nat.eqb_spec c e); [congruence|]. cbn. lia.
  - rewrite Hfy, Hfx. try change (s_vars s') with (s_vars s). unfold x', y'. counts. destruct (Nat.eqb_spec c d); [congruence|]. cbn. lia.
  - change (r_term x') with true. cbv iota. pose proof (Hpend c) as E. rewrite Nat.eqb_refl in E. cbn [b2n] in E. lia.
  - pose proof (Hpend c) as E. lia.
  - intros v. rewrite Hfy, Hfx. try change (s_vars s') with (s_vars s). unfold x', y'. counts. lia.
  - unfold x'. cbn [r_frames set_done]. intros f [<-|[<-|[]]]; split; auto; right; left; exact Logic.I.
  - unfold y'. cbn [r_frames set_frames]. intros f [<-|H].
    + split; [reflexivity|]. right. left. cbn [frame_ok]. unfold term, is_main. rewrite Hcc. auto.
    + split; [apply Hnof; right; exact H|]. left. rewrite Hfy. right. exact H.
  - unfold x'. cbn. intros [H|[H|[]]]; discriminate.
  - unfold y'. cbn [r_frames set_frames]. intros [H|H]; [discriminate|].
    assert (Hen : entered (s_tr s) d) by (apply (i_ent _ _ _ _ I d y Hd); rewrite Hfy; right; exact H).
    destruct Hen as [r Hr]. exists r. cbn. auto.
  - rewrite Hfy. discriminate.
  - unfold x'. cbn. discriminate.
  - unfold x'. cbn. discriminate.
  - intros H. apply unwound_cons. right. apply unwound_cons. right. apply (i_unw2 _ _ _ _ I d y Hd).
    destruct H as [H|H]; [left|right; exact H]. pose proof (Hpend d). lia.
  - unfold x'. cbn. discriminate.
  - unfold x'. cbn. rewrite (i_done _ _ _ _ I c x Hc), Hfx. cbn. intuition discriminate.
  - unfold shape, x'. cbn. rewrite Hal. pose proof (i_shape _ _ _ _ I c x Hc) as [S9 _]. auto.
  - unfold shape, y'. cbn [r_main r_alive r_alloc r_term r_frames set_frames set_done]; change (r_alloc y3) with (r_alloc y); change (r_alive y3) with (r_alive y); change (r_term y3) with (r_term y); change (r_main y3) with (r_main y). rewrite Hya, Hty. pose proof (i_shape _ _ _ _ I d y Hd) as [S9 _]. split; [exact S9|].
    split; [|reflexivity]. destruct rest as [|g0 r0]; [cbn in Hwf; contradiction|]. rewrite wfs_cons in *. exact Hwf.
Qed.
