(** Machinery for P_LinkWeak.v: the machine of LinkWeak.v simulates that of LinkStep.v. *)
From Coq Require Import ZArith List String Lia Bool Arith.
From Verif Require Import ListUtil Fiber FiberSpec LinkHist.
From Verif Require Import Word AsmMachine AsmSym AsmAbi AsmCheck AsmCode AsmCode2 AsmFacts AsmHist P_Asm AsmIl Link P_Link.
From Verif Require Import LinkStep LinkStepInv LinkStepInv2 LinkStepInv3 LinkWeak.
Import ListNotations.
Open Scope list_scope.
Open Scope Z_scope.

Section Weak.
  Variable A : port.
  Variable L : string -> Z.
  Variable n : nat.
  Hypothesis IN : In A ports.
  Hypothesis LAB : labels_ok A L.
  Local Notation B := (p_abi A).
  Local Notation C := (p_code A).
  Local Notation P := (ab_cpu (p_abi A)).
  Let CHK : check A = true := port_checked A IN.

  Definition r_sim (r r' : routine) : Prop :=
    match r, r' with
    | RMake d, RMake d' => d = d'
    | RFirst me to c0, RFirst me' to' c0' => me = me' /\ to = to' /\ agree (foot_make A c0) c0 c0'
    | RSwitch me to k, RSwitch me' to' k' => me = me' /\ to = to' /\ k = k'
    | _, _ => False
    end.

  (** the same phase, up to memory that the routine does not work on *)
  Definition ph_sim (M : mach) (p q : phase) : Prop :=
    match p, q with
    | Free, Free => True
    | Between d h c, Between d' h' c' => d = d' /\ h = h' /\ agree (foot_make A c) c c'
    | Inside r rest b s, Inside r' rest' b' s' => r_sim r r' /\ rest = rest' /\ b = b' /\ agree (foot A M p) s s' /\ wf P s'
    | _, _ => False
    end.

  Record wrel (F : fine) (W : weak) (top : Z -> nat) : Prop := {
    y_geo : forall c, m_lo (k_m W) c = m_lo (f_m F) c /\ m_hi (k_m W) c = m_hi (f_m F) c;
    y_at : forall h, m_at (k_m W) h = m_at (f_m F) h;
    y_st : forall h, agree (own_foot A (m_st (f_m F) h)) (m_st (f_m F) h) (m_st (k_m W) h);
    y_reg : forall t x, m_reg (k_m W) t x = m_reg (f_m F) t x;
    y_ph : forall t, ph_sim (f_m F) (f_ph F t) (k_ph W t);
    y_top : forall a, k_msg W a (top a) = Some (m_mem (f_m F) a) /\ forall p, (top a < p)%nat -> k_msg W a p = None;
    y_seen : forall t a, k_msg W a (k_seen W t a) <> None;
    y_byte : forall a p x, k_msg W a p = Some x -> 0 <= x < 256;
    y_upd : forall t a, foot A (f_m F) (f_ph F t) a -> k_seen W t a = top a
  }.

  Lemma latest_top F W top t a : wrel F W top -> latest W t a -> k_seen W t a = top a.
  Proof.
    intros Y H. destruct (y_top _ _ _ Y a) as [T1 T2]. pose proof (y_seen _ _ _ Y t a) as S.
    destruct (Nat.lt_trichotomy (k_seen W t a) (top a)) as [Q|[Q|Q]]; [|exact Q|].
    - rewrite (H _ Q) in T1. discriminate.
    - rewrite (T2 _ Q) in S. congruence.
  Qed.
  Lemma top_view F W top t a : wrel F W top -> k_seen W t a = top a -> view W t a = m_mem (f_m F) a.
  Proof. intros Y E. unfold view. rewrite E, (proj1 (y_top _ _ _ Y a)). reflexivity. Qed.
  Lemma latest_view F W top t a : wrel F W top -> latest W t a -> view W t a = m_mem (f_m F) a.
  Proof. intros Y H. eapply top_view; eauto. eapply latest_top; eauto. Qed.

  Lemma cpu_agree F W top t (X : Z -> Prop) : wrel F W top -> (forall a, X a -> k_seen W t a = top a) ->
    agree X (wcpu W t) (cpu_at (f_m F) t).
  Proof.
    intros Y H. split; cbn [wcpu cpu_at rg mm]; [apply (y_reg _ _ _ Y)|]. intros a Ha. eapply top_view; eauto.
  Qed.

  Lemma wf_view F W top t : wrel F W top -> (forall x, 0 <= m_reg (f_m F) t x < 256 ^ rw P x) -> wf P (wcpu W t).
  Proof.
    intros Y H. split; cbn [wcpu rg mm].
    - intros a. unfold view. destruct (k_msg W a (k_seen W t a)) as [x|] eqn:E; [eapply (y_byte _ _ _ Y); eauto|lia].
    - intros x. rewrite (y_reg _ _ _ Y). apply H.
  Qed.
  Lemma wf_fine F W top t : wrel F W top -> (forall x, 0 <= m_reg (k_m W) t x < 256 ^ rw P x) -> wf P (cpu_at (f_m F) t).
  Proof.
    intros Y H. split; cbn [cpu_at rg mm].
    - intros a. eapply (y_byte _ _ _ Y). apply (proj1 (y_top _ _ _ Y a)).
    - intros x. rewrite <- (y_reg _ _ _ Y). apply H.
  Qed.

  (** equal footprints *)
  Lemma hid_same tr F N W top h : rel A L n tr F N -> minv A L n tr N -> wrel F W top -> suspended tr h ->
    hidden A (m_st (k_m W) h) = hidden A (m_st (f_m F) h).
  Proof.
    intros R V Y S. destruct (st_agree A L n IN LAB _ _ _ _ R V S) as (CS & HI & HH & _). rewrite HI.
    pose proof (l_st _ _ _ _ _ _ R h S) as A1. pose proof (y_st _ _ _ Y h) as A2.
    apply (hidden_agree A CHK (own_foot A (m_st (f_m F) h))); [apply (call_in A L CHK), CS| |].
    - eapply agree_trans; [apply agree_sym; exact A1|exact A2].
    - intros a Ha. unfold own_foot. rewrite HH. apply (own_cov A IN). exact Ha.
  Qed.

  Lemma foot_make_same s s' a : make_ok A s -> agree (foot_make A s) s s' -> foot_make A s a <-> foot_make A s' a.
  Proof.
    intros MS AG. pose proof (make_in A CHK s MS) as IC.
    assert (COV : forall a, sp A s <= a < sp A s + ab_up B -> foot_make A s a) by (intros b Hb; left; pose proof (abi_nums A CHK); lia).
    unfold foot_make. rewrite (sp_agree A _ _ _ AG). unfold mk_top at 3 4. rewrite (pl_agree A CHK _ _ _ _ IC (p_mksp A CHK) AG COV). reflexivity.
  Qed.

  Lemma call_same s s' X : call_ok A L s -> agree X s s' -> (forall a, own_foot A s a -> X a) ->
    handle A s' = handle A s /\ arg_to A s' = arg_to A s /\ arg_data A s' = arg_data A s /\ arg_fn A s' = arg_fn A s /\
    hidden A s' = hidden A s /\ ret_addr A s' = ret_addr A s /\ sp A s' = sp A s.
  Proof.
    intros CS AG OWN. pose proof (call_in A L CHK s CS) as IC.
    assert (COV : forall a, sp A s <= a < sp A s + ab_up B -> X a) by (intros b Hb; apply OWN, (own_cov A IN), Hb).
    assert (Q : forall p, place_ok A p = true -> pl P s' p = pl P s p) by (intros p O; exact (pl_agree A CHK X p _ _ IC O AG COV)).
    split; [exact (handle_agree A _ _ _ AG)|]. split; [apply Q, (p_to A CHK)|]. split; [apply Q, (p_data A CHK)|].
    split; [apply Q, (p_fn A CHK)|]. split; [exact (hidden_agree A CHK X _ _ IC AG COV)|]. split; [apply Q, (p_ret A CHK)|].
    exact (sp_agree A _ _ _ AG).
  Qed.

  Lemma foot_same tr F N W top t a : rel A L n tr F N -> minv A L n tr N -> wrel F W top ->
    foot A (f_m F) (f_ph F t) a <-> foot A (k_m W) (k_ph W t) a.
  Proof.
    intros R V Y. pose proof (y_ph _ _ _ Y t) as PS. destruct (Nat.lt_ge_cases t n) as [Ht|Ht].
    2: { rewrite (l_idle _ _ _ _ _ _ R t Ht) in *. destruct (k_ph W t); cbn [ph_sim] in PS; try contradiction. reflexivity. }
    pose proof (l_ph _ _ _ _ _ _ R t Ht) as PH.
    destruct (f_ph F t) as [|d h c|r rest b s], (k_ph W t) as [|d' h' c'|r' rest' b' s']; cbn [ph_sim] in PS; try contradiction; [reflexivity| |].
    - destruct PS as (-> & -> & _). reflexivity.
    - destruct PS as (RS & -> & -> & AG & _). cbn [ph_ok] in PH. destruct PH as (_ & _ & EN & _).
      destruct r as [d|me to c0|me to k], r' as [d'|me' to' c0'|me' to' k']; cbn [r_sim] in RS; try contradiction; cbn [foot entry] in *.
      + apply foot_make_same; [apply EN|exact AG].
      + destruct EN as (_ & CS & _). destruct (call_same _ _ _ CS AG ltac:(intros b Hb; left; exact Hb)) as (E1 & E2 & _).
        unfold foot_new, own_foot. rewrite E1, E2. reflexivity.
      + destruct EN as (_ & S & _ & CS & _). destruct RS as (-> & -> & ->).
        destruct (call_same _ _ _ CS AG ltac:(intros b Hb; left; exact Hb)) as (E1 & E2 & _).
        unfold foot_susp, own_foot. rewrite E1, E2, (hid_same _ _ _ _ _ _ R V Y S). reflexivity.
  Qed.

  Lemma goal_same M p q : ph_sim M p q -> goal q = goal p.
  Proof.
    destruct p as [|d h c|r rest b s], q as [|d' h' c'|r' rest' b' s']; cbn [ph_sim]; try contradiction; [reflexivity| |].
    - intros (-> & _). reflexivity.
    - intros (RS & _). destruct r, r'; cbn [r_sim] in RS; try contradiction; cbn [goal]; [subst; reflexivity| |]; destruct RS as (_ & -> & _); reflexivity.
  Qed.
  Lemma inside_same M p q : ph_sim M p q -> inside q <-> inside p.
  Proof. destruct p, q; cbn [ph_sim inside]; tauto. Qed.

  Lemma ph_sim_mach M M2 p q : ph_sim M p q -> (forall a, foot A M2 p a -> foot A M p a) -> ph_sim M2 p q.
  Proof.
    intros H E. destruct p, q; cbn [ph_sim] in *; try exact H. destruct H as (H1 & H2 & H3 & H4 & H5).
    split; [exact H1|]. split; [exact H2|]. split; [exact H3|]. split; [|exact H5]. eapply agree_sub; [exact E|exact H4].
  Qed.

  (** a change of thread t's phase, registers and stores *)
  Lemma wrel_stores F W top t r val pos p q m : wrel F W top ->
    (forall a x, val a = Some x -> 0 <= x < 256) ->
    places W t val pos ->
    (forall t' a, t' <> t -> foot A (f_m F) (f_ph F t') a -> val a = None) ->
    ph_sim (f_m F) p q ->
    (forall a, foot A (f_m F) p a -> val a = None -> k_seen W t a = top a) ->
    (forall a x, foot A (f_m F) p a -> val a = Some x -> k_seen W t a = top a) ->
    (forall a, m a = match val a with Some x => if Nat.ltb (top a) (pos a) then x else m_mem (f_m F) a | None => m_mem (f_m F) a end) ->
    exists top2, wrel (set_ph F (put_cpu (f_m F) t (St r m)) t p) (put_stores W t r val pos q) top2.
  Proof.
    intros Y VB PL OT PS U1 U2 ME.
    exists (fun a => match val a with Some _ => Nat.max (top a) (pos a) | None => top a end).
    assert (FE : forall p' a, foot A (put_cpu (f_m F) t (St r m)) p' a <-> foot A (f_m F) p' a) by (intros p' a; destruct p' as [| |[]]; reflexivity).
    constructor; cbn [set_ph f_m f_ph put_stores k_m k_msg k_seen k_ph set_regs put_cpu m_lo m_hi m_at m_st m_reg m_mem rg mm].
    - apply (y_geo _ _ _ Y).
    - apply (y_at _ _ _ Y).
    - apply (y_st _ _ _ Y).
    - intros t' x. destruct (Nat.eqb t' t); [reflexivity|apply (y_reg _ _ _ Y)].
    - intros t'. destruct (Nat.eqb t' t); [|pose proof (y_ph _ _ _ Y t') as PS']; (eapply ph_sim_mach; [eassumption|]); intros a; apply FE.
    - intros a. rewrite ME. destruct (y_top _ _ _ Y a) as [T1 T2]. destruct (val a) as [x|] eqn:E; [|auto].
      destruct (PL a x E) as [P1 P2]. destruct (Nat.ltb_spec (top a) (pos a)) as [Q|Q].
      + rewrite Nat.max_r by lia. rewrite Nat.eqb_refl. split; [reflexivity|]. intros p' Hp.
        destruct (Nat.eqb_spec p' (pos a)); [lia|]. apply T2. lia.
      + rewrite Nat.max_l by lia. assert (NE : pos a <> top a) by (intros Z; rewrite Z in P2; congruence).
        destruct (Nat.eqb_spec (top a) (pos a)); [congruence|]. split; [exact T1|]. intros p' Hp.
        destruct (Nat.eqb_spec p' (pos a)); [lia|]. apply T2. lia.
    - intros t' a. pose proof (y_seen _ _ _ Y t' a) as S. destruct (val a) as [x|] eqn:E; [|exact S].
      destruct (Nat.eqb t' t); [rewrite Nat.eqb_refl; discriminate|]. destruct (Nat.eqb _ (pos a)); [discriminate|exact S].
    - intros a p' x. destruct (val a) as [y|] eqn:E; [|apply (y_byte _ _ _ Y)].
      destruct (Nat.eqb p' (pos a)); [intros [= <-]; eapply VB; eauto|apply (y_byte _ _ _ Y)].
    - intros t' a. destruct (Nat.eqb_spec t' t) as [-> |NE]; intros FT; apply FE in FT.
      + destruct (val a) as [x|] eqn:E; [|apply U1; auto]. destruct (PL a x E) as [P1 _]. rewrite (U2 a x FT E) in P1. lia.
      + rewrite (OT t' a NE FT). apply (y_upd _ _ _ Y). exact FT.
  Qed.

  (** a change of thread t's phase only *)
  Lemma wrel_phase F W top t p q : wrel F W top -> ph_sim (f_m F) p q ->
    (forall a, foot A (f_m F) p a -> k_seen W t a = top a) ->
    wrel (set_ph F (f_m F) t p) (wset_ph W (k_m W) t q) top.
  Proof.
    intros Y PS U. constructor; cbn [set_ph f_m f_ph wset_ph k_m k_msg k_seen k_ph]; try apply Y.
    - intros t'. destruct (Nat.eqb t' t); [exact PS|apply (y_ph _ _ _ Y)].
    - intros t' a. destruct (Nat.eqb_spec t' t) as [-> |NE]; [apply U|apply (y_upd _ _ _ Y)].
  Qed.

  Lemma fgets tr F : fexec A L n tr F -> good n tr -> exists N, exec A L n tr N /\ rel A L n tr F N /\ minv A L n tr N.
  Proof.
    intros X G. destruct (sim_rel A L n IN LAB tr F X G) as (N & XN & R). exists N. split; [exact XN|]. split; [exact R|].
    exact (exec_minv A L n IN LAB _ _ XN G).
  Qed.

  Lemma phase_free M p : ph_sim M p Free -> p = Free.
  Proof. destruct p; cbn; tauto. Qed.
  Lemma phase_between M p d h c : ph_sim M p (Between d h c) -> exists c', p = Between d h c' /\ agree (foot_make A c') c' c.
  Proof. destruct p; cbn; try tauto. intros (-> & -> & H). eauto. Qed.
  Lemma phase_inside M p r rest b s : ph_sim M p (Inside r rest b s) ->
    exists r' s', p = Inside r' rest b s' /\ r_sim r' r /\ agree (foot A M p) s' s /\ wf P s.
  Proof. destruct p; cbn [ph_sim]; try tauto. intros (H1 & -> & -> & H2 & H3). eauto 10. Qed.

  Lemma touch_foot tr F N W top t r i rest b s a : rel A L n tr F N -> wrel F W top -> (t < n)%nat ->
    f_ph F t = Inside r (i :: rest) b s -> touched P i (wcpu W t) a -> foot A (f_m F) (f_ph F t) a.
  Proof.
    intros R Y Ht FR T. pose proof (l_ph _ _ _ _ _ _ R t Ht) as PH. pose proof (y_upd _ _ _ Y t) as U. rewrite FR in *. cbn [ph_ok] in PH.
    destruct PH as (_ & _ & _ & _ & _ & pc & uf & u & _ & _ & (AC & _) & AG & _).
    pose proof (cpu_agree F W top t _ Y U) as AG2.
    apply (touched_agree _ _ _ _ _ _ (agree_sym _ _ _ AG2)) in T.
    apply (touched_agree _ _ _ _ _ _ AG) in T. destruct i; try (destruct T; fail); exact (proj1 AC a T).
  Qed.

  Lemma made_range tr F N t d x rest b s : rel A L n tr F N -> (t < n)%nat -> f_ph F t = Inside (RMake d) (Go x :: rest) b s ->
    forall a, m_reg (f_m F) t (ab_mkres B) <= a < m_reg (f_m F) t (ab_mkres B) + c_size C -> foot_make A s a.
  Proof.
    intros R Ht FR a Ha. pose proof (l_ph _ _ _ _ _ _ R t Ht) as PH. pose proof PH as PH0. rewrite FR in PH. cbn [ph_ok] in PH.
    destruct PH as (_ & _ & (UT & MS & O1 & O2 & T1 & T2) & HB & _).
    assert (GO : goes_on A L b (m_reg (f_m F) t x) = false).
    { destruct b; [discriminate (HB eq_refl)|reflexivity]. }
    destruct (end_alone A L n tr F N t _ x rest b s R Ht FR GO) as (uf & RF & AF & _).
    assert (RF' : run P L (c_make C) s = Goto (m_reg (f_m F) t x) uf).
    { unfold rest_run in RF. cbn [rcode rtramp] in RF. destruct (run P L (c_make C) s); try discriminate RF. exact RF. }
    right. destruct (C27_make_returns A L s IN LAB MS) as (c2 & RM2 & _ & _ & (_ & Y1 & Y2 & _) & _).
    unfold cpu_of in RM2. rewrite RF' in RM2. injection RM2 as _ <-. rewrite (proj1 AF) in Y1, Y2. cbn [cpu_at rg] in Y1, Y2. lia.
  Qed.

  Theorem weak_sim tr W : wexec A L n tr W -> good n tr -> exists F top, fexec A L n tr F /\ wrel F W top.
  Proof.
    induction 1 as [M Wf Bd D|tr W seen X IH SE|tr W t r val pos X IH Ht NI RB VB OW FT PL|tr W e X IH Q
      |tr W c a lo hi X IH B0 B1 D
      |tr W t d X IH Ht FR s c UT UC MS O1 O2 T1 T2 LA|tr W t me to h c0 X IH Ht FR s c CS AT OS LA
      |tr W t me to k X IH Ht FR K s c S UC HO CS AT OS LA|tr W t r i rest b s v val pos X IH Ht FR E V1 V2 PL
      |tr W t r x rest b s X IH Ht FR GO|tr W t d x rest b s X IH Ht FR
      |tr W t r me to k c0 x rest b s X IH Ht FR GO KK]; intros G.
    - exists (Fine M (fun _ => Free)), (fun _ => O). split; [apply i_start; assumption|]. constructor; cbn; auto.
      + intros h. apply agree_refl.
      + intros a. split; [reflexivity|]. intros [|p] Hp; [lia|reflexivity].
      + discriminate.
      + intros a [|p] x; [intros [= <-]; apply (Wf O)|discriminate].
    - destruct (IH G) as (F & top & XF & Y). exists F, top. split; [exact XF|]. constructor; cbn [k_m k_msg k_seen k_ph]; try apply Y.
      + intros t a. apply SE.
      + intros t a FT. destruct (SE t a) as [H1 H2]. pose proof (y_upd _ _ _ Y t a FT) as U. rewrite U in H1.
        destruct (Nat.eq_dec (seen t a) (top a)) as [|NE]; [assumption|]. destruct H2. apply (y_top _ _ _ Y a). lia.
    - destruct (IH G) as (F & top & XF & Y). destruct (fgets tr F XF G) as (N & XN & R & V).
      set (m := fun a => match val a with Some x => if Nat.ltb (top a) (pos a) then x else m_mem (f_m F) a | None => m_mem (f_m F) a end).
      pose proof (y_ph _ _ _ Y t) as PS.
      destruct (wrel_stores F W top t r val pos (f_ph F t) (k_ph W t) m Y VB PL) as (top2 & Y2); auto.
      + intros t' a _ Q. apply (FT t' a). apply (foot_same tr F N W top t' a R V Y). exact Q.
      + intros a Q _. apply (y_upd _ _ _ Y). exact Q.
      + intros a x Q E. rewrite (FT t a) in E; [discriminate|]. apply (foot_same tr F N W top t a R V Y). exact Q.
      + exists (Fine (put_cpu (f_m F) t (St r m)) (f_ph F)), top2. split.
        * apply i_code; auto.
          -- intros I. apply NI. apply (inside_same _ _ _ PS). exact I.
          -- split; cbn [mm rg]; [|exact RB]. intros a. unfold m. destruct (y_top _ _ _ Y a) as [T1 _].
             destruct (val a) as [x|] eqn:E; [|eapply (y_byte _ _ _ Y); eauto]. destruct (Nat.ltb _ _); [eapply VB; eauto|eapply (y_byte _ _ _ Y); eauto].
          -- intros h a S O. cbn [mm]. unfold m. rewrite (OW h a S); [reflexivity|]. unfold owned in *. rewrite (y_at _ _ _ Y). exact O.
          -- intros t' a Q. cbn [mm]. unfold m. rewrite (FT t' a); [reflexivity|]. apply (foot_same tr F N W top t' a R V Y). exact Q.
        * constructor; cbn [f_m f_ph]; try apply Y2.
          -- intros t'. pose proof (y_ph _ _ _ Y2 t') as Z. cbn [set_ph f_m f_ph] in Z. destruct (Nat.eqb_spec t' t) as [E|]; [subst t'|]; exact Z.
          -- intros t' a Q. apply (y_upd _ _ _ Y2). cbn [set_ph f_m f_ph]. destruct (Nat.eqb_spec t' t) as [E|]; [subst t'|]; exact Q.
    - destruct (IH (good_tl _ _ _ G)) as (F & top & XF & Y). exists F, top. split; [apply i_event; assumption|exact Y].
    - destruct (IH (good_tl _ _ _ G)) as (F & top & XF & Y). exists (Fine (put_stack (f_m F) c lo hi) (f_ph F)), top. split.
      + apply i_alloc; auto. intros d HD. destruct (y_geo _ _ _ Y d) as [<- <-]. apply D. exact HD.
      + assert (FE : forall p' a, foot A (put_stack (f_m F) c lo hi) p' a <-> foot A (f_m F) p' a) by (intros p' b; destruct p' as [| |[]]; reflexivity).
        constructor; [intros d; cbn [k_m f_m put_stack m_lo m_hi]; destruct (Nat.eqb d c); [auto|apply (y_geo _ _ _ Y)]|..]; apply Y.
    - (* make *)
      destruct (IH G) as (F & top & XF & Y). pose proof (y_ph _ _ _ Y t) as PS. rewrite FR in PS. apply phase_free in PS.
      assert (LT : forall a, foot_make A s a -> k_seen W t a = top a) by (intros a Ha; eapply latest_top; eauto).
      pose proof (cpu_agree F W top t _ Y LT) as AG. fold s in AG.
      pose proof (wf_fine F W top t Y (proj2 (proj1 MS))) as WF.
      assert (COV : forall a, sp A s <= a < sp A s + ab_up B -> foot_make A s a) by (intros b Hb; left; pose proof (abi_nums A CHK); lia).
      destruct (make_agree A CHK _ _ _ MS AG WF COV) as (MS' & TE & _ & SE).
      pose proof (fun a => foot_make_same s _ a MS AG) as FS.
      destruct (y_geo _ _ _ Y c) as [E1 E2], (y_geo _ _ _ Y d) as [E3 E4].
      exists (set_ph F (f_m F) t (Inside (RMake d) (rcode A (RMake d)) (rtramp (RMake d)) (cpu_at (f_m F) t))), top. split.
      + apply i_make; auto; fold c; rewrite ?SE, ?TE, <- ?E1, <- ?E2, <- ?E3, <- ?E4; auto.
        intros t' NE Q. apply (UC t' NE). rewrite (goal_same _ _ _ (y_ph _ _ _ Y t')). exact Q.
      + apply wrel_phase; [exact Y| |].
        * cbn [ph_sim r_sim foot]. split; [reflexivity|]. split; [reflexivity|]. split; [reflexivity|]. split; [|apply MS].
          apply agree_sym. eapply agree_sub; [|exact AG]. intros a. apply FS.
        * intros a Ha. apply LT, FS. exact Ha.
    - (* first *)
      destruct (IH G) as (F & top & XF & Y). pose proof (y_ph _ _ _ Y t) as PS. rewrite FR in PS.
      apply phase_between in PS as (c1 & FR' & AC).
      assert (LT : forall a, foot_new A s a -> k_seen W t a = top a).
      { intros a [Ha|Ha]; [eapply latest_top; eauto|]. apply (y_upd _ _ _ Y). rewrite FR'. cbn [foot]. rewrite <- AT. exact Ha. }
      pose proof (cpu_agree F W top t _ Y LT) as AG. fold s in AG.
      pose proof (wf_fine F W top t Y (proj2 (proj1 CS))) as WF.
      assert (OWN : forall a, own_foot A s a -> foot_new A s a) by (intros a Ha; left; exact Ha).
      destruct (call_agree A L CHK _ _ _ CS AG WF ltac:(intros a Ha; apply OWN, (own_cov A IN), Ha)) as (CS' & AT' & _ & HI' & _).
      destruct (call_same _ _ _ CS AG OWN) as (HA' & _ & _ & _ & _ & _ & SP').
      destruct (y_geo _ _ _ Y c) as [E1 E2].
      assert (FS : forall a, foot_new A s a <-> foot_new A (cpu_at (f_m F) t) a) by (intros a; unfold foot_new, own_foot; rewrite HA', AT'; reflexivity).
      exists (set_ph F (f_m F) t (Inside (RFirst me to c1) (rcode A (RFirst me to c1)) (rtramp (RFirst me to c1)) (cpu_at (f_m F) t))), top. split.
      + eapply i_first; eauto; fold c; [rewrite AT'; exact AT|]. rewrite <- E1, <- E2. unfold on_stack in *. rewrite HI', HA', SP'. exact OS.
      + apply wrel_phase; [exact Y| |].
        * cbn [ph_sim r_sim foot]. split; [auto|]. split; [reflexivity|]. split; [reflexivity|]. split; [|apply CS].
          apply agree_sym. eapply agree_sub; [|exact AG]. intros a. apply FS.
        * intros a Ha. apply LT, FS. exact Ha.
    - (* call *)
      destruct (IH G) as (F & top & XF & Y). destruct (fgets tr F XF G) as (N & XN & R & V).
      pose proof (y_ph _ _ _ Y t) as PS. rewrite FR in PS. apply phase_free in PS.
      assert (LT : forall a, foot_susp A s (m_st (k_m W) to) a -> k_seen W t a = top a) by (intros a Ha; eapply latest_top; eauto).
      pose proof (cpu_agree F W top t _ Y LT) as AG. fold s in AG.
      pose proof (wf_fine F W top t Y (proj2 (proj1 CS))) as WF.
      assert (OWN : forall a, own_foot A s a -> foot_susp A s (m_st (k_m W) to) a) by (intros a Ha; left; exact Ha).
      destruct (call_agree A L CHK _ _ _ CS AG WF ltac:(intros a Ha; apply OWN, (own_cov A IN), Ha)) as (CS' & AT' & _ & HI' & _).
      destruct (call_same _ _ _ CS AG OWN) as (HA' & _ & _ & _ & _ & _ & SP').
      destruct (y_geo _ _ _ Y c) as [E1 E2]. pose proof (hid_same _ _ _ _ _ _ R V Y S) as HS.
      assert (FS : forall a, foot_susp A s (m_st (k_m W) to) a <-> foot_susp A (cpu_at (f_m F) t) (m_st (f_m F) to) a) by (intros a; unfold foot_susp, own_foot; rewrite HA', AT', HS; reflexivity).
      exists (set_ph F (f_m F) t (Inside (RSwitch me to k) (rcode A (RSwitch me to k)) (rtramp (RSwitch me to k)) (cpu_at (f_m F) t))), top. split.
      + apply i_call; auto; fold c.
        * intros t' NE Q. apply (UC t' NE). rewrite (goal_same _ _ _ (y_ph _ _ _ Y t')). exact Q.
        * rewrite AT', AT. apply (y_at _ _ _ Y).
        * rewrite <- E1, <- E2. unfold on_stack in *. rewrite HI', HA', SP'. exact OS.
      + apply wrel_phase; [exact Y| |].
        * cbn [ph_sim r_sim foot]. split; [auto|]. split; [reflexivity|]. split; [reflexivity|]. split; [|apply CS].
          apply agree_sym. eapply agree_sub; [|exact AG]. intros a. apply FS.
        * intros a Ha. apply LT, FS. exact Ha.
    - (* step *)
      destruct (IH G) as (F & top & XF & Y). destruct (fgets tr F XF G) as (N & XN & R & V).
      pose proof (y_ph _ _ _ Y t) as PS. rewrite FR in PS. apply phase_inside in PS as (r' & s' & FR' & RS & AS & WS).
      pose proof (fun a => touch_foot tr F N W top t r' i rest b s' a R Y Ht FR') as TF.
      pose proof (cpu_agree F W top t _ Y (y_upd _ _ _ Y t)) as AG.
      destruct (step_agree P L _ i _ _ v AG TF E) as (v' & E' & AV & U1 & U2).
      assert (VB : forall a x, val a = Some x -> 0 <= x < 256).
      { intros a x Q. destruct (V1 a x Q) as [T ->].
        assert (WB : forall a, 0 <= mm (wcpu W t) a < 256).
        { intros c. cbn [wcpu mm]. unfold view. destruct (k_msg W c (k_seen W t c)) as [y|] eqn:Z; [eapply (y_byte _ _ _ Y); eauto|lia]. }
        clear - E WB. destruct i; cbn [step1] in E; try discriminate E;
          repeat match type of E with
          | Some _ = Some _ => injection E as <-
          | (match ea ?p ?q ?x ?y ?z with _ => _ end) = _ => destruct (ea p q x y z); [|discriminate E]
          | (if ?q then _ else _) = _ => destruct q; try discriminate E
          end; try apply WB; cbn [mm]; apply store_byte; exact WB. }
      destruct (wrel_stores F W top t (rg v) val pos (Inside r' rest b s') (Inside r rest b s) (mm v') Y VB PL) as (top2 & Y2).
      + intros t' a NE Q. destruct (val a) as [x|] eqn:Z; [|reflexivity]. exfalso. destruct (V1 a x Z) as [T _].
        exact (feet_disj A L n IN LAB tr F N t' t a R V G NE Q (TF a T)).
      + cbn [ph_sim]. split; [exact RS|]. split; [reflexivity|]. split; [reflexivity|]. split; [|exact WS]. rewrite FR' in AS. exact AS.
      + intros a Q _. apply (y_upd _ _ _ Y). rewrite FR'. exact Q.
      + intros a x Q _. apply (y_upd _ _ _ Y). rewrite FR'. exact Q.
      + intros a. destruct (val a) as [x|] eqn:Z.
        * destruct (V1 a x Z) as [T ->]. specialize (TF a T). destruct (PL a _ Z) as [P1 _]. rewrite (y_upd _ _ _ Y t a TF) in P1.
          destruct (Nat.ltb_spec (top a) (pos a)); [|lia]. symmetry. apply (proj2 AV). exact TF.
        * destruct (foot_dec A (f_m F) (f_ph F t) a) as [D|D].
          -- rewrite <- (proj2 AV a D), (V2 a Z). apply (top_view F W top t a Y). apply (y_upd _ _ _ Y). exact D.
          -- rewrite (U2 a D). reflexivity.
      + exists (set_ph F (put_cpu (f_m F) t v') t (Inside r' rest b s')), top2. split; [eapply i_step; eauto|].
        assert (RE : forall y, rg v' y = rg v y) by (intros y; symmetry; apply (proj1 AV)).
        constructor; try apply Y2.
        intros t' y. rewrite (y_reg _ _ _ Y2 t' y). cbn [set_ph f_m put_cpu m_reg rg]. destruct (Nat.eqb t' t); [symmetry; apply RE|reflexivity].
    - (* trampoline *)
      destruct (IH G) as (F & top & XF & Y).
      pose proof (y_ph _ _ _ Y t) as PS. rewrite FR in PS. apply phase_inside in PS as (r' & s' & FR' & RS & AS & WS).
      exists (set_ph F (f_m F) t (Inside r' (c_tramp C) false s')), top. split.
      + eapply i_tramp; eauto. rewrite <- (y_reg _ _ _ Y). exact GO.
      + apply wrel_phase; [exact Y| |].
        * cbn [ph_sim]. split; [exact RS|]. split; [reflexivity|]. split; [reflexivity|]. split; [|exact WS]. rewrite FR' in AS. exact AS.
        * intros a Q. apply (y_upd _ _ _ Y). rewrite FR'. exact Q.
    - (* made *)
      destruct (IH G) as (F & top & XF & Y). destruct (fgets tr F XF G) as (N & XN & R & V).
      pose proof (y_ph _ _ _ Y t) as PS. rewrite FR in PS. apply phase_inside in PS as (r' & s' & FR' & RS & AS & WS).
      destruct r' as [d'| |]; cbn [r_sim] in RS; try contradiction. subst d'.
      exists (set_ph F (f_m F) t (Between d (m_reg (f_m F) t (ab_mkres B)) s')), top. split; [eapply i_made; eauto|].
      apply wrel_phase; [exact Y| |].
      + cbn [ph_sim]. split; [reflexivity|]. split; [symmetry; apply (y_reg _ _ _ Y)|]. rewrite FR' in AS. exact AS.
      + intros a Q. cbn [foot] in Q. apply (y_upd _ _ _ Y). rewrite FR'. cbn [foot]. exact (made_range tr F N t d x rest b s' R Ht FR' a Q).
    - (* done *)
      destruct (IH (good_tl _ _ _ G)) as (F & top & XF & Y). destruct (fgets tr F XF (good_tl _ _ _ G)) as (N & XN & R & V).
      pose proof (y_ph _ _ _ Y t) as PS. rewrite FR in PS. apply phase_inside in PS as (r' & s' & FR' & RS & AS & WS).
      assert (HE : handle A s = handle A s') by exact (handle_agree A _ _ _ AS).
      assert (OWN : forall a, own_foot A s' a -> foot A (f_m F) (f_ph F t) a).
      { rewrite FR'. destruct r' as [d|me' to' c1|me' to' k'], KK as [[-> ->]| ->]; cbn [r_sim] in RS; try contradiction; intros a Ha; left; exact Ha. }
      exists (set_ph F (put_susp (f_m F) me (handle A s') s') t Free), top. split.
      + assert (KF : exists c1, r' = RFirst me to c1 /\ k = SwCreate \/ r' = RSwitch me to k).
        { destruct r' as [d|me' to' c1|me' to' k'], KK as [[-> ->]| ->]; cbn [r_sim] in RS; try contradiction.
          - destruct RS as (-> & -> & _). exists c1. auto.
          - destruct RS as (-> & -> & ->). exists s. auto. }
        destruct KF as (c1 & KF). eapply i_done; eauto. rewrite <- (y_reg _ _ _ Y). exact GO.
      + assert (GS : forall t', t' <> t -> forall h, goal (f_ph F t') = Some (fc_ctx h) -> suspended tr h -> h <> me).
        { intros t' _ h _ S ->. destruct (good_hd _ _ _ G) as ((M1 & _) & _).
          apply (proj2 (proj2 (f_susp _ _ (good_facts _ _ (good_tl _ _ _ G)) _ S)) t Ht). auto. }
        assert (FE : forall t' a, t' <> t -> foot A (put_susp (f_m F) me (handle A s') s') (f_ph F t') a -> foot A (f_m F) (f_ph F t') a).
        { intros t' a NE Q. destruct (Nat.lt_ge_cases t' n) as [Ht'|Ht']; [|rewrite (l_idle _ _ _ _ _ _ R t' Ht') in Q; destruct Q].
          pose proof (l_ph _ _ _ _ _ _ R t' Ht') as PH. pose proof (GS t' NE) as GS'.
          destruct (f_ph F t') as [|d h c|[d|me' to' c1|me' to' k'] rest' b' s2]; try exact Q. cbn [ph_ok entry] in PH.
          destruct PH as (_ & _ & (_ & S & _) & _). cbn [foot put_susp m_st] in Q |- *.
          rewrite fc_eqb_ne in Q by (apply GS'; [reflexivity|exact S]). exact Q. }
        constructor; cbn [set_ph wset_ph k_m k_msg k_seen k_ph f_m f_ph put_susp m_lo m_hi m_at m_st m_reg m_mem]; try apply Y.
        * intros h. rewrite HE. destruct (fc_eqb h me); [reflexivity|apply (y_at _ _ _ Y)].
        * intros h. destruct (fc_eqb h me); [|apply (y_st _ _ _ Y)]. eapply agree_sub; [exact OWN|exact AS].
        * intros t'. destruct (Nat.eqb_spec t' t) as [-> |NE]; [exact Logic.I|].
          eapply ph_sim_mach; [apply (y_ph _ _ _ Y)|]. intros a. apply FE. exact NE.
        * intros t' a. destruct (Nat.eqb_spec t' t) as [-> |NE]; [intros []|]. intros Q. apply (y_upd _ _ _ Y). apply FE; assumption.
  Qed.
End Weak.
