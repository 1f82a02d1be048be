(** Machinery for P_LinkStep.v, continued: the ends of the routines; the simulation. *)
From Coq Require Import ZArith List String Lia Bool.
From Verif Require Import ListUtil Fiber FiberSpec LinkHist.
From Verif Require Import Word AsmMachine AsmSym AsmAbi AsmCheck AsmCode AsmCode2 AsmFacts AsmHist P_Asm AsmIl Link P_Link LinkStep LinkStepInv LinkStepInv2.
Import ListNotations.
Open Scope list_scope.
Open Scope Z_scope.

Section Ends.
  Variable A : port.
  Variable L : string -> Z.
  Variable n : nat.
  Hypothesis IN : In A ports.
  Hypothesis LAB : labels_ok A L.
  Local Notation B := (p_abi A).
  Local Notation C := (p_code A).
  Local Notation P := (ab_cpu (p_abi A)).
  Let CHK : check A = true := port_checked A IN.
  Local Notation rel := (rel A L n).
  Local Notation exec := (exec A L n).
  Local Notation ph_ok := (ph_ok A L).

  Lemma own_cov s a : sp A s <= a < sp A s + ab_up B -> own_foot A s a.
  Proof. pose proof (abi_nums A CHK). unfold own_foot, handle, own_len. lia. Qed.

  (** what a suspended call owns is not on the stack of t's context nor on an unused stack *)
  Lemma owned_out tr F N h a c : rel tr F N -> exec tr N -> good n tr -> suspended tr h -> owned A (f_m F) h a ->
    (exists t, (t < n)%nat /\ c = running tr t) \/ untried tr c -> m_lo (f_m F) c <= a < m_hi (f_m F) c -> False.
  Proof.
    intros R X G S O H Ha. pose proof (exec_minv A L n IN LAB _ _ X G) as V.
    pose proof (owned_in A L n IN LAB _ _ _ _ _ R V S O) as Ho. pose proof (has_susp n tr h G S) as HS.
    destruct H as [(t & Ht & ->)|U].
    - refine (stacks_disj A L n _ _ _ _ _ a R V HS (has_run n tr t G Ht) _ Ho Ha). intros E.
      apply (proj2 (proj2 (f_susp _ _ (good_facts _ _ G) _ S)) t Ht). auto.
    - exact (stacks_disj A L n _ _ _ _ _ a R V HS (untried_stack n tr c G U) (untried_susp n tr c h G U S) Ho Ha).
  Qed.

  Lemma made_rel tr F N t d x rest b s : rel tr F N -> exec tr N -> good n tr -> (t < n)%nat ->
    f_ph F t = Inside (RMake d) (Go x :: rest) b s ->
    exists N2, exec tr N2 /\ rel tr (set_ph F (f_m F) t (Between d (m_reg (f_m F) t (ab_mkres B)) s)) N2.
  Proof.
    intros R X G Ht FR. pose proof (exec_minv A L n IN LAB _ _ X G) as V.
    pose proof (l_ph _ _ _ _ _ _ R t Ht) as PH. rewrite FR in PH. cbn [LinkStepInv.ph_ok] in PH.
    destruct PH as (_ & _ & (UT & MS & O1 & O2 & T1 & T2) & HB & _).
    assert (GO : goes_on A L b (m_reg (f_m F) t x) = false).
    { destruct b; [discriminate (HB eq_refl)|reflexivity]. }
    destruct (end_run A L n tr F N t _ x rest b s R Ht FR GO) as (u' & RU & RG & MI & MO & AG).
    pose proof (minv_wf _ _ _ _ _ t V) as W. rewrite FR in AG. change (foot A (f_m F) (Inside (RMake d) (Go x :: rest) b s)) with (foot_make A s) in AG.
    assert (COV : forall a, sp A s <= a < sp A s + ab_up B -> foot_make A s a) by (intros a Ha; left; pose proof (abi_nums A CHK); lia).
    destruct (make_agree A CHK _ _ _ MS AG W COV) as (MS' & TE & _ & SE).
    destruct (C27_make_returns A L _ IN LAB MS') as (c1 & RM & _ & _ & _ & W1).
    assert (RM' : run P L (c_make C) (cpu_at N t) = Goto (m_reg (f_m F) t x) u').
    { unfold rest_run in RU. cbn [rcode rtramp] in RU. unfold cpu_of in RM. rewrite RM in RU |- *. exact RU. }
    assert (c1 = u') as -> by (unfold cpu_of in RM; rewrite RM' in RM; injection RM; auto).
    rewrite FR in MI, MO. change (foot A (f_m F) (Inside (RMake d) (Go x :: rest) b s)) with (foot_make A s) in MI, MO.
    exists (put_code N t u'). split.
    - apply x_code; auto. intros h a S O.
      assert (O' : owned A (f_m F) h a) by (unfold owned in *; rewrite <- (l_at _ _ _ _ _ _ R h S); exact O).
      apply MO. intros [Q|Q].
      + apply (owned_out tr F N h a (running tr t) R X G S O'); [left; eauto|lia].
      + apply (owned_out tr F N h a d R X G S O'); [right; exact UT|lia].
    - assert (KEEP : forall t' a, t' <> t -> foot A (f_m F) (f_ph F t') a -> mm u' a = m_mem N a).
      { intros t' a NE Q. apply MO. intros Q'. apply (feet_disj A L n IN LAB _ _ _ _ _ _ R V G NE Q). rewrite FR. exact Q'. }
      eapply (rel_step A L n tr F N t); try exact R; try exact V; try exact G; auto.
      + intros t' NE. apply set_ph_ne. exact NE.
      + intros H. lia.
      + apply (l_geo _ _ _ _ _ _ R).
      + intros h H. split; [apply (l_at _ _ _ _ _ _ R); exact H|apply (l_st _ _ _ _ _ _ R); exact H].
      + intros t' y NE. cbn. destruct (Nat.eqb_spec t' t); [contradiction|auto].
      + intros t' a NE Q. split; [reflexivity|]. cbn. exact (KEEP t' a NE Q).
      + intros _. rewrite set_ph_eq. cbn [LinkStepInv.ph_ok f_m set_ph put_code m_reg m_mem]. rewrite Nat.eqb_refl.
        split; [exact RG|]. split; [exact UT|]. 
        destruct (end_alone A L n tr F N t _ x rest b s R Ht FR GO) as (uf & RF & AF & _). rewrite FR in AF.
        change (foot A (f_m F) (Inside (RMake d) (Go x :: rest) b s)) with (foot_make A s) in AF.
        assert (RF' : run P L (c_make C) s = Goto (m_reg (f_m F) t x) uf).
        { unfold rest_run in RF. cbn [rcode rtramp] in RF. destruct (run P L (c_make C) s); try discriminate RF. exact RF. }
        exists (m_reg (f_m F) t x), uf. split; [exact MS|]. do 4 (split; [assumption|]). split; [exact RF'|]. split; [apply AF|].
        intros a Ha. assert (FA : foot_make A s a).
        { right. destruct (C27_make_returns A L s IN LAB MS) as (c2 & RM2 & _ & _ & (_ & Y1 & Y2 & _) & _).
          unfold cpu_of in RM2. rewrite RF' in RM2. injection RM2 as _ <-. rewrite (proj1 AF) in Y1, Y2. cbn [cpu_at rg] in Y1, Y2. lia. }
        rewrite MI by exact FA. symmetry. apply (proj2 AF a FA).
      + intros d'. rewrite set_ph_eq. cbn [goal]. intros Q. apply (same_goal A L n tr F N t d' R). rewrite FR. exact Q.
      + intros a. rewrite set_ph_eq. cbn [f_m set_ph put_code m_mem]. intros _ Q2.
        destruct (foot_dec A (f_m F) (f_ph F t) a) as [D|D]; rewrite FR in D.
        * apply MI. exact D.
        * rewrite (MO a D). apply (l_out _ _ _ _ _ _ R). intros t' I. destruct (Nat.eq_dec t' t) as [-> |NE]; [rewrite FR; exact D|exact (Q2 t' NE I)].
  Qed.

  Lemma done_rel tr F N t r x rest b s me to k u' N2 : rel tr F N -> exec tr N ->
    let tr2 := EvSwitch t (running tr t) me to k :: tr in
    good n tr2 -> (t < n)%nat ->
    f_ph F t = Inside r (Go x :: rest) b s -> goal (f_ph F t) = Some (fc_ctx to) ->
    (forall a, own_foot A s a -> foot A (f_m F) (f_ph F t) a) ->
    (forall y, rg u' y = m_reg (f_m F) t y) ->
    (forall a, foot A (f_m F) (f_ph F t) a -> mm u' a = m_mem (f_m F) a) ->
    (forall a, ~ foot A (f_m F) (f_ph F t) a -> mm u' a = m_mem N a) ->
    agree (foot A (f_m F) (f_ph F t)) s (cpu_at N t) ->
    (forall c, m_lo N2 c = m_lo N c /\ m_hi N2 c = m_hi N c) ->
    (forall h, m_at N2 h = if fc_eqb h me then handle A (cpu_at N t) else m_at N h) ->
    (forall h, m_st N2 h = if fc_eqb h me then cpu_at N t else m_st N h) ->
    (forall a, m_mem N2 a = mm u' a) ->
    (forall t' y, m_reg N2 t' y = if Nat.eqb t' t then rg u' y else m_reg N t' y) ->
    rel tr2 (set_ph F (put_susp (f_m F) me (handle A s) s) t Free) N2.
  Proof.
    intros R X tr2 G2 Ht FR GL OWN RG MI MO AG NG NA NS NM NR.
    pose proof (good_tl _ _ _ G2) as G. pose proof (exec_minv A L n IN LAB _ _ X G) as V.
    destruct (good_hd _ _ _ G2) as ((M1 & M2 & M3 & M4 & M5) & _).
    assert (NE_me : forall h, suspended tr h -> h <> me).
    { intros h S ->. apply (proj2 (proj2 (f_susp _ _ (good_facts _ _ G) _ S)) t Ht). auto. }
    eapply (rel_step A L n tr F N t); try exact R; try exact V; try exact G.
    - intros t' NE. apply set_ph_ne. exact NE.
    - intros H. lia.
    - intros c. cbn [set_ph f_m put_susp m_lo m_hi]. destruct (NG c) as [-> ->]. apply (l_geo _ _ _ _ _ _ R).
    - intros h S. cbn [set_ph f_m put_susp m_at m_st]. rewrite NA, NS.
      destruct (fc_eqb h me) eqn:E.
      + split; [apply (handle_agree A _ _ _ AG)|]. eapply agree_sub; [exact OWN|exact AG].
      + apply susp_switch in S as (S & NC & NT). destruct S as [[-> _]|S]; [rewrite fc_eqb_refl in E; discriminate|].
        assert (S' : suspended tr h) by (split; assumption). split; [apply (l_at _ _ _ _ _ _ R); exact S'|apply (l_st _ _ _ _ _ _ R); exact S'].
    - intros t' Ht' NE. unfold tr2. cbn [running]. destruct (Nat.eqb_spec t t'); [congruence|reflexivity].
    - intros c _. cbn. auto.
    - intros t' d Ht' NE GD U. pose proof (untried_run n tr d G U) as UR. destruct U as ((a & HA) & U).
      split; [exists a; right; exact HA|]. intros e [<-|H] S; [|apply U; assumption].
      cbn [involves]. intros [Q|Q]; [exact (UR t Ht Q)|]. apply (l_goal _ _ _ _ _ _ R t t' (fc_ctx to) (not_eq_sym NE) GL). rewrite Q. exact GD.
    - intros t' h Ht' NE GD S. split; [|cbn; rewrite fc_eqb_ne by (apply NE_me; exact S); auto].
      apply susp_switch. split; [right; apply S|]. split; [apply S|]. intros ->.
      exact (l_goal _ _ _ _ _ _ R t t' (fc_ctx to) (not_eq_sym NE) GL GD).
    - intros t' y NE. rewrite NR. cbn. destruct (Nat.eqb_spec t' t); [contradiction|auto].
    - intros t' a NE Q. split; [reflexivity|]. rewrite NM. apply MO. intros Q'.
      exact (feet_disj A L n IN LAB _ _ _ _ _ _ R V G NE Q Q').
    - intros _. rewrite set_ph_eq. cbn [LinkStepInv.ph_ok]. intros y. rewrite NR, Nat.eqb_refl. apply RG.
    - intros d. rewrite set_ph_eq. discriminate.
    - intros a _ Q. rewrite NM. cbn [set_ph f_m put_susp m_mem].
      destruct (foot_dec A (f_m F) (f_ph F t) a) as [D|D]; [apply MI; exact D|].
      rewrite (MO a D). apply (l_out _ _ _ _ _ _ R). intros t' I. destruct (Nat.eq_dec t' t) as [-> |NE]; [exact D|exact (Q t' NE I)].
  Qed.

  Lemma switched_rel tr F N t x rest b s me to k : rel tr F N -> exec tr N ->
    let tr2 := EvSwitch t (running tr t) me to k :: tr in
    good n tr2 -> (t < n)%nat -> f_ph F t = Inside (RSwitch me to k) (Go x :: rest) b s ->
    goes_on A L b (m_reg (f_m F) t x) = false ->
    exists N2, exec tr2 N2 /\ rel tr2 (set_ph F (put_susp (f_m F) me (handle A s) s) t Free) N2.
  Proof.
    intros R X tr2 G2 Ht FR GO. pose proof (good_tl _ _ _ G2) as G. pose proof (exec_minv A L n IN LAB _ _ X G) as V.
    pose proof (l_ph _ _ _ _ _ _ R t Ht) as PH. rewrite FR in PH. cbn [LinkStepInv.ph_ok] in PH.
    destruct PH as (_ & _ & (K & S & HO & CS & AT & OS) & _).
    destruct (end_run A L n tr F N t _ x rest b s R Ht FR GO) as (u' & RU & RG & MI & MO & AG).
    assert (OWN : forall a, own_foot A s a -> foot A (f_m F) (f_ph F t) a) by (rewrite FR; intros a Ha; left; exact Ha).
    destruct (call_agree A L CHK _ _ _ CS AG (minv_wf _ _ _ _ _ t V) ltac:(intros a Ha; apply OWN, own_cov, Ha)) as (CS' & AT' & _ & HI' & _).
    exists (put_susp (put_cpu N t u') me (handle A (cpu_at N t)) (cpu_at N t)). split.
    - eapply x_switch; auto.
      + rewrite AT', AT. symmetry. apply (l_at _ _ _ _ _ _ R). exact S.
      + destruct (l_geo _ _ _ _ _ _ R (running tr t)) as [-> ->]. unfold on_stack in *. rewrite HI', (handle_agree A _ _ _ AG), (sp_agree A _ _ _ AG). exact OS.
      + rewrite switch_rest. exact RU.
    - eapply (done_rel tr F N t _ x rest b s me to k u'); eauto.
      + rewrite FR. reflexivity.
      + intros t' y. cbn. destruct (Nat.eqb t' t); reflexivity.
  Qed.

  Lemma created_rel tr F N t x rest b s me to s00 : rel tr F N -> exec tr N ->
    let tr2 := EvSwitch t (running tr t) me to SwCreate :: tr in
    good n tr2 -> (t < n)%nat -> f_ph F t = Inside (RFirst me to s00) (Go x :: rest) b s ->
    goes_on A L b (m_reg (f_m F) t x) = false ->
    exists N2, exec tr2 N2 /\ rel tr2 (set_ph F (put_susp (f_m F) me (handle A s) s) t Free) N2.
  Proof.
    intros R X tr2 G2 Ht FR GO. pose proof (good_tl _ _ _ G2) as G. pose proof (exec_minv A L n IN LAB _ _ X G) as V.
    pose proof (l_ph _ _ _ _ _ _ R t Ht) as PH. rewrite FR in PH. cbn [LinkStepInv.ph_ok] in PH.
    destruct PH as (_ & HF & (UT & CS & OS & (pc & s0 & Q1 & Q2 & Q3 & Q4 & Q5 & Q6 & Q7 & Q8)) & _).
    destruct (end_run A L n tr F N t _ x rest b s R Ht FR GO) as (u' & RU & RG & MI & MO & AG).
    assert (OWN : forall a, own_foot A s a -> foot A (f_m F) (f_ph F t) a) by (rewrite FR; intros a Ha; left; exact Ha).
    pose proof (minv_wf _ _ _ _ _ t V) as W.
    destruct (call_agree A L CHK _ _ _ CS AG W ltac:(intros a Ha; apply OWN, own_cov, Ha)) as (CS' & AT' & _ & HI' & _).
    set (d := fc_ctx to) in *.
    (* back to the call of make *)
    set (fm := foot A (f_m F) (Inside (RMake d) [] false s00)). change (foot_make A s00) with fm in *.
    set (g := St (rg s00) (fun a => if foot_dec A (f_m F) (Inside (RMake d) [] false s00) a then mm s00 a else m_mem N a)).
    assert (GI : forall a, fm a -> mm g a = mm s00 a).
    { intros a Ha. cbn [g mm]. destruct (foot_dec _ _ _ a) as [|D]; [reflexivity|]. contradiction. }
    assert (GOU : forall a, ~ fm a -> mm g a = m_mem N a).
    { intros a Ha. cbn [g mm]. destruct (foot_dec _ _ _ a) as [D|]; [contradiction|reflexivity]. }
    assert (OUT : forall h a, suspended tr h -> owned A N h a -> ~ fm a).
    { intros h a S O. assert (O' : owned A (f_m F) h a) by (unfold owned in *; rewrite <- (l_at _ _ _ _ _ _ R h S); exact O).
      intros [Q|Q].
      - apply (owned_out tr F N h a (running tr t) R X G S O'); [left; eauto|lia].
      - apply (owned_out tr F N h a d R X G S O'); [right; exact UT|lia]. }
    set (N1 := put_code N t g).
    assert (W00 : wf P s00) by apply Q1.
    assert (X1 : exec tr N1).
    { apply x_code; auto.
      - split; [|apply W00]. intros a. cbn [g mm]. destruct (foot_dec _ _ _ a); [apply W00|apply (v_byte _ _ _ _ _ V)].
      - intros h a S O. apply GOU. exact (OUT h a S O). }
    pose proof (exec_minv A L n IN LAB _ _ X1 G) as V1.
    assert (AG1 : agree fm s00 (cpu_at N1 t)).
    { split; cbn [cpu_at N1 put_code m_reg m_mem rg mm]; [intros y; rewrite Nat.eqb_refl; reflexivity|]. intros a Ha. symmetry. apply GI. exact Ha. }
    assert (COV : forall a, sp A s00 <= a < sp A s00 + ab_up B -> fm a) by (intros a Ha; left; pose proof (abi_nums A CHK); lia).
    destruct (make_agree A CHK _ _ _ Q1 AG1 (minv_wf _ _ _ _ _ t V1) COV) as (MS' & TE & _ & SE).
    pose proof (rest_agree A L _ _ _ _ _ (make_accs A L LAB CHK s00 Q1) AG1) as RA. unfold rest_run in RA. rewrite Q6 in RA. cbn [goes_on andb] in RA.
    destruct RA as (s0' & RA1 & RA2 & _ & RA4).
    assert (RA1' : run P L (c_make C) (cpu_at N1 t) = Goto pc s0').
    { destruct (run P L (c_make C) (cpu_at N1 t)) as [pc2 t2| |]; try discriminate RA1. cbn [goes_on andb] in RA1. exact RA1. }
    assert (DB : mk_top A s00 - c_need C <= arg_to A s /\ arg_to A s + c_size C <= mk_top A s00).
    { destruct (C27_make_returns A L s00 IN LAB Q1) as (c1 & RM & _ & _ & (_ & Y1 & Y2 & _) & _).
      unfold cpu_of in RM. rewrite Q6 in RM. injection RM as _ <-. rewrite Q7 in *. auto. }
    destruct (l_geo _ _ _ _ _ _ R (running tr t)) as [E1 E2], (l_geo _ _ _ _ _ _ R d) as [E3 E4].
    exists (put_susp (put_cpu (soiled N1 s0' (cpu_at N t)) t u') me (handle A (cpu_at N t)) (cpu_at N t)). split.
    - eapply x_create with (pc := pc) (s0 := s0'); [exact X1|exact Ht|exact MS'| | | | |exact RA1'|exact W| | |exact CS'| | |].
      + rewrite SE. cbn [N1 put_code m_lo]. lia.
      + rewrite SE. cbn [N1 put_code m_hi]. lia.
      + rewrite TE. cbn [N1 put_code m_lo]. fold d. lia.
      + rewrite TE. cbn [N1 put_code m_hi]. fold d. lia.
      + intros h a S O. cbn [cpu_at mm]. assert (NF : ~ fm a) by exact (OUT h a S O). rewrite (RA4 a NF).
        cbn [cpu_at mm N1 put_code m_mem]. symmetry. apply GOU. exact NF.
      + rewrite <- (proj1 RA2 (ab_mkres B)), Q7. intros a Ha. rewrite <- (proj2 RA2 a); [|right; lia].
        rewrite <- Q8 by exact Ha. cbn [cpu_at mm]. apply HF. right. exact Ha.
      + rewrite AT', <- (proj1 RA2 (ab_mkres B)). auto.
      + cbn [N1 put_code m_lo m_hi]. rewrite E1, E2. unfold on_stack in *. rewrite HI', (handle_agree A _ _ _ AG), (sp_agree A _ _ _ AG). exact OS.
      + rewrite switch_rest. exact RU.
    - eapply (done_rel tr F N t _ x rest b s me to SwCreate u'); eauto.
      + rewrite FR. reflexivity.
      + intros t' y. cbn. destruct (Nat.eqb t' t); reflexivity.
  Qed.

  (** the simulation *)
  Theorem sim_rel tr F : fexec A L n tr F -> good n tr -> exists N, exec tr N /\ rel tr F N.
  Proof.
    induction 1 as [M W Bd D|tr F t s X IH Ht NI W U1 U2|tr F e X IH Q|tr F c a lo hi X IH B0 B1 D
      |tr F t d X IH Ht FR s c UT UC MS O1 O2 T1 T2|tr F t me to h c0 X IH Ht FR s c CS AT OS
      |tr F t me to k X IH Ht FR K s c S UC HO CS AT OS|tr F t r i rest b s v X IH Ht FR E
      |tr F t r x rest b s X IH Ht FR GO|tr F t d x rest b s X IH Ht FR
      |tr F t r me to k c0 x rest b s X IH Ht FR GO KK]; intros G.
    - exists M. split; [apply x_start; assumption|apply start_rel].
    - destruct (IH G) as (N & XN & R). eapply code_rel; eauto.
    - destruct (IH (good_tl _ _ _ G)) as (N & XN & R). exists N. eapply event_rel; eauto.
    - destruct (IH (good_tl _ _ _ G)) as (N & XN & R). exists (put_stack N c lo hi). eapply alloc_rel; eauto.
    - destruct (IH G) as (N & XN & R). exists N. split; [exact XN|]. apply make_rel; auto.
    - destruct (IH G) as (N & XN & R). exists N. split; [exact XN|]. eapply first_rel; eauto.
    - destruct (IH G) as (N & XN & R). exists N. split; [exact XN|]. apply switch_rel; auto.
    - destruct (IH G) as (N & XN & R). exists N. split; [exact XN|]. eapply step_rel; eauto.
    - destruct (IH G) as (N & XN & R). exists N. split; [exact XN|]. eapply tramp_rel; eauto.
    - destruct (IH G) as (N & XN & R). eapply made_rel; eauto.
    - destruct (IH (good_tl _ _ _ G)) as (N & XN & R). destruct KK as [[-> ->]| ->]; [eapply created_rel; eauto|eapply switched_rel; eauto].
  Qed.
End Ends.
