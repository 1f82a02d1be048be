(** Machinery for P_LinkStep.v: the machine of LinkStep.v simulates that of Link.v. *)
From Coq Require Import ZArith List String Lia Bool.
From Verif Require Import ListUtil Fiber FiberSpec LinkHist.
From Verif Require Import Word AsmMachine AsmSym AsmAbi AsmCheck AsmCode AsmCode2 AsmFacts AsmHist P_Asm AsmIl Link P_Link LinkStep.
Import ListNotations.
Open Scope list_scope.
Open Scope Z_scope.

Section Agree.
  Variable A : port.
  Variable L : string -> Z.
  Hypothesis LAB : labels_ok A L.
  Hypothesis CHK : check A = true.
  Local Notation B := (p_abi A).
  Local Notation C := (p_code A).
  Local Notation P := (ab_cpu (p_abi A)).
  Variable X : Z -> Prop.

  Lemma pl_agree p s s' : in_call A s -> place_ok A p = true -> agree X s s' ->
    (forall a, sp A s <= a < sp A s + ab_up B -> X a) -> pl P s' p = pl P s p.
  Proof.
    intros (W & S0 & S1) O [HR HM] COV. destruct p as [r|b o k]; cbn [pl place_ok] in *; [auto|].
    do 3 (let H := fresh "H" in apply andb_true_iff in O as [O H]). apply String.eqb_eq in O. subst b.
    apply Z.leb_le in H1, H0. rewrite <- HR. symmetry. apply load_ext. intros a Ha. apply HM, COV.
    unfold sp in *. assert (cw : 0 < cwb P) by (apply (abi_nums A CHK)). apply Z.eqb_eq in H.
    rewrite Z.mod_small in Ha by lia. lia.
  Qed.

  Lemma hidden_agree s s' : in_call A s -> agree X s s' ->
    (forall a, sp A s <= a < sp A s + ab_up B -> X a) -> hidden A s' = hidden A s.
  Proof.
    intros IC AG COV. unfold hidden. destruct (ab_hidden B) as [p|] eqn:E; [|reflexivity]. cbn [option_map].
    rewrite (pl_agree p s s' IC (p_hid A CHK p E) AG COV). reflexivity.
  Qed.

  Lemma sp_agree s s' : agree X s s' -> sp A s' = sp A s.
  Proof. intros [HR _]. unfold sp. rewrite HR. reflexivity. Qed.
  Lemma handle_agree s s' : agree X s s' -> handle A s' = handle A s.
  Proof. intros AG. unfold handle. rewrite (sp_agree s s' AG). reflexivity. Qed.

  Lemma call_agree s s' : call_ok A L s -> agree X s s' -> wf P s' ->
    (forall a, sp A s <= a < sp A s + ab_up B -> X a) ->
    call_ok A L s' /\ arg_to A s' = arg_to A s /\ arg_data A s' = arg_data A s /\ hidden A s' = hidden A s /\
    arg_fn A s' = arg_fn A s /\ ret_addr A s' = ret_addr A s.
  Proof.
    intros CS AG W COV. pose proof (call_in A L CHK s CS) as IC. pose proof (sp_agree s s' AG) as SP.
    assert (Q : forall p, place_ok A p = true -> pl P s' p = pl P s p) by (intros p O; apply pl_agree; assumption).
    assert (RA : ret_addr A s' = ret_addr A s) by (apply Q, (p_ret A CHK)).
    split; [|split; [|split; [|split; [|split]]]].
    - destruct CS as (_ & C1 & C2 & C3 & C4). unfold call_ok. rewrite SP, RA. auto.
    - apply Q, (p_to A CHK).
    - apply Q, (p_data A CHK).
    - apply hidden_agree; assumption.
    - apply Q, (p_fn A CHK).
    - exact RA.
  Qed.

  Lemma make_agree s s' : make_ok A s -> agree X s s' -> wf P s' ->
    (forall a, sp A s <= a < sp A s + ab_up B -> X a) ->
    make_ok A s' /\ mk_top A s' = mk_top A s /\ mk_fn A s' = mk_fn A s /\ sp A s' = sp A s.
  Proof.
    intros MS AG W COV. pose proof (make_in A CHK s MS) as IC. pose proof (sp_agree s s' AG) as SP.
    assert (Q : forall p, place_ok A p = true -> pl P s' p = pl P s p) by (intros p O; apply pl_agree; assumption).
    assert (TA : mk_top A s' = mk_top A s) by (apply Q, (p_mksp A CHK)).
    split; [|split; [exact TA|split; [apply Q, (p_mkfn A CHK)|exact SP]]].
    destruct MS as (_ & C1 & C2 & C3 & C4). unfold make_ok. rewrite SP, TA. auto.
  Qed.
End Agree.

Section Inv.
  Variable A : port.
  Variable L : string -> Z.
  Variable n : nat.
  Hypothesis IN : In A ports.
  Hypothesis LAB : labels_ok A L.
  Local Notation B := (p_abi A).
  Local Notation C := (p_code A).
  Local Notation P := (ab_cpu (p_abi A)).
  Let CHK : check A = true := port_checked A IN.

  (** make_fcontext was called on the stack of t's context for the stack of d and has returned h; in m
      the context data is still as it left it *)
  Definition made (tr : list event) (M : mach) (t d : nat) (h : Z) (s00 : mst) (m : Z -> Z) : Prop :=
    exists pc s0, make_ok A s00 /\
      m_lo M (running tr t) <= sp A s00 - c_mkscr C /\ sp A s00 + ab_up B <= m_hi M (running tr t) /\
      m_lo M d <= mk_top A s00 - c_need C /\ mk_top A s00 <= m_hi M d /\
      run P L (c_make C) s00 = Goto pc s0 /\ rg s0 (ab_mkres B) = h /\
      forall a, h <= a < h + c_size C -> m a = mm s0 a.

  Definition entry (tr : list event) (M : mach) (t : nat) (r : routine) (s : mst) : Prop :=
    match r with
    | RMake d => untried tr d /\ make_ok A s /\
        m_lo M (running tr t) <= sp A s - c_mkscr C /\ sp A s + ab_up B <= m_hi M (running tr t) /\
        m_lo M d <= mk_top A s - c_need C /\ mk_top A s <= m_hi M d
    | RFirst me to s00 => untried tr (fc_ctx to) /\ call_ok A L s /\
        on_stack A s (m_lo M (running tr t)) (m_hi M (running tr t)) /\ made tr M t (fc_ctx to) (arg_to A s) s00 (mm s)
    | RSwitch me to k => k <> SwCreate /\ suspended tr to /\ (how_of k = Ontop -> has_ontop A) /\ call_ok A L s /\
        arg_to A s = m_at M to /\ on_stack A s (m_lo M (running tr t)) (m_hi M (running tr t))
    end.

  Definition ph_ok (tr : list event) (M N : mach) (t : nat) (p : phase) : Prop :=
    match p with
    | Free => forall x, m_reg N t x = m_reg M t x
    | Between d h s00 => (forall x, m_reg N t x = m_reg M t x) /\ untried tr d /\ made tr M t d h s00 (m_mem N)
    | Inside r rest b s =>
        (forall x, m_reg N t x = rg s x) /\ (forall a, foot A M p a -> m_mem N a = mm s a) /\
        entry tr M t r s /\ (b = true -> rtramp r = true) /\
        accs A L (foot A M p) (rcode A r) (rtramp r) s /\
        exists pc uf u, rest_run A L (rcode A r) (rtramp r) s = Goto pc uf /\ rest_run A L rest b u = Goto pc uf /\
          accs A L (foot A M p) rest b u /\ agree (foot A M p) u (cpu_at M t) /\ forall a, ~ foot A M p a -> mm u a = mm s a
    end.

  Definition home (tr : list event) (t : nat) (p : phase) (c : nat) : Prop := c = running tr t \/ goal p = Some c.

  Record rel (tr : list event) (F : fine) (N : mach) : Prop := {
    l_geo : forall c, m_lo N c = m_lo (f_m F) c /\ m_hi N c = m_hi (f_m F) c;
    l_at : forall h, suspended tr h -> m_at N h = m_at (f_m F) h;
    l_st : forall h, suspended tr h -> agree (own_foot A (m_st (f_m F) h)) (m_st (f_m F) h) (m_st N h);
    l_idle : forall t, (n <= t)%nat -> f_ph F t = Free;
    l_ph : forall t, (t < n)%nat -> ph_ok tr (f_m F) N t (f_ph F t);
    l_goal : forall t t' d, t <> t' -> goal (f_ph F t) = Some d -> goal (f_ph F t') <> Some d;
    l_out : forall a, (forall t, inside (f_ph F t) -> ~ foot A (f_m F) (f_ph F t) a) -> m_mem N a = m_mem (f_m F) a
  }.

  Lemma made_frame tr tr2 M M2 t d h s00 m m2 : made tr M t d h s00 m -> running tr2 t = running tr t ->
    (forall c, c = running tr t \/ c = d -> m_lo M2 c = m_lo M c /\ m_hi M2 c = m_hi M c) ->
    (forall a, h <= a < h + c_size C -> m2 a = m a) -> made tr2 M2 t d h s00 m2.
  Proof.
    intros (pc & s0 & H1 & H2 & H3 & H4 & H5 & H6 & H7 & H8) RT GE MM. exists pc, s0. rewrite RT.
    destruct (GE (running tr t) (or_introl eq_refl)) as [-> ->], (GE d (or_intror eq_refl)) as [-> ->].
    do 7 (split; [assumption|]). intros a Ha. rewrite MM by exact Ha. auto.
  Qed.

  Lemma ph_frame tr tr2 M M2 N N2 t p : ph_ok tr M N t p ->
    running tr2 t = running tr t ->
    (forall c, home tr t p c -> m_lo M2 c = m_lo M c /\ m_hi M2 c = m_hi M c) ->
    (forall d, goal p = Some d -> untried tr d -> untried tr2 d) ->
    (forall h, goal p = Some (fc_ctx h) -> suspended tr h -> suspended tr2 h /\ m_at M2 h = m_at M h /\ m_st M2 h = m_st M h) ->
    (forall x, m_reg M2 t x = m_reg M t x) -> (forall x, m_reg N2 t x = m_reg N t x) ->
    (forall a, foot A M p a -> m_mem M2 a = m_mem M a /\ m_mem N2 a = m_mem N a) ->
    ph_ok tr2 M2 N2 t p /\ forall a, foot A M2 p a <-> foot A M p a.
  Proof.
    intros PH RT GE UT SU RM RN MM.
    destruct p as [|d h c0|r rest b s]; cbn [ph_ok] in *.
    - split; [intros x; rewrite RM, RN; auto|reflexivity].
    - destruct PH as (H1 & H2 & H3). split; [|reflexivity]. split; [intros x; rewrite RM, RN; auto|]. split; [apply UT; auto|].
      eapply made_frame; [exact H3|exact RT| |].
      + intros c Hc. apply GE. destruct Hc as [-> | ->]; [left; reflexivity|right; reflexivity].
      + intros a Ha. apply (MM a Ha).
    - destruct PH as (H1 & H2 & H3 & H4 & H5 & pc & uf & u & H6 & H7 & H8 & H9 & H10).
      assert (FT : foot A M2 (Inside r rest b s) = foot A M (Inside r rest b s)).
      { destruct r as [d|me to c0|me to k]; try reflexivity. unfold foot. destruct H3 as (_ & S3 & _).
        rewrite (proj2 (proj2 (SU to eq_refl S3))). reflexivity. }
      rewrite FT. split; [|reflexivity]. split; [intros x; rewrite RN; auto|].
      split; [intros a Ha; rewrite (proj2 (MM a Ha)); auto|]. split; [|split; [exact H4|split; [exact H5|exists pc, uf, u; do 3 (split; [assumption|]); split; [|exact H10]]]].
      + destruct r as [d|me to c0|me to k]; cbn [entry] in *.
        * rewrite RT. destruct (GE (running tr t) (or_introl eq_refl)) as [-> ->], (GE d (or_intror eq_refl)) as [-> ->].
          destruct H3 as (Q1 & Q2). split; [apply UT; [reflexivity|exact Q1]|exact Q2].
        * destruct H3 as (Q1 & Q2 & Q3 & Q4). split; [apply UT; [reflexivity|exact Q1]|]. split; [exact Q2|]. rewrite RT.
          destruct (GE (running tr t) (or_introl eq_refl)) as [-> ->]. split; [exact Q3|].
          eapply made_frame; [exact Q4|exact RT| |reflexivity]. intros c Hc. apply GE. destruct Hc as [-> | ->]; [left; reflexivity|right; reflexivity].
        * destruct H3 as (Q1 & Q2 & Q3 & Q4 & Q5 & Q6). destruct (SU to eq_refl Q2) as (S1 & S2 & _). rewrite RT, S2.
          destruct (GE (running tr t) (or_introl eq_refl)) as [-> ->]. auto 8.
      + eapply agree_trans; [exact H9|]. split; cbn; [auto|]. intros a Ha. symmetry. apply (MM a Ha).
  Qed.

  (** where the footprints are *)
  Lemma untried_run tr d : good n tr -> untried tr d -> forall t, (t < n)%nat -> running tr t <> d.
  Proof.
    intros G ((a & HA) & U) t Ht E.
    assert (ND : (n <= d)%nat).
    { destruct G as (_ & _ & _ & AR). apply in_split in HA as (l1 & l2 & EQ). exact (AR _ _ _ EQ). }
    assert (Z : forall tr', incl tr' tr -> running tr' t <> d).
    { induction tr' as [|e tr' IH]; intros I; cbn [running]; [lia|].
      assert (IH' := IH (fun x Hx => I x (or_intror Hx))). destruct e; try exact IH'.
      destruct (Nat.eqb_spec t0 t); [|exact IH']. intros Q. apply (U _ (I _ (or_introl eq_refl)) eq_refl). right. exact Q. }
    exact (Z tr (incl_refl _) E).
  Qed.
  Lemma untried_susp tr d h : good n tr -> untried tr d -> suspended tr h -> fc_ctx h <> d.
  Proof.
    intros G (_ & U) S E. destruct (created_from _ _ _ G (proj1 S)) as (t & to & k & H & _).
    apply (U _ H eq_refl). left. exact E.
  Qed.
  Lemma untried_stack tr d : good n tr -> untried tr d -> has_stack n tr d.
  Proof.
    intros G (HA & U). split; [right; exact HA|]. intros X. apply (f_freed _ _ (good_facts _ _ G)) in X.
    destruct X as (t & me & to & H). apply (U _ H eq_refl). left. reflexivity.
  Qed.

  (** the context of a goal has a stack and no thread executes it *)
  Lemma goal_ctx tr M N t p d : good n tr -> ph_ok tr M N t p -> goal p = Some d ->
    has_stack n tr d /\ forall t', (t' < n)%nat -> running tr t' <> d.
  Proof.
    intros G PH E.
    assert (U : untried tr d \/ exists h, suspended tr h /\ fc_ctx h = d).
    { destruct p as [|d' h c0|r rest b s]; [discriminate| |]; cbn [ph_ok goal] in *.
      - injection E as <-. left. apply PH.
      - destruct PH as (_ & _ & EN & _). destruct r as [d'|me to c0|me to k]; injection E as <-; cbn [entry] in EN.
        + left. apply EN.
        + left. apply EN.
        + right. exists to. split; [apply EN|reflexivity]. }
    destruct U as [U|(h & S & <-)].
    - split; [apply untried_stack; assumption|]. intros t' Ht. apply untried_run; assumption.
    - split; [apply has_susp; assumption|]. intros t' Ht. apply (f_susp _ _ (good_facts _ _ G)); assumption.
  Qed.

  Lemma made_data tr M t d h s00 m : made tr M t d h s00 m -> m_lo M d <= h /\ h + c_size C <= m_hi M d.
  Proof.
    intros (pc & s0 & H1 & H2 & H3 & H4 & H5 & H6 & H7 & H8).
    destruct (C27_make_returns A L s00 IN LAB H1) as (c1 & RM & _ & _ & (_ & X1 & X2 & _) & _).
    unfold cpu_of in RM. rewrite H6 in RM. injection RM as _ <-. rewrite H7 in *. lia.
  Qed.

  (** the state recorded for a suspension in both machines *)
  Lemma st_agree tr F N h : rel tr F N -> minv A L n tr N -> suspended tr h ->
    call_ok A L (m_st N h) /\ hidden A (m_st (f_m F) h) = hidden A (m_st N h) /\ handle A (m_st (f_m F) h) = handle A (m_st N h) /\
    m_at (f_m F) h = handle A (m_st N h) /\ holds A L (m_mem N) (m_at (f_m F) h) (m_st N h) /\
    on_stack A (m_st N h) (m_lo (f_m F) (fc_ctx h)) (m_hi (f_m F) (fc_ctx h)).
  Proof.
    intros R V S. destruct (v_ctx _ _ _ _ _ V _ S) as (CX & X0 & X1 & OS & HH & LIVE). cbn [cxof x_lo x_hi x_h x_o x_w] in *.
    pose proof (context_facts A L LAB CHK _ _ _ CX) as (CS & HD & HL).
    pose proof (l_st _ _ _ R _ S) as AG. apply agree_sym in AG.
    rewrite <- (l_at _ _ _ R h S). rewrite <- (proj1 (l_geo _ _ _ R (fc_ctx h))), <- (proj2 (l_geo _ _ _ R (fc_ctx h))).
    split; [exact CS|]. split; [|split; [|split; [exact HH|split; [exact HL|exact OS]]]].
    - apply (hidden_agree A CHK _ _ _ (call_in A L CHK _ CS) AG).
      intros a Ha. unfold own_foot. rewrite (handle_agree A _ _ _ AG).
      pose proof (abi_nums A CHK). unfold handle, own_len. lia.
    - apply (handle_agree A _ _ _ AG).
  Qed.

  Lemma owned_in tr F N h a : rel tr F N -> minv A L n tr N -> suspended tr h -> owned A (f_m F) h a ->
    m_lo (f_m F) (fc_ctx h) <= a < m_hi (f_m F) (fc_ctx h).
  Proof.
    intros R V S O. destruct (st_agree _ _ _ _ R V S) as (_ & _ & _ & HA & _ & (O1 & O2 & _)).
    unfold owned in O. rewrite HA in O. unfold own_len, handle in *. lia.
  Qed.

  Lemma foot_home tr F N t a : rel tr F N -> minv A L n tr N -> good n tr -> (t < n)%nat -> foot A (f_m F) (f_ph F t) a ->
    exists c, home tr t (f_ph F t) c /\ m_lo (f_m F) c <= a < m_hi (f_m F) c.
  Proof.
    intros R V G Ht FT. pose proof (l_ph _ _ _ R t Ht) as PH. pose proof (abi_nums A CHK) as NU.
    assert (OWN : forall s lo hi, on_stack A s lo hi -> own_foot A s a -> lo <= a < hi).
    { intros s lo hi (O1 & O2 & _) O. unfold own_foot, own_len, handle in *. lia. }
    destruct (f_ph F t) as [|d h c0|r rest b s]; cbn [foot ph_ok] in *; [contradiction| |].
    - exists d. split; [right; reflexivity|]. destruct PH as (_ & _ & MD). apply made_data in MD. lia.
    - destruct PH as (_ & _ & EN & _). destruct r as [d|me to c0|me to k]; cbn [entry] in EN.
      + destruct EN as (_ & _ & E1 & E2 & E3 & E4). destruct FT as [FT|FT].
        * exists (running tr t). split; [left; reflexivity|lia].
        * exists d. split; [right; reflexivity|lia].
      + destruct EN as (_ & _ & OS & MD). destruct FT as [FT|FT].
        * exists (running tr t). split; [left; reflexivity|]. eapply OWN; eauto.
        * exists (fc_ctx to). split; [right; reflexivity|]. apply made_data in MD. lia.
      + destruct EN as (_ & S & _ & _ & AT & OS).
        destruct (st_agree _ _ _ _ R V S) as (_ & HI & _ & HA & _ & OT).
        destruct FT as [FT|[FT|FT]].
        * exists (running tr t). split; [left; reflexivity|]. eapply OWN; eauto.
        * exists (fc_ctx to). split; [right; reflexivity|]. eapply owned_in; eauto. unfold owned. rewrite <- AT. exact FT.
        * exists (fc_ctx to). split; [right; reflexivity|]. rewrite HI in FT. destruct OT as (_ & _ & O3).
          destruct (hidden A (m_st N to)) as [H|]; [|contradiction]. lia.
  Qed.

  Lemma home_stack tr F N t c : rel tr F N -> good n tr -> (t < n)%nat -> home tr t (f_ph F t) c -> has_stack n tr c.
  Proof.
    intros R G Ht [-> |E]; [apply has_run; assumption|]. apply (goal_ctx _ _ _ _ _ _ G (l_ph _ _ _ R t Ht) E).
  Qed.

  Lemma home_ne tr F N t t' c c' : rel tr F N -> good n tr -> (t < n)%nat -> (t' < n)%nat -> t <> t' ->
    home tr t (f_ph F t) c -> home tr t' (f_ph F t') c' -> c <> c'.
  Proof.
    intros R G Ht Ht' NE H H' <-. destruct H as [-> |E], H' as [E'|E'].
    - apply NE. apply (f_inj _ _ (good_facts _ _ G)); auto.
    - apply (proj2 (goal_ctx _ _ _ _ _ _ G (l_ph _ _ _ R t' Ht') E') t Ht). reflexivity.
    - subst c. apply (proj2 (goal_ctx _ _ _ _ _ _ G (l_ph _ _ _ R t Ht) E) t' Ht'). reflexivity.
    - exact (l_goal _ _ _ R t t' c NE E E').
  Qed.

  Lemma stacks_disj tr F N c d a : rel tr F N -> minv A L n tr N -> has_stack n tr c -> has_stack n tr d -> c <> d ->
    m_lo (f_m F) c <= a < m_hi (f_m F) c -> m_lo (f_m F) d <= a < m_hi (f_m F) d -> False.
  Proof.
    intros R V HC HD NE H1 H2. pose proof (v_dis _ _ _ _ _ V _ _ HC HD NE) as D. unfold sdisj in D.
    destruct (l_geo _ _ _ R c) as [E1 E2], (l_geo _ _ _ R d) as [E3 E4]. lia.
  Qed.

  (** footprints of different threads are disjoint *)
  Lemma feet_disj tr F N t t' a : rel tr F N -> minv A L n tr N -> good n tr -> t <> t' ->
    foot A (f_m F) (f_ph F t) a -> foot A (f_m F) (f_ph F t') a -> False.
  Proof.
    intros R V G NE H H'.
    assert (LT : forall u, foot A (f_m F) (f_ph F u) a -> (u < n)%nat).
    { intros u Q. destruct (Nat.lt_ge_cases u n) as [|W]; [assumption|]. rewrite (l_idle _ _ _ R u W) in Q. contradiction. }
    destruct (foot_home _ _ _ _ _ R V G (LT _ H) H) as (c & C1 & C2), (foot_home _ _ _ _ _ R V G (LT _ H') H') as (c' & C1' & C2').
    eapply stacks_disj; [exact R|exact V| | |eapply home_ne; [exact R|exact G|exact (LT _ H)|exact (LT _ H')|exact NE|exact C1|exact C1']|exact C2|exact C2'].
    - exact (home_stack _ _ _ _ _ R G (LT _ H) C1).
    - exact (home_stack _ _ _ _ _ R G (LT _ H') C1').
  Qed.

  Lemma foot_dec M p a : {foot A M p a} + {~ foot A M p a}.
  Proof.
    assert (R : forall x y, {x <= a < y} + {~ (x <= a < y)}).
    { intros x y. destruct (Z_le_dec x a), (Z_lt_dec a y); [left; lia|right; lia|right; lia|right; lia]. }
    assert (O : forall P Q : Prop, {P} + {~ P} -> {Q} + {~ Q} -> {P \/ Q} + {~ (P \/ Q)}) by (intros P0 Q [|] [|]; tauto).
    destruct p as [|d h c0|[d|me to c0|me to k] rest b s]; cbn [foot]; unfold foot_make, foot_new, foot_susp, own_foot.
    - right. auto.
    - apply R.
    - apply O; apply R.
    - apply O; apply R.
    - apply O; [apply R|]. apply O; [apply R|]. destruct (hidden A (m_st M to)); [apply R|right; auto].
  Qed.

  Lemma rel_step tr F N t tr2 F2 N2 : rel tr F N -> minv A L n tr N -> good n tr ->
    (forall t', t' <> t -> f_ph F2 t' = f_ph F t') ->
    ((n <= t)%nat -> f_ph F2 t = Free) ->
    (forall c, m_lo N2 c = m_lo (f_m F2) c /\ m_hi N2 c = m_hi (f_m F2) c) ->
    (forall h, suspended tr2 h -> m_at N2 h = m_at (f_m F2) h /\
        agree (own_foot A (m_st (f_m F2) h)) (m_st (f_m F2) h) (m_st N2 h)) ->
    (forall t', (t' < n)%nat -> t' <> t -> running tr2 t' = running tr t') ->
    (forall c, has_stack n tr c -> m_lo (f_m F2) c = m_lo (f_m F) c /\ m_hi (f_m F2) c = m_hi (f_m F) c) ->
    (forall t' d, (t' < n)%nat -> t' <> t -> goal (f_ph F t') = Some d -> untried tr d -> untried tr2 d) ->
    (forall t' h, (t' < n)%nat -> t' <> t -> goal (f_ph F t') = Some (fc_ctx h) -> suspended tr h ->
       suspended tr2 h /\ m_at (f_m F2) h = m_at (f_m F) h /\ m_st (f_m F2) h = m_st (f_m F) h) ->
    (forall t' x, t' <> t -> m_reg (f_m F2) t' x = m_reg (f_m F) t' x /\ m_reg N2 t' x = m_reg N t' x) ->
    (forall t' a, t' <> t -> foot A (f_m F) (f_ph F t') a -> m_mem (f_m F2) a = m_mem (f_m F) a /\ m_mem N2 a = m_mem N a) ->
    ((t < n)%nat -> ph_ok tr2 (f_m F2) N2 t (f_ph F2 t)) ->
    (forall d, goal (f_ph F2 t) = Some d -> unclaimed F t d) ->
    (forall a, (inside (f_ph F2 t) -> ~ foot A (f_m F2) (f_ph F2 t) a) ->
       (forall t', t' <> t -> inside (f_ph F t') -> ~ foot A (f_m F) (f_ph F t') a) -> m_mem N2 a = m_mem (f_m F2) a) ->
    rel tr2 F2 N2.
  Proof.
    intros R V G OTH IDL GEO ST RUN GE UT SU RG MM PHT GO OUT.
    assert (FR : forall t', (t' < n)%nat -> t' <> t ->
       ph_ok tr2 (f_m F2) N2 t' (f_ph F t') /\ forall a, foot A (f_m F2) (f_ph F t') a <-> foot A (f_m F) (f_ph F t') a).
    { intros t' Ht' NE. eapply ph_frame; [exact (l_ph _ _ _ R t' Ht')| | | | | | |].
      - apply RUN; assumption.
      - intros c Hc. apply GE. eapply home_stack; eauto.
      - intros d Hd. exact (UT t' d Ht' NE Hd).
      - intros h Hh. exact (SU t' h Ht' NE Hh).
      - intros x. apply (RG t' x NE).
      - intros x. apply (RG t' x NE).
      - intros a Ha. exact (MM t' a NE Ha). }
    constructor.
    - exact GEO.
    - intros h H. apply (ST h H).
    - intros h H. apply (ST h H).
    - intros t' Ht'. destruct (Nat.eq_dec t' t) as [-> |NE]; [auto|]. rewrite OTH by exact NE. apply (l_idle _ _ _ R); exact Ht'.
    - intros t' Ht'. destruct (Nat.eq_dec t' t) as [-> |NE]; [auto|]. rewrite OTH by exact NE. apply FR; assumption.
    - intros t1 t2 d NE E1 E2. destruct (Nat.eq_dec t1 t) as [-> |N1], (Nat.eq_dec t2 t) as [-> |N2']; [contradiction| | |].
      + rewrite OTH in E2 by exact N2'. exact (GO d E1 t2 N2' E2).
      + rewrite OTH in E1 by exact N1. exact (GO d E2 t1 N1 E1).
      + rewrite OTH in E1 by exact N1. rewrite OTH in E2 by exact N2'. exact (l_goal _ _ _ R t1 t2 d NE E1 E2).
    - intros a H. apply OUT; [apply H|]. intros t' NE I FT. specialize (H t'). rewrite OTH in H by exact NE.
      destruct (Nat.lt_ge_cases t' n) as [LT|GE'].
      + apply (H I). apply FR; assumption.
      + rewrite (l_idle _ _ _ R t' GE') in I. exact I.
  Qed.

  Lemma same_goal tr F N t d : rel tr F N -> goal (f_ph F t) = Some d -> unclaimed F t d.
  Proof. intros R E t' NE E'. exact (l_goal _ _ _ R t t' d (not_eq_sym NE) E E'). Qed.
End Inv.
