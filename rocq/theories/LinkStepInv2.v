(** Machinery for P_LinkStep.v, continued: one lemma per rule. *)
From Coq Require Import ZArith List String Lia Bool.
From Verif Require Import ListUtil Fiber FiberSpec LinkHist.
From Verif Require Import Word AsmMachine AsmSym AsmAbi AsmCheck AsmCode AsmCode2 AsmFacts AsmHist P_Asm AsmIl Link P_Link LinkStep LinkStepInv.
Import ListNotations.
Open Scope list_scope.
Open Scope Z_scope.

Section Rules.
  Variable A : port.
  Variable L : string -> Z.
  Variable n : nat.
  Hypothesis IN : In A ports.
  Hypothesis LAB : labels_ok A L.
  Local Notation B := (p_abi A).
  Local Notation C := (p_code A).
  Local Notation P := (ab_cpu (p_abi A)).
  Let CHK : check A = true := port_checked A IN.
  Local Notation rel := (rel A L n).
  Local Notation exec := (exec A L n).
  Local Notation ph_ok := (ph_ok A L).

  Lemma set_ph_eq F M t p : f_ph (set_ph F M t p) t = p.
  Proof. cbn. rewrite Nat.eqb_refl. reflexivity. Qed.
  Lemma set_ph_ne F M t p t' : t' <> t -> f_ph (set_ph F M t p) t' = f_ph F t'.
  Proof. intros H. cbn. destruct (Nat.eqb_spec t' t); [contradiction|reflexivity]. Qed.

  Lemma start_rel M : rel [] (Fine M (fun _ => Free)) M.
  Proof.
    constructor; cbn; auto; try (intros; discriminate).
    intros h _. apply agree_refl.
  Qed.

  Lemma code_rel tr F N t s : rel tr F N -> exec tr N -> good n tr -> (t < n)%nat -> ~ inside (f_ph F t) -> wf P s ->
    (forall h a, suspended tr h -> owned A (f_m F) h a -> mm s a = m_mem (f_m F) a) ->
    (forall t' a, foot A (f_m F) (f_ph F t') a -> mm s a = m_mem (f_m F) a) ->
    exists N2, exec tr N2 /\ rel tr (Fine (put_cpu (f_m F) t s) (f_ph F)) N2.
  Proof.
    intros R X G Ht NI W U1 U2. pose proof (exec_minv A L n IN LAB _ _ X G) as V.
    set (s' := St (rg s) (fun a => if m_mem (f_m F) a =? mm s a then m_mem N a else mm s a)).
    assert (KEEP : forall a, mm s a = m_mem (f_m F) a -> mm s' a = m_mem N a).
    { intros a E. cbn. rewrite E, Z.eqb_refl. reflexivity. }
    exists (put_code N t s'). split.
    - apply x_code; auto.
      + split; [intros a|apply W]. cbn. destruct (_ =? _); [apply (v_byte _ _ _ _ _ V)|apply W].
      + intros h a S O. apply KEEP. apply (U1 h a S). unfold owned in *. rewrite <- (l_at _ _ _ _ _ _ R h S). exact O.
    - eapply (rel_step A L n tr F N t); try exact R; try exact V; try exact G; cbn [f_m f_ph put_cpu put_code m_lo m_hi m_at m_st m_reg m_mem].
      + reflexivity.
      + intros H. lia.
      + apply (l_geo _ _ _ _ _ _ R).
      + intros h H. split; [apply (l_at _ _ _ _ _ _ R); exact H|apply (l_st _ _ _ _ _ _ R); exact H].
      + reflexivity.
      + auto.
      + auto.
      + auto.
      + intros t' x NE. destruct (Nat.eqb_spec t' t); [contradiction|auto].
      + intros t' a _ FT. split; [apply (U2 t'); exact FT|]. apply KEEP. apply (U2 t'). exact FT.
      + intros _. pose proof (l_ph _ _ _ _ _ _ R t Ht) as PH. pose proof (U2 t) as U2t.
        destruct (f_ph F t) as [|d h c0|r rest b s1]; cbn [ph_ok LinkStepInv.ph_ok put_cpu put_code m_reg inside foot] in *.
        * intros x. rewrite Nat.eqb_refl. reflexivity.
        * destruct PH as (_ & H2 & H3). split; [intros x; rewrite Nat.eqb_refl; reflexivity|]. split; [exact H2|].
          eapply made_frame; [exact H3|reflexivity|auto|]. intros a Ha. apply KEEP. apply U2t. exact Ha.
        * destruct NI. exact Logic.I.
      + intros d E. exact (same_goal A L n tr F N t d R E).
      + intros a _ H. cbn. destruct (Z.eqb_spec (m_mem (f_m F) a) (mm s a)) as [<-|_]; [|reflexivity].
        apply (l_out _ _ _ _ _ _ R). intros t' I. destruct (Nat.eq_dec t' t) as [-> |NE]; [contradiction|]. exact (H t' NE I).
  Qed.

  Lemma event_rel tr F N e : rel tr F N -> exec tr N -> good n (e :: tr) ->
    match e with EvSwitch _ _ _ _ _ | EvAlloc _ _ => False | _ => True end ->
    exec (e :: tr) N /\ rel (e :: tr) F N.
  Proof.
    intros R X G1 Q. pose proof (good_tl _ _ _ G1) as G. pose proof (exec_minv A L n IN LAB _ _ X G) as V.
    assert (QS : is_switch e = false) by (destruct e; auto; contradiction).
    split; [apply x_event; assumption|].
    eapply (rel_step A L n tr F N n); try exact R; try exact V; try exact G; auto.
    - apply (l_idle _ _ _ _ _ _ R).
    - apply (l_geo _ _ _ _ _ _ R).
    - intros h H. apply susp_quiet in H; [|exact QS]. split; [apply (l_at _ _ _ _ _ _ R); exact H|apply (l_st _ _ _ _ _ _ R); exact H].
    - intros t' Ht' _. apply run_quiet. exact QS.
    - intros t' d _ _ _ ((a & HA) & U). split; [exists a; right; exact HA|]. intros e' [<-|H] S; [congruence|]. apply U; assumption.
    - intros t' h _ _ _ S. split; [apply susp_quiet; assumption|auto].
    - intros H. lia.
    - intros d. rewrite (l_idle _ _ _ _ _ _ R n) by lia. discriminate.
    - intros a _ H. apply (l_out _ _ _ _ _ _ R). intros t I. destruct (Nat.eq_dec t n) as [-> |NE]; [|exact (H t NE I)].
      rewrite (l_idle _ _ _ _ _ _ R n) in I by lia. contradiction.
  Qed.

  Lemma alloc_rel tr F N c a lo hi : rel tr F N -> exec tr N -> good n (EvAlloc c a :: tr) -> 0 < lo <= hi -> hi <= space P ->
    (forall d, has_stack n tr d -> sdisj lo hi (m_lo (f_m F) d) (m_hi (f_m F) d)) ->
    exec (EvAlloc c a :: tr) (put_stack N c lo hi) /\
    rel (EvAlloc c a :: tr) (Fine (put_stack (f_m F) c lo hi) (f_ph F)) (put_stack N c lo hi).
  Proof.
    intros R X G1 B0 B1 D. pose proof (good_tl _ _ _ G1) as G. pose proof (exec_minv A L n IN LAB _ _ X G) as V.
    destruct (good_hd _ _ _ G1) as (_ & _ & (_ & _ & NEW) & AL). cbn in AL.
    assert (NC : forall d, has_stack n tr d -> d <> c).
    { intros d [[H|(a' & H)] _] ->; [lia|]. apply (NEW _ H). reflexivity. }
    split.
    - apply x_alloc; auto. intros d H. rewrite (proj1 (l_geo _ _ _ _ _ _ R d)), (proj2 (l_geo _ _ _ _ _ _ R d)). auto.
    - eapply (rel_step A L n tr F N n); try exact R; try exact V; try exact G; cbn [f_m f_ph put_stack m_lo m_hi m_at m_st m_reg m_mem]; auto.
      + apply (l_idle _ _ _ _ _ _ R).
      + intros d. destruct (Nat.eqb d c); [auto|apply (l_geo _ _ _ _ _ _ R)].
      + intros h H. apply susp_quiet in H; [|reflexivity]. split; [apply (l_at _ _ _ _ _ _ R); exact H|apply (l_st _ _ _ _ _ _ R); exact H].
      + intros d H. destruct (Nat.eqb_spec d c) as [-> |_]; [|auto]. destruct (NC c H eq_refl).
      + intros t' d _ _ _ ((a' & HA) & U). split; [exists a'; right; exact HA|]. intros e' [<-|H] S; [discriminate|]. apply U; assumption.
      + intros t' h _ _ _ S. split; [apply susp_quiet; [reflexivity|assumption]|auto].
      + intros H. lia.
      + intros d. rewrite (l_idle _ _ _ _ _ _ R n) by lia. discriminate.
      + intros a' _ H. apply (l_out _ _ _ _ _ _ R). intros t I. destruct (Nat.eq_dec t n) as [-> |NE]; [|exact (H t NE I)].
        rewrite (l_idle _ _ _ _ _ _ R n) in I by lia. contradiction.
  Qed.

  (** steps that change nothing but the phase of t *)
  Lemma phase_rel tr F N t p : rel tr F N -> exec tr N -> good n tr -> (t < n)%nat ->
    ph_ok tr (f_m F) N t p -> (forall d, goal p = Some d -> unclaimed F t d) ->
    (forall a, inside (f_ph F t) -> foot A (f_m F) (f_ph F t) a -> inside p /\ foot A (f_m F) p a) ->
    rel tr (set_ph F (f_m F) t p) N.
  Proof.
    intros R X G Ht PH GO FT. pose proof (exec_minv A L n IN LAB _ _ X G) as V.
    eapply (rel_step A L n tr F N t); try exact R; try exact V; try exact G; auto.
    - intros t' NE. apply set_ph_ne. exact NE.
    - intros H. lia.
    - apply (l_geo _ _ _ _ _ _ R).
    - intros h H. split; [apply (l_at _ _ _ _ _ _ R); exact H|apply (l_st _ _ _ _ _ _ R); exact H].
    - intros _. rewrite set_ph_eq. exact PH.
    - intros d. rewrite set_ph_eq. apply GO.
    - intros a. rewrite set_ph_eq. cbn [f_m set_ph]. intros H1 H2. apply (l_out _ _ _ _ _ _ R).
      intros t' I. destruct (Nat.eq_dec t' t) as [-> |NE]; [|exact (H2 t' NE I)]. intros Q.
      destruct (FT a I Q) as [I' Q']. exact (H1 I' Q').
  Qed.

  (** a routine is called in state cpu_at F t *)
  Lemma call_rel tr F N t r : rel tr F N -> exec tr N -> good n tr -> (t < n)%nat ->
    let s := cpu_at (f_m F) t in let p := Inside r (rcode A r) (rtramp r) s in
    ~ inside (f_ph F t) -> (forall x, m_reg N t x = m_reg (f_m F) t x) ->
    entry A L tr (f_m F) t r s -> (forall d, goal p = Some d -> unclaimed F t d) ->
    accs A L (foot A (f_m F) p) (rcode A r) (rtramp r) s ->
    (exists pc uf, rest_run A L (rcode A r) (rtramp r) s = Goto pc uf) ->
    (forall a, foot A (f_m F) p a -> forall t', t' <> t -> ~ foot A (f_m F) (f_ph F t') a) ->
    rel tr (set_ph F (f_m F) t p) N.
  Proof.
    intros R X G Ht s p NI RG EN GO AC (pc & uf & RU) DJ. apply phase_rel; auto.
    - unfold p. cbn [LinkStepInv.ph_ok]. split; [exact RG|]. split; [|split; [exact EN|split; [auto|split; [exact AC|]]]].
      + intros a Ha. apply (l_out _ _ _ _ _ _ R). intros t' I Q. destruct (Nat.eq_dec t' t) as [-> |NE]; [contradiction|].
        exact (DJ a Ha t' NE Q).
      + exists pc, uf, s. split; [exact RU|]. split; [exact RU|]. split; [exact AC|]. split; [apply agree_refl|reflexivity].
    - intros a I. contradiction.
  Qed.

  (** a byte of a stack that t may use is not part of the footprint of another thread *)
  Lemma use_disj tr F N t c a t' : rel tr F N -> exec tr N -> good n tr -> (t < n)%nat ->
    has_stack n tr c -> c = running tr t \/ unclaimed F t c /\ (forall t', (t' < n)%nat -> running tr t' <> c) ->
    m_lo (f_m F) c <= a < m_hi (f_m F) c -> t' <> t -> ~ foot A (f_m F) (f_ph F t') a.
  Proof.
    intros R X G Ht HC H Ha NE FT. pose proof (exec_minv A L n IN LAB _ _ X G) as V.
    destruct (Nat.lt_ge_cases t' n) as [Ht'|W]; [|rewrite (l_idle _ _ _ _ _ _ R t' W) in FT; exact FT].
    destruct (foot_home A L n IN LAB _ _ _ _ _ R V G Ht' FT) as (c' & C1 & C2).
    pose proof (home_stack A L n _ _ _ _ _ R G Ht' C1) as HC'.
    refine (stacks_disj A L n _ _ _ _ _ a R V HC HC' _ Ha C2). intros <-.
    destruct H as [-> |[U NR]], C1 as [E|E].
    - apply NE. symmetry. apply (f_inj _ _ (good_facts _ _ G)); auto.
    - apply (proj2 (goal_ctx A L n _ _ _ _ _ _ G (l_ph _ _ _ _ _ _ R t' Ht') E) t Ht). reflexivity.
    - apply (NR t' Ht'). auto.
    - exact (U t' NE E).
  Qed.

  (** ... and there both machines agree, if t is not inside a routine *)
  Lemma use_mem tr F N t c a : rel tr F N -> exec tr N -> good n tr -> (t < n)%nat -> ~ inside (f_ph F t) ->
    has_stack n tr c -> c = running tr t \/ unclaimed F t c /\ (forall t', (t' < n)%nat -> running tr t' <> c) ->
    m_lo (f_m F) c <= a < m_hi (f_m F) c -> m_mem N a = m_mem (f_m F) a.
  Proof.
    intros R X G Ht NI HC H Ha. apply (l_out _ _ _ _ _ _ R). intros t' I.
    destruct (Nat.eq_dec t' t) as [-> |NE]; [contradiction|]. eapply use_disj; eauto.
  Qed.

  Lemma make_rel tr F N t d : rel tr F N -> exec tr N -> good n tr -> (t < n)%nat -> f_ph F t = Free ->
    let s := cpu_at (f_m F) t in let c := running tr t in
    untried tr d -> unclaimed F t d -> make_ok A s ->
    m_lo (f_m F) c <= sp A s - c_mkscr C -> sp A s + ab_up B <= m_hi (f_m F) c ->
    m_lo (f_m F) d <= mk_top A s - c_need C -> mk_top A s <= m_hi (f_m F) d ->
    rel tr (set_ph F (f_m F) t (Inside (RMake d) (rcode A (RMake d)) (rtramp (RMake d)) s)) N.
  Proof.
    intros R X G Ht FR s c UT UC MS O1 O2 T1 T2.
    assert (NI : ~ inside (f_ph F t)) by (rewrite FR; auto).
    pose proof (l_ph _ _ _ _ _ _ R t Ht) as PH. rewrite FR in PH. cbn in PH.
    apply call_rel; auto.
    - cbn [entry]. auto 8.
    - cbn [goal]. intros d' [= <-]. exact UC.
    - apply (make_accs A L LAB CHK s MS).
    - destruct (C27_make_returns A L s IN LAB MS) as (c1 & RM & _). exists (ret_addr A s), c1.
      unfold rest_run. cbn [rcode rtramp]. fold s. unfold cpu_of in RM. rewrite RM. reflexivity.
    - intros a Ha t' NE. cbn [foot] in Ha. fold s in Ha. destruct Ha as [Ha|Ha].
      + apply (use_disj tr F N t c a t'); auto. { apply has_run; assumption. } lia.
      + apply (use_disj tr F N t d a t'); auto. { apply untried_stack; assumption. } { right. split; [exact UC|]. apply untried_run; assumption. } lia.
  Qed.

  Lemma first_rel tr F N t me to h s00 : rel tr F N -> exec tr N -> good n tr -> (t < n)%nat -> f_ph F t = Between (fc_ctx to) h s00 ->
    let s := cpu_at (f_m F) t in let c := running tr t in
    call_ok A L s -> arg_to A s = h -> on_stack A s (m_lo (f_m F) c) (m_hi (f_m F) c) ->
    rel tr (set_ph F (f_m F) t (Inside (RFirst me to s00) (rcode A (RFirst me to s00)) (rtramp (RFirst me to s00)) s)) N.
  Proof.
    intros R X G Ht FR s c CS AT OS. pose proof (exec_minv A L n IN LAB _ _ X G) as V. set (d := fc_ctx to) in *.
    assert (NI : ~ inside (f_ph F t)) by (rewrite FR; auto).
    assert (UC : unclaimed F t d) by (apply (same_goal A L n tr F N t d R); rewrite FR; reflexivity).
    pose proof (l_ph _ _ _ _ _ _ R t Ht) as PH. rewrite FR in PH. cbn in PH. destruct PH as (RG & UT & MD).
    pose proof (untried_stack _ _ _ G UT) as HD. pose proof (untried_run _ _ _ G UT) as NR.
    pose proof (made_data A L IN LAB _ _ _ _ _ _ _ MD) as DB.
    pose proof (has_run n tr t G Ht) as HC.
    assert (MD' : made A L tr (f_m F) t d h s00 (mm s)).
    { eapply made_frame; [exact MD|reflexivity|auto|]. intros a Ha. symmetry. apply (use_mem tr F N t d a); auto. lia. }
    assert (DJ : disj (handle A s) (own_len A) h (c_size C)).
    { pose proof (v_dis _ _ _ _ _ V _ _ HC HD ltac:(intros Q; exact (NR t Ht Q))) as D. unfold sdisj in D.
      destruct (l_geo _ _ _ _ _ _ R (running tr t)) as [E1 E2], (l_geo _ _ _ _ _ _ R d) as [E3 E4].
      destruct OS as (O1 & O2 & _). unfold disj, own_len, handle in *. fold c in E1, E2, D. lia. }
    destruct MD' as (pc & s0 & Q1 & Q2 & Q3 & Q4 & Q5 & Q6 & Q7 & Q8).
    apply call_rel; auto.
    - cbn [entry]. fold s c d. split; [exact UT|]. split; [exact CS|]. split; [exact OS|]. rewrite AT. exists pc, s0. auto 12.
    - cbn [goal]. intros d' [= <-]. exact UC.
    - apply (fresh_accs A L LAB CHK s00 s0 pc s); auto; try rewrite Q7; auto.
    - assert (CX : context A L (mm s) (arg_to A s) (AsmAbi.Made s00)).
      { rewrite AT, <- Q7. econstructor; [exact Q1|exact Q6|]. rewrite Q7. exact Q8. }
      assert (AP : apart A s (arg_to A s) (AsmAbi.Made s00)) by (cbn [apart]; rewrite AT; exact DJ).
      destruct (C27_first_jump_enters_function A L s00 s IN LAB CS CX AP) as (u & SW & _).
      rewrite (switch_rest A L Jump s) in SW. eexists _, _. exact SW.
    - intros a Ha t' NE. cbn [foot] in Ha. fold s in Ha. destruct Ha as [Ha|Ha].
      + apply (use_disj tr F N t c a t'); auto. destruct OS as (O1 & O2 & _). unfold own_foot, own_len, handle in *. lia.
      + apply (use_disj tr F N t d a t'); auto. fold s in Ha. rewrite AT in Ha. lia.
  Qed.

  Lemma foot_hidden s s1 s2 : hidden A s1 = hidden A s2 -> foot_susp A s s1 = foot_susp A s s2.
  Proof. intros E. unfold foot_susp. rewrite E. reflexivity. Qed.

  Lemma switch_rel tr F N t me to k : rel tr F N -> exec tr N -> good n tr -> (t < n)%nat -> f_ph F t = Free -> k <> SwCreate ->
    let s := cpu_at (f_m F) t in let c := running tr t in
    suspended tr to -> unclaimed F t (fc_ctx to) -> (how_of k = Ontop -> has_ontop A) ->
    call_ok A L s -> arg_to A s = m_at (f_m F) to -> on_stack A s (m_lo (f_m F) c) (m_hi (f_m F) c) ->
    rel tr (set_ph F (f_m F) t (Inside (RSwitch me to k) (rcode A (RSwitch me to k)) (rtramp (RSwitch me to k)) s)) N.
  Proof.
    intros R X G Ht FR K s c S UC HO CS AT OS. pose proof (exec_minv A L n IN LAB _ _ X G) as V. set (d := fc_ctx to) in *.
    assert (NI : ~ inside (f_ph F t)) by (rewrite FR; auto).
    pose proof (l_ph _ _ _ _ _ _ R t Ht) as PH. rewrite FR in PH. cbn in PH.
    pose proof (has_susp n tr to G S) as HD. fold d in HD.
    assert (NR : forall t', (t' < n)%nat -> running tr t' <> d) by (intros t' H'; apply (f_susp _ _ (good_facts _ _ G)); assumption).
    pose proof (has_run n tr t G Ht) as HC.
    destruct (st_agree A L n IN LAB _ _ _ _ R V S) as (CS1 & HI & _ & HA & HL & OT). fold d in OT.
    assert (HL' : holds A L (mm s) (arg_to A s) (m_st N to)).
    { rewrite AT. eapply (holds_ext A L CHK); [exact HL|]. intros a Ha. symmetry. apply (use_mem tr F N t d a); auto.
      apply (owned_in A L n IN LAB tr F N to a R V S). exact Ha. }
    assert (HD' : arg_to A s = handle A (m_st N to)) by (rewrite AT; exact HA).
    assert (AP : apart A s (arg_to A s) (Susp (m_st N to))).
    { pose proof (v_dis _ _ _ _ _ V _ _ HC HD ltac:(intros Q; exact (NR t Ht Q))) as D. unfold sdisj in D.
      destruct (v_bnd _ _ _ _ _ V _ HD) as (B0 & B1).
      destruct (l_geo _ _ _ _ _ _ R (running tr t)) as [E1 E2], (l_geo _ _ _ _ _ _ R d) as [E3 E4].
      destruct OS as (O1 & O2 & _), OT as (P1 & P2 & P3). cbn [apart]. rewrite HD'.
      unfold disj, own_len, handle in *. fold c in E1, E2, D. split; [lia|].
      destruct (hidden A (m_st N to)) as [H|]; [|exact Logic.I]. lia. }
    apply call_rel; auto.
    - cbn [entry]. auto 8.
    - cbn [goal]. intros d' [= <-]. exact UC.
    - unfold foot. fold s. rewrite (foot_hidden s _ _ HI). cbn [rcode rtramp]. apply (susp_accs A L LAB CHK (how_of k) s (m_st N to)); auto.
    - cbn [rcode rtramp]. fold s. rewrite <- switch_rest. destruct (how_of k) eqn:EK.
      + destruct (jump_susp A L LAB CHK s (m_st N to) CS CS1 HD' HL' AP) as (u & SW & _). eauto.
      + destruct (ontop_susp A L LAB CHK s (m_st N to) CS CS1 HD' HL' AP (HO eq_refl)) as (u & SW & _). eauto.
    - intros a Ha t' NE. cbn [foot] in Ha. fold s in Ha. destruct Ha as [Ha|[Ha|Ha]].
      + apply (use_disj tr F N t c a t'); auto. destruct OS as (O1 & O2 & _). unfold own_foot, own_len, handle in *. lia.
      + apply (use_disj tr F N t d a t'); auto. apply (owned_in A L n IN LAB tr F N to a R V S). unfold owned. rewrite <- AT. exact Ha.
      + apply (use_disj tr F N t d a t'); auto. rewrite HI in Ha. destruct OT as (P1 & P2 & P3). destruct (hidden A (m_st N to)) as [H|]; [|contradiction]. lia.
  Qed.

  (** one instruction *)
  Lemma step_rel tr F N t r i rest b s v : rel tr F N -> exec tr N -> good n tr -> (t < n)%nat -> f_ph F t = Inside r (i :: rest) b s ->
    step1 P L i (cpu_at (f_m F) t) = Some v ->
    rel tr (set_ph F (put_cpu (f_m F) t v) t (Inside r rest b s)) N.
  Proof.
    intros R X G Ht FR E. pose proof (exec_minv A L n IN LAB _ _ X G) as V.
    pose proof (l_ph _ _ _ _ _ _ R t Ht) as PH. rewrite FR in PH. cbn [LinkStepInv.ph_ok] in PH.
    destruct PH as (H1 & H2 & H3 & H4 & H5 & pc & uf & u & H6 & H7 & H8 & H9 & H10).
    destruct (accs_step A L _ _ _ _ _ _ _ H8 H9 E) as (u1 & A1 & A2 & A3 & A4 & A5).
    assert (KEEP : forall a, ~ foot A (f_m F) (f_ph F t) a -> mm v a = m_mem (f_m F) a) by (rewrite FR; exact A5).
    assert (FT : foot A (put_cpu (f_m F) t v) (Inside r rest b s) = foot A (f_m F) (Inside r (i :: rest) b s)) by reflexivity.
    eapply (rel_step A L n tr F N t); try exact R; try exact V; try exact G; auto.
    - intros t' NE. apply set_ph_ne. exact NE.
    - intros H. lia.
    - apply (l_geo _ _ _ _ _ _ R).
    - intros h H. split; [apply (l_at _ _ _ _ _ _ R); exact H|apply (l_st _ _ _ _ _ _ R); exact H].
    - intros t' x NE. cbn. destruct (Nat.eqb_spec t' t); [contradiction|auto].
    - intros t' a NE Q. split; [|reflexivity]. cbn. apply KEEP. intros Q'.
      exact (feet_disj A L n IN LAB _ _ _ _ _ _ R V G NE Q Q').
    - intros _. rewrite set_ph_eq. cbn [f_m set_ph LinkStepInv.ph_ok]. rewrite FT. split; [exact H1|]. split; [exact H2|].
      split; [destruct r; exact H3|]. split; [exact H4|]. split; [exact H5|]. exists pc, uf, u1. split; [exact H6|]. split; [rewrite <- A3; exact H7|].
      split; [exact A1|]. split.
      + destruct A2 as [Z1 Z2]. split; [|exact Z2]. intros x. cbn. rewrite Nat.eqb_refl. apply Z1.
      + intros a Ha. rewrite A4 by exact Ha. apply H10. exact Ha.
    - intros d. rewrite set_ph_eq. intros Q. apply (same_goal A L n tr F N t d R). rewrite FR. exact Q.
    - intros a. rewrite set_ph_eq. cbn [f_m set_ph]. rewrite FT. intros Q1 Q2. specialize (Q1 Logic.I).
      cbn [put_cpu m_mem]. rewrite A5 by exact Q1. apply (l_out _ _ _ _ _ _ R).
      intros t' I. destruct (Nat.eq_dec t' t) as [-> |NE]; [rewrite FR; exact Q1|exact (Q2 t' NE I)].
  Qed.

  Lemma tramp_rel tr F N t r x rest b s : rel tr F N -> exec tr N -> good n tr -> (t < n)%nat -> f_ph F t = Inside r (Go x :: rest) b s ->
    goes_on A L b (m_reg (f_m F) t x) = true ->
    rel tr (set_ph F (f_m F) t (Inside r (c_tramp C) false s)) N.
  Proof.
    intros R X G Ht FR GO.
    pose proof (l_ph _ _ _ _ _ _ R t Ht) as PH. rewrite FR in PH. cbn [LinkStepInv.ph_ok] in PH.
    destruct PH as (H1 & H2 & H3 & H4 & H5 & pc & uf & u & H6 & H7 & H8 & H9 & H10).
    assert (FT : foot A (f_m F) (Inside r (c_tramp C) false s) = foot A (f_m F) (Inside r (Go x :: rest) b s)) by reflexivity.
    assert (RX : rg u x = m_reg (f_m F) t x) by apply (proj1 H9).
    apply phase_rel; auto.
    - cbn [LinkStepInv.ph_ok]. rewrite FT. split; [exact H1|]. split; [exact H2|].
      split; [exact H3|]. split; [discriminate|]. split; [exact H5|]. exists pc, uf, u. split; [exact H6|].
      split; [|split; [|split; [exact H9|exact H10]]].
      + unfold rest_run in H7. cbn [run] in H7. rewrite RX, GO in H7. unfold rest_run. rewrite H7. reflexivity.
      + split; [|intros pc' t' _ Q; discriminate]. destruct H8 as [_ H8]. apply (H8 (rg u x) u); [reflexivity|rewrite RX; exact GO].
    - intros d Q. apply (same_goal A L n tr F N t d R). rewrite FR. exact Q.
    - intros a _ Q. split; [exact Logic.I|]. rewrite FT. rewrite <- FR. exact Q.
  Qed.

  (** the end of a routine: the routine, if executed at once in the other machine, does the same *)
  Lemma end_run tr F N t r x rest b s : rel tr F N -> (t < n)%nat -> f_ph F t = Inside r (Go x :: rest) b s ->
    goes_on A L b (m_reg (f_m F) t x) = false ->
    exists u', rest_run A L (rcode A r) (rtramp r) (cpu_at N t) = Goto (m_reg (f_m F) t x) u' /\
      (forall y, rg u' y = m_reg (f_m F) t y) /\
      (forall a, foot A (f_m F) (f_ph F t) a -> mm u' a = m_mem (f_m F) a) /\
      (forall a, ~ foot A (f_m F) (f_ph F t) a -> mm u' a = m_mem N a) /\
      agree (foot A (f_m F) (f_ph F t)) s (cpu_at N t).
  Proof.
    intros R Ht FR GO.
    pose proof (l_ph _ _ _ _ _ _ R t Ht) as PH. rewrite FR in PH |- *. cbn [LinkStepInv.ph_ok] in PH.
    destruct PH as (H1 & H2 & H3 & H4 & H5 & pc & uf & u & H6 & H7 & H8 & H9 & H10).
    assert (RX : rg u x = m_reg (f_m F) t x) by apply (proj1 H9).
    unfold rest_run in H7. cbn [run] in H7. rewrite RX, GO in H7. injection H7 as <- <-.
    assert (AG : agree (foot A (f_m F) (Inside r (Go x :: rest) b s)) s (cpu_at N t)).
    { split; cbn; [intros y; symmetry; apply H1|]. intros a Ha. symmetry. apply H2. exact Ha. }
    pose proof (rest_agree A L _ _ _ _ _ H5 AG) as Q. rewrite H6 in Q. destruct Q as (u' & Q1 & Q2 & Q3 & Q4).
    exists u'. split; [exact Q1|]. split; [|split; [|split; [exact Q4|exact AG]]].
    - intros y. rewrite <- (proj1 Q2). apply (proj1 H9).
    - intros a Ha. rewrite <- (proj2 Q2 a Ha). apply (proj2 H9 a Ha).
  Qed.

  (** ... and it does what it does if it is executed at once in the state in which it was called *)
  Lemma end_alone tr F N t r x rest b s : rel tr F N -> (t < n)%nat -> f_ph F t = Inside r (Go x :: rest) b s ->
    goes_on A L b (m_reg (f_m F) t x) = false ->
    exists uf, rest_run A L (rcode A r) (rtramp r) s = Goto (m_reg (f_m F) t x) uf /\
      agree (foot A (f_m F) (f_ph F t)) uf (cpu_at (f_m F) t) /\
      (forall a, ~ foot A (f_m F) (f_ph F t) a -> mm uf a = mm s a).
  Proof.
    intros R Ht FR GO.
    pose proof (l_ph _ _ _ _ _ _ R t Ht) as PH. rewrite FR in PH |- *. cbn [LinkStepInv.ph_ok] in PH.
    destruct PH as (H1 & H2 & H3 & H4 & H5 & pc & uf & u & H6 & H7 & H8 & H9 & H10).
    assert (RX : rg u x = m_reg (f_m F) t x) by apply (proj1 H9).
    unfold rest_run in H7. cbn [run] in H7. rewrite RX, GO in H7. injection H7 as <- <-. eauto.
  Qed.
End Rules.
