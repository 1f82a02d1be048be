(** * C55: fibers on the assembler, one instruction at a time

    C52 lets a routine of src/asm happen at once. Here the threads take turns after every
    instruction (LinkStep.v), and nothing changes: what the threads do can be done with each routine
    at once; the instructions that are left of a routine can always be executed; at its end the
    routine has done what C26, C27 and C28 promise; and no two threads inside routines ever access
    the same byte.

    In all statements: s is a reachable state of the fiber machine; its history, with events that have
    no context in common exchanged at will ([shuffled]: threads also take turns inside the calls of
    the API), begins with tr; F is a state that the machine can have after tr, with the threads
    anywhere inside routines. *)
From Coq Require Import ZArith List String Lia Bool.
From Verif Require Import ListUtil Fiber FiberSpec LinkHist LinkShuffle.
From Verif Require Import Word AsmMachine AsmSym AsmAbi AsmCheck AsmCode AsmCode2 AsmFacts AsmHist P_Asm AsmIl Link P_Link.
From Verif Require Import LinkStep LinkStepInv LinkStepInv2 LinkStepInv3.
Import ListNotations.
Open Scope list_scope.
Open Scope Z_scope.

(** thread t is about to execute the last instruction of routine r, which was called in state s; the
    instruction goes to pc *)
Definition leaving (A : port) (L : string -> Z) (F : fine) (t : nat) (r : routine) (s : mst) (pc : Z) : Prop :=
  exists x rest b, f_ph F t = Inside r (Go x :: rest) b s /\ goes_on A L b (m_reg (f_m F) t x) = false /\ pc = m_reg (f_m F) t x.

(** the routine executed at once *)
Definition alone (A : port) (L : string -> Z) (r : routine) (s : mst) : outcome :=
  match r with
  | RMake _ => run (cpu_of A) L (c_make (p_code A)) s
  | RFirst _ _ _ => switch A L Jump s
  | RSwitch _ _ k => switch A L (how_of k) s
  end.

Lemma alone_rest A L r s : alone A L r s = rest_run A L (rcode A r) (rtramp r) s.
Proof.
  destruct r as [d|me to c0|me to k]; cbn [alone rcode rtramp].
  - unfold rest_run, cpu_of. destruct (run _ _ _ s); reflexivity.
  - apply (switch_rest A L Jump).
  - apply switch_rest.
Qed.

Section Sim.
  Variable A : port.
  Variable L : string -> Z.
  Variable n : nat.
  Variables (s0 : state) (new tr : list event) (F : fine).
  Hypothesis IN : In A ports.
  Hypothesis LAB : labels_ok A L.
  Hypothesis RE : reachable n s0.
  Hypothesis ET : shuffled (s_tr s0) (new ++ tr).
  Hypothesis X : fexec A L n tr F.

  Lemma sim : exists N, exec A L n tr N /\ rel A L n tr F N /\ good n tr /\ minv A L n tr N.
  Proof.
    assert (G : good n tr) by (apply (good_app n new); eapply shuffled_good; eauto).
    destruct (sim_rel A L n IN LAB tr F X G) as (N & XN & R). exists N.
    pose proof (exec_minv A L n IN LAB _ _ XN G). auto.
  Qed.

  Lemma inside_lt N t : rel A L n tr F N -> inside (f_ph F t) -> (t < n)%nat.
  Proof.
    intros R I. destruct (Nat.lt_ge_cases t n) as [|W]; [assumption|]. rewrite (l_idle _ _ _ _ _ _ R t W) in I. contradiction.
  Qed.
End Sim.

(** A state of the interleaved machine is a state of the machine in which routines happen at once
    (C52): threads inside a routine have not called it yet. The stacks, the handles, the memory
    except what the unfinished routines work on, and the registers of all other threads are the
    same; a thread inside a routine has the registers and, where its routine reads, the memory
    with which it called the routine. *)
Theorem C55_refines A L n s new tr F :
  In A ports -> labels_ok A L -> reachable n s -> shuffled (s_tr s) (new ++ tr) -> fexec A L n tr F ->
  exists M, exec A L n tr M /\
    (forall c, m_lo M c = m_lo (f_m F) c /\ m_hi M c = m_hi (f_m F) c) /\
    (forall h, suspended tr h -> m_at M h = m_at (f_m F) h) /\
    (forall t r, (t < n)%nat -> ~ inside (f_ph F t) -> m_reg M t r = m_reg (f_m F) t r) /\
    (forall a, (forall t, inside (f_ph F t) -> ~ foot A (f_m F) (f_ph F t) a) -> m_mem M a = m_mem (f_m F) a) /\
    (forall t r rest b c, f_ph F t = Inside r rest b c ->
       (forall x, m_reg M t x = rg c x) /\ (forall a, foot A (f_m F) (f_ph F t) a -> m_mem M a = mm c a)).
Proof.
  intros IN LAB RE ET X. destruct (sim A L n s new tr F IN LAB RE ET X) as (N & XN & R & G & V). exists N.
  split; [exact XN|]. split; [apply (l_geo _ _ _ _ _ _ R)|]. split; [apply (l_at _ _ _ _ _ _ R)|]. split; [|split].
  - intros t r Ht NI. pose proof (l_ph _ _ _ _ _ _ R t Ht) as PH. destruct (f_ph F t); cbn [ph_ok] in PH; [apply PH|apply PH|].
    destruct (NI Logic.I).
  - apply (l_out _ _ _ _ _ _ R).
  - intros t r rest b c FR.
    assert (Ht : (t < n)%nat) by (apply (inside_lt A L n tr F N t R); rewrite FR; exact Logic.I).
    pose proof (l_ph _ _ _ _ _ _ R t Ht) as PH. rewrite FR in PH |- *. destruct PH as (H1 & H2 & _). auto.
Qed.

(** in particular, when no thread is inside a routine the two machines are in the same state *)
Theorem C55_refines_quiet A L n s new tr F :
  In A ports -> labels_ok A L -> reachable n s -> shuffled (s_tr s) (new ++ tr) -> fexec A L n tr F ->
  (forall t, ~ inside (f_ph F t)) ->
  exists M, exec A L n tr M /\
    (forall c, m_lo M c = m_lo (f_m F) c /\ m_hi M c = m_hi (f_m F) c) /\
    (forall h, suspended tr h -> m_at M h = m_at (f_m F) h) /\
    (forall t r, (t < n)%nat -> m_reg M t r = m_reg (f_m F) t r) /\
    (forall a, m_mem M a = m_mem (f_m F) a).
Proof.
  intros IN LAB RE ET X NI. destruct (C55_refines A L n s new tr F IN LAB RE ET X) as (M & H1 & H2 & H3 & H4 & H5 & _).
  exists M. split; [exact H1|]. split; [exact H2|]. split; [exact H3|]. split.
  - intros t r Ht. apply H4; auto.
  - intros a. apply H5. intros t I. destruct (NI t I).
Qed.

(** Whatever the other threads have done since the call, a thread inside a routine can execute its
    next instruction, and the routine comes to its end. *)
Theorem C55_never_stuck A L n s new tr F t r rest b c :
  In A ports -> labels_ok A L -> reachable n s -> shuffled (s_tr s) (new ++ tr) -> fexec A L n tr F ->
  f_ph F t = Inside r rest b c ->
  (exists i rest', rest = i :: rest' /\
     ((exists v, step1 (cpu_of A) L i (cpu_at (f_m F) t) = Some v) \/ exists x, i = Go x)) /\
  (exists pc u, rest_run A L rest b (cpu_at (f_m F) t) = Goto pc u).
Proof.
  intros IN LAB RE ET X FR. destruct (sim A L n s new tr F IN LAB RE ET X) as (N & XN & R & G & V).
  assert (Ht : (t < n)%nat) by (apply (inside_lt A L n tr F N t R); rewrite FR; exact Logic.I).
  pose proof (l_ph _ _ _ _ _ _ R t Ht) as PH. rewrite FR in PH. cbn [ph_ok] in PH.
  destruct PH as (_ & _ & _ & _ & _ & pc & uf & u & _ & RU & AC & AG & _).
  pose proof (rest_agree A L _ _ _ _ _ AC AG) as RA. rewrite RU in RA. destruct RA as (t' & RT & _).
  split; [|eauto]. unfold rest_run in RT.
  destruct rest as [|i rest']; [discriminate RT|]. exists i, rest'. split; [reflexivity|].
  unfold cpu_of. destruct i; cbn [run] in RT;
    try (right; eexists; reflexivity); try discriminate RT;
    left; destruct (step1 _ _ _ _) as [v|] eqn:Q; try (exists v; reflexivity); discriminate RT.
Qed.

(** At its end a routine has done what it does when it is executed at once from the state in which it
    was called: same registers, same destination, same memory where it works; and its instructions
    have changed nothing anywhere else (see C55_private). *)
Theorem C55_result A L n s new tr F t r c pc :
  In A ports -> labels_ok A L -> reachable n s -> shuffled (s_tr s) (new ++ tr) -> fexec A L n tr F ->
  leaving A L F t r c pc ->
  exists u, alone A L r c = Goto pc u /\
    (forall x, m_reg (f_m F) t x = rg u x) /\
    (forall a, foot A (f_m F) (f_ph F t) a -> m_mem (f_m F) a = mm u a) /\
    (forall a, ~ foot A (f_m F) (f_ph F t) a -> mm u a = mm c a).
Proof.
  intros IN LAB RE ET X (x & rest & b & FR & GO & ->). destruct (sim A L n s new tr F IN LAB RE ET X) as (N & XN & R & G & V).
  assert (Ht : (t < n)%nat) by (apply (inside_lt A L n tr F N t R); rewrite FR; exact Logic.I).
  destruct (end_alone A L n tr F N t r x rest b c R Ht FR GO) as (uf & RU & (AG1 & AG2) & UN).
  exists uf. rewrite alone_rest. split; [exact RU|]. split; [intros y; symmetry; apply AG1|]. split; [|exact UN].
  intros a Ha. symmetry. apply AG2. exact Ha.
Qed.

(** The next instruction of a routine accesses only the memory that the routine works on, which lies
    on the stack of the context that the thread executes or on that of the context it goes to; no
    other thread executes or goes to either. *)
Lemma next_in A L n tr F N t r i rest b c a : rel A L n tr F N -> f_ph F t = Inside r (i :: rest) b c ->
  touched (cpu_of A) i (cpu_at (f_m F) t) a -> foot A (f_m F) (f_ph F t) a.
Proof.
  intros R FR T. assert (Ht : (t < n)%nat) by (apply (inside_lt A L n tr F N t R); rewrite FR; exact Logic.I).
  pose proof (l_ph _ _ _ _ _ _ R t Ht) as PH. rewrite FR in PH |- *. cbn [ph_ok] in PH.
  destruct PH as (_ & _ & _ & _ & _ & pc & uf & u & _ & _ & (AC & _) & AG & _).
  apply (touched_agree _ _ _ _ _ _ AG) in T. destruct i; try (destruct T; fail); exact (proj1 AC a T).
Qed.

Theorem C55_private A L n s new tr F t r i rest b c a :
  In A ports -> labels_ok A L -> reachable n s -> shuffled (s_tr s) (new ++ tr) -> fexec A L n tr F ->
  f_ph F t = Inside r (i :: rest) b c -> touched (cpu_of A) i (cpu_at (f_m F) t) a ->
  foot A (f_m F) (f_ph F t) a /\
  exists d, (d = running tr t \/ goal (f_ph F t) = Some d) /\ has_stack n tr d /\ m_lo (f_m F) d <= a < m_hi (f_m F) d /\
    forall t', (t' < n)%nat -> t' <> t -> running tr t' <> d /\ goal (f_ph F t') <> Some d.
Proof.
  intros IN LAB RE ET X FR T. destruct (sim A L n s new tr F IN LAB RE ET X) as (N & XN & R & G & V).
  assert (Ht : (t < n)%nat) by (apply (inside_lt A L n tr F N t R); rewrite FR; exact Logic.I).
  pose proof (next_in A L n tr F N t r i rest b c a R FR T) as FT. split; [exact FT|].
  destruct (foot_home A L n IN LAB tr F N t a R V G Ht FT) as (d & D1 & D2). exists d. split; [exact D1|].
  split; [exact (home_stack A L n tr F N t d R G Ht D1)|]. split; [exact D2|].
  intros t' Ht' NE. split; intros E.
  - apply (home_ne A L n tr F N t t' d d R G Ht Ht' (not_eq_sym NE) D1); [left; auto|reflexivity].
  - apply (home_ne A L n tr F N t t' d d R G Ht Ht' (not_eq_sym NE) D1); [right; auto|reflexivity].
Qed.

(** so an instruction of a routine changes no byte elsewhere *)
Theorem C55_changes_own A L n s new tr F t r i rest b c v a :
  In A ports -> labels_ok A L -> reachable n s -> shuffled (s_tr s) (new ++ tr) -> fexec A L n tr F ->
  f_ph F t = Inside r (i :: rest) b c -> step1 (cpu_of A) L i (cpu_at (f_m F) t) = Some v ->
  ~ foot A (f_m F) (f_ph F t) a -> mm v a = m_mem (f_m F) a.
Proof.
  intros IN LAB RE ET X FR ST NF. destruct (sim A L n s new tr F IN LAB RE ET X) as (N & XN & R & G & V).
  assert (T : forall y, touched (cpu_of A) i (cpu_at (f_m F) t) y -> foot A (f_m F) (f_ph F t) y).
  { intros y. exact (next_in A L n tr F N t r i rest b c y R FR). }
  destruct (step_agree (cpu_of A) L (foot A (f_m F) (f_ph F t)) i _ _ v (agree_refl _ (cpu_at (f_m F) t)) T ST) as (_ & _ & _ & U & _).
  apply (U a NF).
Qed.

(** Two threads inside routines never access the same byte, not even reading: no data race. *)
Theorem C55_no_race A L n s new tr F t r i rest b c t' r' i' rest' b' c' a :
  In A ports -> labels_ok A L -> reachable n s -> shuffled (s_tr s) (new ++ tr) -> fexec A L n tr F -> t <> t' ->
  f_ph F t = Inside r (i :: rest) b c -> f_ph F t' = Inside r' (i' :: rest') b' c' ->
  touched (cpu_of A) i (cpu_at (f_m F) t) a -> ~ touched (cpu_of A) i' (cpu_at (f_m F) t') a.
Proof.
  intros IN LAB RE ET X NE FR FR' T T'. destruct (sim A L n s new tr F IN LAB RE ET X) as (N & XN & R & G & V).
  exact (feet_disj A L n IN LAB tr F N t t' a R V G NE (next_in A L n tr F N _ _ _ _ _ _ a R FR T) (next_in A L n tr F N _ _ _ _ _ _ a R FR' T')).
Qed.

Section Arrive.
  Variable A : port.
  Variable L : string -> Z.
  Variable n : nat.
  Variables (tr : list event) (F : fine) (N : mach).
  Hypothesis IN : In A ports.
  Hypothesis LAB : labels_ok A L.
  Hypothesis R : rel A L n tr F N.
  Hypothesis G : good n tr.
  Hypothesis V : minv A L n tr N.
  Let CHK : check A = true := port_checked A IN.

  (** the call of a switch that is about to end, in the other machine *)
  Lemma leave_susp t me to k s pc v : leaving A L F t (RSwitch me to k) s pc ->
    agree (foot A (f_m F) (f_ph F t)) (cpu_at (f_m F) t) v ->
    exists u', switch A L (how_of k) (cpu_at N t) = Goto pc u' /\ agree (foot_susp A (cpu_at N t) (m_st N to)) u' v /\
      suspended tr to /\ (how_of k = Ontop -> has_ontop A) /\
      call_ok A L (cpu_at N t) /\ context A L (mm (cpu_at N t)) (arg_to A (cpu_at N t)) (Susp (m_st N to)) /\
      apart A (cpu_at N t) (arg_to A (cpu_at N t)) (Susp (m_st N to)) /\
      handle A (cpu_at N t) = handle A s /\ arg_data A (cpu_at N t) = arg_data A s /\ arg_fn A (cpu_at N t) = arg_fn A s.
  Proof.
    intros (x & rest & b & FR & GO & ->) AV.
    assert (Ht : (t < n)%nat) by (apply (inside_lt A L n tr F N t R); rewrite FR; exact Logic.I).
    pose proof (l_ph _ _ _ _ _ _ R t Ht) as PH. rewrite FR in PH. cbn [ph_ok entry] in PH.
    destruct PH as (_ & _ & (K & S & HO & CS & AT & OS) & _).
    destruct (end_run A L n tr F N t _ x rest b s R Ht FR GO) as (u' & RU & RG & MI & MO & AG).
    assert (OWN : forall a, own_foot A s a -> foot A (f_m F) (f_ph F t) a) by (rewrite FR; intros a Ha; left; exact Ha).
    destruct (call_agree A L CHK _ _ _ CS AG (minv_wf _ _ _ _ _ t V) ltac:(intros a Ha; apply OWN, (own_cov A IN), Ha)) as (CS' & AT' & DA' & HI' & FN' & _).
    pose proof (handle_agree A _ _ _ AG) as HA'. pose proof (sp_agree A _ _ _ AG) as SP'.
    destruct (st_agree A L n IN LAB _ _ _ _ R V S) as (CS1 & HI & HH & HA & HL & OT).
    assert (I0 := conf_inv A L n _ _ _ [to] V G Ht ltac:(repeat constructor; intros []) ltac:(intros ? [<-|[]]; exact S)).
    assert (OS' : on_stack A (cpu_at N t) (m_lo N (running tr t)) (m_hi N (running tr t))).
    { destruct (l_geo _ _ _ _ _ _ R (running tr t)) as [-> ->]. unfold on_stack in *. rewrite HI', HA', SP'. exact OS. }
    pose proof (inv_apart A L _ (cxof N to) I0 (or_introl eq_refl) OS' CS') as AP. cbn [cxof x_h x_o now] in AP.
    destruct (v_ctx _ _ _ _ _ V _ S) as (CX & _). cbn [cxof x_h x_o] in CX.
    assert (AN : arg_to A (cpu_at N t) = m_at N to) by (rewrite AT', AT; symmetry; apply (l_at _ _ _ _ _ _ R); exact S).
    exists u'. rewrite switch_rest, AN. split; [exact RU|]. split; [|auto 10].
    split; [intros y; rewrite RG; apply (proj1 AV)|]. intros a Ha.
    assert (FA : foot A (f_m F) (f_ph F t) a); [|rewrite (MI a FA); apply (proj2 AV a FA)]. rewrite FR. cbn [foot]. rewrite (foot_hidden A s _ _ HI).
    unfold foot_susp, own_foot in *. rewrite HA', AT' in Ha. exact Ha.
  Qed.

  (** a suspended call in both machines *)
  Lemma susp_same to : suspended tr to ->
    sp A (m_st N to) = sp A (m_st (f_m F) to) /\ (forall r, rg (m_st N to) r = rg (m_st (f_m F) to) r) /\
    ret_addr A (m_st N to) = ret_addr A (m_st (f_m F) to) /\ hidden A (m_st N to) = hidden A (m_st (f_m F) to).
  Proof.
    intros S. destruct (st_agree A L n IN LAB _ _ _ _ R V S) as (CS1 & HI & HH & HA & HL & OT).
    pose proof (agree_sym _ _ _ (l_st _ _ _ _ _ _ R to S)) as AG.
    split; [symmetry; apply (sp_agree A _ _ _ AG)|]. split; [intros r; apply AG|]. split; [|auto].
    symmetry. apply (pl_agree A CHK (own_foot A (m_st (f_m F) to)) _ _ _ (call_in A L CHK _ CS1) (p_ret A CHK) AG).
    intros a Ha. apply (own_cov A IN). rewrite (sp_agree A _ _ _ AG). exact Ha.
  Qed.
End Arrive.

(** what the thread finds at the end, also if it finds something else where the routine does not work *)
Lemma resume_at A L n tr F N t me h c pc v :
  In A ports -> labels_ok A L -> rel A L n tr F N -> good n tr -> minv A L n tr N ->
  leaving A L F t (RSwitch me h SwJump) c pc -> agree (foot A (f_m F) (f_ph F t)) (cpu_at (f_m F) t) v ->
  let s1 := m_st (f_m F) h in
  returned A s1 (Goto pc v) v /\ result A s1 v = (handle A c, arg_data A c).
Proof.
  intros IN LAB R G V LV AV s1.
  destruct (leave_susp A L n tr F N IN LAB R G V t me h SwJump c pc v LV AV) as (u' & SW & AG & S & _ & CS & CX & AP & HA & DA & _).
  destruct (susp_same A L n tr F N IN LAB R V h S) as (SP & RG & RA & HI). fold s1 in SP, RG, RA, HI.
  destruct (C26_jump_resumes_suspended_call A L _ _ IN LAB CS CX AP) as (u2 & (SW2 & SPR & RS) & RES & _).
  cbn [how_of] in SW. rewrite SW in SW2. injection SW2 as PC <-.
  pose proof (port_checked A IN) as CHK.
  destruct (context_facts A L LAB CHK _ _ _ CX) as (CS1 & HD & HL).
  pose proof (jump_arrives A L LAB CHK _ _ _ _ _ CS CS1 HD HL AP SW AG) as JA.
  split; [split; [|split]|].
  - rewrite PC, RA. reflexivity.
  - rewrite <- SP, <- SPR. unfold sp. symmetry. apply AG.
  - intros r Hr. rewrite <- RG, <- (RS r Hr). symmetry. apply AG.
  - unfold result in *. rewrite <- HI. fold (result A (m_st N h) v) in *.
    change (result A (m_st N h) v = (handle A c, arg_data A c)). rewrite <- HA, <- DA, <- RES. exact JA.
Qed.

Lemma inject_at A L n tr F N t me h k c pc v :
  In A ports -> labels_ok A L -> rel A L n tr F N -> good n tr -> minv A L n tr N ->
  leaving A L F t (RSwitch me h k) c pc -> agree (foot A (f_m F) (f_ph F t)) (cpu_at (f_m F) t) v -> how_of k = Ontop ->
  let s1 := m_st (f_m F) h in
  pc = ontop_pc A L c /\ ontop_fn A c v /\
  pair_at A v (ab_ont (p_abi A)) = (handle A c, arg_data A c) /\
  sp A v = sp A s1 /\ (forall r, In r (ab_saved (p_abi A)) -> rg v r = rg s1 r) /\ ret_addr A v = ret_addr A s1.
Proof.
  intros IN LAB R G V LV AV K s1.
  destruct (leave_susp A L n tr F N IN LAB R G V t me h k c pc v LV AV) as (u' & SW & AG & S & HO & CS & CX & AP & HA & DA & FN).
  destruct (susp_same A L n tr F N IN LAB R V h S) as (SP & RG & RA & HI). fold s1 in SP, RG, RA, HI.
  specialize (HO K). rewrite K in SW.
  destruct (C28_ontop_enters_function_on_target A L _ _ IN HO LAB CS CX AP) as (u2 & SW2 & ON & ARG & SPR & RS & RET & _).
  rewrite SW in SW2. injection SW2 as PC <-.
  pose proof (port_checked A IN) as CHK.
  destruct (context_facts A L LAB CHK _ _ _ CX) as (CS1 & HD & HL).
  destruct (ontop_arrives A L LAB CHK _ _ _ _ _ CS CS1 HD HL AP HO SW AG) as (Q1 & Q2 & Q3).
  split; [|split; [|split; [|split; [|split]]]].
  - rewrite PC. unfold ontop_pc. rewrite FN. reflexivity.
  - specialize (Q3 ON). unfold ontop_fn in *. rewrite FN in Q3. exact Q3.
  - rewrite Q1, ARG, HA, DA. reflexivity.
  - rewrite <- SP, <- SPR. unfold sp. symmetry. apply AG.
  - intros r Hr. rewrite <- RG, <- (RS r Hr). symmetry. apply AG.
  - rewrite Q2, RET. exact RA.
Qed.

Lemma enter_at A L n tr F N t me to c0 c pc v :
  In A ports -> labels_ok A L -> rel A L n tr F N -> good n tr -> minv A L n tr N ->
  leaving A L F t (RFirst me to c0) c pc -> agree (foot A (f_m F) (f_ph F t)) (cpu_at (f_m F) t) v ->
  pc = mk_fn A c0 /\ pair_at A v (ab_ent (p_abi A)) = (handle A c, arg_data A c) /\ ret_addr A v = L "finish"%string /\
  (sp A v + ab_bias (p_abi A)) mod ab_align (p_abi A) = 0 /\
  m_lo (f_m F) (fc_ctx to) <= sp A v <= m_hi (f_m F) (fc_ctx to).
Proof.
  intros IN LAB R G V (x & rest & b & FR & GO & ->) AV.
  pose proof (port_checked A IN) as CHK.
  assert (Ht : (t < n)%nat) by (apply (inside_lt A L n tr F N t R); rewrite FR; exact Logic.I).
  pose proof (l_ph _ _ _ _ _ _ R t Ht) as PH. rewrite FR in PH. cbn [ph_ok entry] in PH.
  destruct PH as (_ & _ & (UT & CS & OS & MD) & _).
  pose proof (made_data A L IN LAB _ _ _ _ _ _ _ MD) as DB.
  pose proof (untried_stack _ _ _ G UT) as HD. pose proof (untried_run _ _ _ G UT) as NR. pose proof (has_run n tr t G Ht) as HC.
  destruct (end_alone A L n tr F N t _ x rest b c R Ht FR GO) as (uf & RU & AG0 & _). pose proof (agree_trans _ _ _ _ AG0 AV) as AG.
  rewrite FR in AG. change (foot A (f_m F) (Inside (RFirst me to c0) (Go x :: rest) b c)) with (foot_new A c) in AG.
  assert (DJ : disj (handle A c) (own_len A) (arg_to A c) (c_size (p_code A))).
  { pose proof (v_dis _ _ _ _ _ V _ _ HC HD ltac:(intros Q; exact (NR t Ht Q))) as D. unfold sdisj in D.
    destruct (l_geo _ _ _ _ _ _ R (running tr t)) as [E1 E2], (l_geo _ _ _ _ _ _ R (fc_ctx to)) as [E3 E4].
    destruct OS as (O1 & O2 & _). unfold disj, own_len, handle in *. lia. }
  destruct MD as (pcm & sm & Q1 & Q2 & Q3 & Q4 & Q5 & Q6 & Q7 & Q8).
  assert (CX : context A L (mm c) (arg_to A c) (AsmAbi.Made c0)).
  { rewrite <- Q7. econstructor; [exact Q1|exact Q6|]. rewrite Q7. exact Q8. }
  assert (AP : apart A c (arg_to A c) (AsmAbi.Made c0)) by exact DJ.
  destruct (C27_first_jump_enters_function A L c0 c IN LAB CS CX AP) as (u2 & SW & ARG & FIN & ALI & SPU & _).
  cbn [rcode rtramp] in RU. change (rest_run A L (code_of A Jump) (tramp_of Jump) c = Goto (m_reg (f_m F) t x) uf) in RU.
  rewrite <- (switch_rest A L Jump c) in RU. pose proof RU as RU'. rewrite SW in RU. injection RU as PC <-.
  destruct (fresh_arrives A L LAB CHK c0 sm pcm c _ _ _ Q1 Q6 CS (eq_sym Q7) ltac:(rewrite Q7; exact Q8) ltac:(rewrite Q7; exact DJ) RU' AG) as (Z1 & Z2).
  assert (SE : sp A v = sp A u2) by (unfold sp; symmetry; apply AG).
  split; [auto|]. split; [rewrite Z1; exact ARG|]. split; [rewrite Z2; exact FIN|].
  rewrite SE. split; [exact ALI|lia].
Qed.

(** resume(): when the last instruction of jump_fcontext is reached, the suspended call returns on
    this processor: to its return address, with its stack pointer and its callee-saved registers; its
    result is the handle of the resuming call and the data pointer. The call in state c then is
    the suspension [me]. *)
Theorem C55_resume A L n s new tr F t me h c pc :
  In A ports -> labels_ok A L -> reachable n s -> shuffled (s_tr s) (new ++ tr) -> fexec A L n tr F ->
  leaving A L F t (RSwitch me h SwJump) c pc ->
  let s1 := m_st (f_m F) h in let u := cpu_at (f_m F) t in
  returned A s1 (Goto pc u) u /\ result A s1 u = (handle A c, arg_data A c).
Proof.
  intros IN LAB RE ET X LV s1 u. destruct (sim A L n s new tr F IN LAB RE ET X) as (N & XN & R & G & V).
  exact (resume_at A L n tr F N t me h c pc u IN LAB R G V LV (agree_refl _ _)).
Qed.

(** resume_with(), ~fiber() and the end of a context-function: when the last instruction of
    ontop_fcontext is reached, it goes to the function that the call was given, on the stack of the
    suspended call and with its callee-saved registers and return address, with the handle of the
    calling context as argument. *)
Theorem C55_inject A L n s new tr F t me h k c pc :
  In A ports -> labels_ok A L -> reachable n s -> shuffled (s_tr s) (new ++ tr) -> fexec A L n tr F ->
  leaving A L F t (RSwitch me h k) c pc -> k = SwUnwind \/ (exists g, k = SwOntop g) \/ k = SwExit ->
  let s1 := m_st (f_m F) h in let u := cpu_at (f_m F) t in
  pc = ontop_pc A L c /\ ontop_fn A c u /\
  pair_at A u (ab_ont (p_abi A)) = (handle A c, arg_data A c) /\
  sp A u = sp A s1 /\ (forall r, In r (ab_saved (p_abi A)) -> rg u r = rg s1 r) /\ ret_addr A u = ret_addr A s1.
Proof.
  intros IN LAB RE ET X LV KK s1 u. destruct (sim A L n s new tr F IN LAB RE ET X) as (N & XN & R & G & V).
  assert (K : how_of k = Ontop) by (destruct KK as [-> |[(g & ->)| ->]]; reflexivity).
  exact (inject_at A L n tr F N t me h k c pc u IN LAB R G V LV (agree_refl _ _) K).
Qed.

(** A new fiber: when the jump to a context that make_fcontext has prepared reaches its last
    instruction, it goes to the function that make_fcontext was given, with the handle of the creating
    context and the data pointer as arguments, with an aligned stack pointer on the new stack; the
    function returns to the code that exits. *)
Theorem C55_enter A L n s new tr F t me to c0 c pc :
  In A ports -> labels_ok A L -> reachable n s -> shuffled (s_tr s) (new ++ tr) -> fexec A L n tr F ->
  leaving A L F t (RFirst me to c0) c pc ->
  let u := cpu_at (f_m F) t in
  pc = mk_fn A c0 /\ pair_at A u (ab_ent (p_abi A)) = (handle A c, arg_data A c) /\ ret_addr A u = L "finish"%string /\
  (sp A u + ab_bias (p_abi A)) mod ab_align (p_abi A) = 0 /\
  m_lo (f_m F) (fc_ctx to) <= sp A u <= m_hi (f_m F) (fc_ctx to).
Proof.
  intros IN LAB RE ET X LV u. destruct (sim A L n s new tr F IN LAB RE ET X) as (N & XN & R & G & V).
  exact (enter_at A L n tr F N t me to c0 c pc u IN LAB R G V LV (agree_refl _ _)).
Qed.

(** make_fcontext: when its last instruction is reached, it returns to its caller with the caller's
    stack pointer and callee-saved registers; the result points into the new stack. *)
Theorem C55_make A L n s new tr F t d c pc :
  In A ports -> labels_ok A L -> reachable n s -> shuffled (s_tr s) (new ++ tr) -> fexec A L n tr F ->
  leaving A L F t (RMake d) c pc ->
  let u := cpu_at (f_m F) t in let h := rg u (ab_mkres (p_abi A)) in
  pc = ret_addr A c /\ sp A u = sp A c + ab_pop0 (p_abi A) /\
  (forall r, In r (ab_saved (p_abi A)) -> rg u r = rg c r) /\
  m_lo (f_m F) d <= h /\ h + c_size (p_code A) <= m_hi (f_m F) d.
Proof.
  intros IN LAB RE ET X LV u h.
  destruct (C55_result A L n s new tr F t _ c pc IN LAB RE ET X LV) as (v & RU & RG & _).
  destruct (sim A L n s new tr F IN LAB RE ET X) as (N & XN & R & G & V).
  destruct LV as (x & rest & b & FR & GO & ->).
  assert (Ht : (t < n)%nat) by (apply (inside_lt A L n tr F N t R); rewrite FR; exact Logic.I).
  pose proof (l_ph _ _ _ _ _ _ R t Ht) as PH. rewrite FR in PH. cbn [ph_ok entry] in PH.
  destruct PH as (_ & _ & (UT & MS & _ & _ & T1 & T2) & _).
  destruct (C27_make_returns A L c IN LAB MS) as (c1 & RM & SP & RS & (_ & H1 & H2 & _) & _).
  cbn [alone] in RU. rewrite RU in RM. injection RM as PC <-.
  split; [exact PC|]. split; [unfold sp in *; cbn [u cpu_at rg]; rewrite RG; exact SP|].
  split; [intros r Hr; cbn [u cpu_at rg]; rewrite RG; auto|]. unfold h. cbn [u cpu_at rg]. rewrite RG. lia.
Qed.
