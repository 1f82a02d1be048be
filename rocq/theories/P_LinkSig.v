(** * C57: fibers on the assembler, with signals

    As C52, but signal handlers interrupt the routines of src/asm any number of times, between any two instructions
    (LinkSig.v).

    In all statements: [s] is a reachable state of the fiber machine, the history of [s] contains a switch with the
    events [old] before it, and [M] is a state that the machine can have after [old]; [W] are the bytes that
    handlers may write wherever the stack pointer is. *)
From Coq Require Import ZArith List String Lia Bool.
From Verif Require Import ListUtil Fiber FiberSpec LinkHist P_Fiber3.
From Verif Require Import Word AsmMachine AsmSym AsmAbi AsmCheck AsmCode AsmCode2 AsmFacts AsmHist P_Asm AsmIl Link P_Link LinkStepInv.
From Verif Require Import AsmSig AsmSig2 P_AsmSig LinkSig LinkSigInv.
Import ListNotations.
Open Scope list_scope.
Open Scope Z_scope.

(** Signals are invisible: what the machine does with signals it can do without. Memory, registers, stacks and handles are
    the same; the recorded calls have the same registers and the same arguments. *)
Theorem C57_refines A L n s new old M :
  In A ports -> no_windows A -> labels_ok A L -> reachable n s -> s_tr s = new ++ old -> sexec A L n old M ->
  exists N, exec A L n old N /\
    (forall a, m_mem N a = m_mem M a) /\ (forall t r, m_reg N t r = m_reg M t r) /\
    (forall c, m_lo N c = m_lo M c /\ m_hi N c = m_hi M c) /\ (forall h, m_at N h = m_at M h) /\
    (forall h, suspended old h -> (forall r, rg (m_st N h) r = rg (m_st M h) r) /\
       forall a, sp A (m_st M h) <= a < sp A (m_st M h) + ab_up (p_abi A) -> mm (m_st N h) a = mm (m_st M h) a).
Proof.
  intros IN NW LAB RE E X. assert (G : good n old) by (apply (good_app n new); rewrite <- E; apply good_reach; exact RE).
  destruct (sim_sig A L n IN NW LAB _ _ X G) as (N & XN & R). exists N. split; [exact XN|].
  split; [intros a; rewrite (q_mem _ _ _ _ R); reflexivity|]. split; [intros t r; rewrite (q_reg _ _ _ _ R); reflexivity|].
  split; [intros c; split; [apply (q_lo _ _ _ _ R)|apply (q_hi _ _ _ _ R)]|]. split; [apply (q_at _ _ _ _ R)|].
  intros h S. destruct (q_st _ _ _ _ R h S) as (H1 & _ & H3). split; [intros r; rewrite H1; reflexivity|exact H3].
Qed.

(** What a suspension is to the machine: as in C52. On its stack, what is above the stack pointer of the suspended call
    is as it was, unless code or a handler has written it. *)
Theorem C57_suspension A L n s new old M h :
  In A ports -> no_windows A -> labels_ok A L -> reachable n s -> s_tr s = new ++ old -> sexec A L n old M -> suspended old h ->
  m_at M h = handle A (m_st M h) /\ call_ok A L (m_st M h) /\
  roomy A (m_st M h) (m_lo M (fc_ctx h)) (m_hi M (fc_ctx h)) /\
  0 < m_lo M (fc_ctx h) <= m_at M h /\ m_at M h + own_len A <= m_hi M (fc_ctx h) /\
  (forall a, m_lo M (fc_ctx h) <= a < m_hi M (fc_ctx h) -> sp A (m_st M h) + ab_wr (p_abi A) <= a -> ~ m_wr M h a ->
     m_mem M a = mm (m_st M h) a).
Proof.
  intros IN NW LAB RE E X S. assert (G : good n old) by (apply (good_app n new); rewrite <- E; apply good_reach; exact RE).
  destruct (sim_sig A L n IN NW LAB _ _ X G) as (N & XN & R).
  destruct (C52_suspension A L n s new old N h IN LAB RE E XN S) as (H1 & H2 & H3 & H4 & H5 & _).
  destruct (alike_call A L IN _ _ (q_st _ _ _ _ R h S) H2) as (C1 & C2 & C3 & C4 & C5).
  rewrite (q_at _ _ _ _ R), (q_lo _ _ _ _ R) in *. rewrite (q_hi _ _ _ _ R) in *. rewrite C5 in H1.
  split; [exact H1|]. split; [exact C1|]. split; [apply (q_room _ _ _ _ R h S)|]. split; [lia|]. split; [lia|].
  intros a. apply (q_live _ _ _ _ R h a S).
Qed.

Section Next.
  Variable A : port.
  Variable L : string -> Z.
  Variable n : nat.
  Hypothesis IN : In A ports.
  Hypothesis NW : no_windows A.
  Hypothesis LAB : labels_ok A L.

  (** what a switch meets *)
  Lemma target_facts tr M N t from me to k : srel A tr M N -> exec A L n tr N -> good n (EvSwitch t from me to k :: tr) -> k <> SwCreate ->
    let s := cpu_at M t in let s1 := m_st N to in
    call_ok A L s -> arg_to A s = m_at M to -> roomy A s (m_lo M from) (m_hi M from) ->
    suspended tr to /\ fc_ctx me = from /\ (t < n)%nat /\ running tr t = from /\ from <> fc_ctx to /\
    (forall c e, has_stack n tr c -> has_stack n tr e -> c <> e -> sdisj (m_lo M c) (m_hi M c) (m_lo M e) (m_hi M e)) /\
    has_stack n tr from /\ has_stack n tr (fc_ctx to) /\
    context A L (mm s) (arg_to A s) (Susp s1) /\ apart A s (arg_to A s) (Susp s1) /\
    roomy A s1 (m_lo M (fc_ctx to)) (m_hi M (fc_ctx to)) /\
    call_ok A L s1 /\ m_at M to = handle A s1 /\ alike A s1 (m_st M to).
  Proof.
    intros R X G1 K s s1 CS AT RO. pose proof (port_checked A IN) as CHK. pose proof (good_tl _ _ _ G1) as G.
    pose proof (exec_minv A L n IN LAB _ _ X G) as V.
    destruct (next_switch n _ _ _ _ _ _ G1 K) as (ST & ME & Ht & RT).
    destruct (good_hd _ _ _ G1) as (_ & ((_ & _ & NT) & _) & _).
    pose proof (cpu_eq A _ _ _ t R) as EC. fold s in EC.
    assert (HF : has_stack n tr from) by (rewrite <- RT; apply has_run; auto).
    assert (HD : has_stack n tr (fc_ctx to)) by (apply has_susp; auto).
    assert (FD : from <> fc_ctx to) by (rewrite <- RT; apply NT; exact Ht).
    destruct (v_ctx _ _ _ _ _ V _ ST) as (CX & X0 & X1 & OS1 & HH & LIVE). cbn [cxof x_lo x_hi x_h x_o x_w] in *. fold s1 in CX, OS1, HH.
    pose proof (proj1 (context_facts A L LAB CHK _ _ _ CX)) as CS1.
    pose proof (q_st _ _ _ _ R to ST) as AL1. fold s1 in AL1.
    pose proof (proj1 (alike_roomy A L IN _ _ _ _ AL1 CS1) (q_room _ _ _ _ R to ST)) as RO1.
    rewrite (q_mem _ _ _ _ R), (q_at _ _ _ _ R), <- AT in CX. change (m_mem M) with (mm s) in CX. rewrite (q_at _ _ _ _ R) in HH.
    do 5 (split; [assumption|]). split; [|do 3 (split; [assumption|]); split; [|split; [exact RO1|split; [exact CS1|split; [exact HH|exact AL1]]]]].
    - intros c e H1 H2 H3. rewrite <- !(q_lo _ _ _ _ R), <- !(q_hi _ _ _ _ R). apply (v_dis _ _ _ _ _ V); auto.
    - assert (OS : on_stack A (cpu_at N t) (m_lo N from) (m_hi N from)) by (rewrite EC, (q_lo _ _ _ _ R), (q_hi _ _ _ _ R); apply RO).
      assert (I0 := conf_inv A L n _ _ _ [to] V G Ht ltac:(repeat constructor; intros []) ltac:(intros ? [<-|[]]; exact ST)).
      rewrite RT in I0. pose proof (inv_apart A L _ (cxof N to) I0 (or_introl eq_refl) OS) as AP. cbn [now cxof x_h x_o] in AP. rewrite EC in AP.
      rewrite AT, <- (q_at _ _ _ _ R). auto.
  Qed.
End Next.

(** resume(), interrupted: the suspended call h returns, on the processor of t, to its return address, with its stack
    pointer and its callee-saved registers, with the right result; what it has on its stack is as it was (unless
    code or handlers have written it); nothing else on any stack changes but what handlers write and what is
    below the caller's stack pointer. The routine always comes to this end: o is any outcome. *)
Theorem C57_resume A L n s new t from me h old M (W : Z -> Prop) o :
  In A ports -> no_windows A -> labels_ok A L -> reachable n s -> s_tr s = new ++ EvSwitch t from me h SwJump :: old ->
  sexec A L n old M ->
  let c := cpu_at M t in let s1 := m_st M h in let d := fc_ctx h in
  call_ok A L c -> arg_to A c = m_at M h -> roomy A c (m_lo M from) (m_hi M from) ->
  (forall x a, suspended old x -> owned A M x a -> ~ W a) -> (forall a, foot_susp A c s1 a -> ~ W a) ->
  iswitch A L (signals A [(m_lo M from, m_hi M from); (m_lo M d, m_hi M d)] W) Jump c o ->
  exists u,
    returned A s1 o u /\
    result A s1 u = (handle A c, arg_data A c) /\
    (forall a, m_lo M d <= a < m_hi M d -> sp A u <= a -> sp A s1 + ab_wr (p_abi A) <= a -> ~ m_wr M h a -> ~ W a ->
       (forall H, hidden A s1 = Some H -> ~ (H <= a < H + 2 * cwb (cpu_of A))) -> mm u a = mm s1 a) /\
    (forall e a, has_stack n old e -> e <> d -> m_lo M e <= a < m_hi M e -> ~ W a ->
       (e = from -> sp A c + ab_wr (p_abi A) <= a) -> mm u a = m_mem M a) /\
    sexec A L n (EvSwitch t from me h SwJump :: old) (put_sig M t me (handle A c) c u W).
Proof.
  intros IN NW LAB RE E X c s1 d CS AT RO WO WF IS. pose proof (port_checked A IN) as CHK.
  assert (G1 : good n (EvSwitch t from me h SwJump :: old)) by (apply (good_app n new); rewrite <- E; apply good_reach; exact RE).
  destruct (sim_sig A L n IN NW LAB _ _ X (good_tl _ _ _ G1)) as (N & XN & R).
  destruct (target_facts A L n IN LAB _ _ _ _ _ _ _ _ R XN G1 ltac:(discriminate) CS AT RO)
    as (ST & ME & Ht & RT & FD & DIS & HF & HD & CX & AP & RO1 & CS1 & HH & AL1). fold c d s1 in CX, AP, RO1, FD, HD, AL1.
  destruct (alike_call A L IN _ _ AL1 CS1) as (C1 & C2 & C3 & C4 & C5).
  destruct (C57_jump A L (m_st N h) c _ _ _ _ (fun a => ~ W a) o IN NW LAB CS CX AP RO RO1 (DIS _ _ HF HD FD)
    ltac:(intros a Ha; apply WF; apply (alike_foot A L IN c _ s1 a AL1 CS1); exact Ha) IS) as (u & (R1 & R2 & R3) & RES & _ & U & _).
  exists u. pose proof (wr_up A CHK) as WRU. split; [|split; [|split; [|split]]].
  - split; [rewrite <- C3; exact R1|]. split; [rewrite <- C4; exact R2|]. intros r Hr. rewrite R3 by exact Hr. destruct AL1 as (-> & _). reflexivity.
  - rewrite <- RES. unfold result. rewrite C2. reflexivity.
  - intros a Ha H1 H2 H3 H4 H5. rewrite U; [|exact H4| |lia|rewrite C2; exact H5].
    + change (mm c a) with (m_mem M a). apply (q_live _ _ _ _ R h a ST); auto.
    + pose proof (DIS _ _ HF HD FD) as D. destruct RO as ((O1 & O2 & _) & _). unfold sdisj in D. lia.
  - intros e a HE NE Ha NWa LV. change (m_mem M a) with (mm c a). pose proof (DIS _ _ HE HD NE) as D1.
    destruct RO as ((O1 & O2 & _) & _). pose proof RO1 as ((Q1 & Q2 & Q3) & _).
    assert (SU : sp A u <= m_hi M d) by (rewrite R2; pose proof (abi_nums A CHK); lia).
    apply U; [exact NWa| |unfold sdisj in D1; lia|].
    + intros Q. destruct (Nat.eq_dec e from) as [EQ|NF]; [specialize (LV EQ); lia|].
      pose proof (DIS _ _ HE HF NF) as D2. unfold sdisj in D2. lia.
    + intros H EH. rewrite EH in Q3. unfold sdisj in D1. unfold cpu_of in *. lia.
  - rewrite R1 in IS. eapply (s_switch A L n old M t from me h SwJump); eauto. discriminate.
Qed.

(** ~fiber(), resume_with(fn) and the end of a context-function, interrupted: the function is entered as if the suspended
    call h had called it; when it returns, that call returns. *)
Theorem C57_inject A L n s new t from me h k old M (W : Z -> Prop) o :
  In A ports -> no_windows A -> has_ontop A -> labels_ok A L -> reachable n s -> s_tr s = new ++ EvSwitch t from me h k :: old ->
  k = SwUnwind \/ (exists g, k = SwOntop g) \/ k = SwExit -> sexec A L n old M ->
  let c := cpu_at M t in let s1 := m_st M h in let d := fc_ctx h in
  call_ok A L c -> arg_to A c = m_at M h -> roomy A c (m_lo M from) (m_hi M from) ->
  (forall x a, suspended old x -> owned A M x a -> ~ W a) -> (forall a, foot_susp A c s1 a -> ~ W a) ->
  iswitch A L (signals A [(m_lo M from, m_hi M from); (m_lo M d, m_hi M d)] W) Ontop c o ->
  exists u,
    o = Goto (ontop_pc A L c) u /\ ontop_fn A c u /\
    pair_at A u (ab_ont (p_abi A)) = (handle A c, arg_data A c) /\
    sp A u = sp A s1 /\ (forall r, In r (ab_saved (p_abi A)) -> rg u r = rg s1 r) /\
    (forall o' v, returned A u o' v -> returned A s1 o' v /\ result A s1 v = result A u v) /\
    (forall a, m_lo M d <= a < m_hi M d -> handle A s1 + own_len A <= a -> ~ m_wr M h a -> ~ W a ->
       (forall H, hidden A s1 = Some H -> ~ (H <= a < H + 2 * cwb (cpu_of A))) -> mm u a = mm s1 a) /\
    (forall e a, has_stack n old e -> e <> d -> m_lo M e <= a < m_hi M e -> ~ W a ->
       (e = from -> sp A c + ab_wr (p_abi A) <= a) -> mm u a = m_mem M a) /\
    sexec A L n (EvSwitch t from me h k :: old) (put_sig M t me (handle A c) c u W).
Proof.
  intros IN NW HO LAB RE E KK X c s1 d CS AT RO WO WF IS. pose proof (port_checked A IN) as CHK.
  assert (K : how_of k = Ontop) by (destruct KK as [-> |[(g & ->)| ->]]; reflexivity).
  assert (K' : k <> SwCreate) by (intros ->; discriminate).
  assert (G1 : good n (EvSwitch t from me h k :: old)) by (apply (good_app n new); rewrite <- E; apply good_reach; exact RE).
  destruct (sim_sig A L n IN NW LAB _ _ X (good_tl _ _ _ G1)) as (N & XN & R).
  destruct (target_facts A L n IN LAB _ _ _ _ _ _ _ _ R XN G1 K' CS AT RO)
    as (ST & ME & Ht & RT & FD & DIS & HF & HD & CX & AP & RO1 & CS1 & HH & AL1). fold c d s1 in CX, AP, RO1, FD, HD, AL1.
  destruct (alike_call A L IN _ _ AL1 CS1) as (C1 & C2 & C3 & C4 & C5).
  destruct (C57_ontop A L (m_st N h) c _ _ _ _ (fun a => ~ W a) o IN NW HO LAB CS CX AP RO RO1 (DIS _ _ HF HD FD)
    ltac:(intros a Ha; apply WF; apply (alike_foot A L IN c _ s1 a AL1 CS1); exact Ha) IS)
    as (u & R1 & FN & ARG & SP & SV & RA & HI & RET & U & _).
  exists u. pose proof (wr_up A CHK) as WRU. split; [exact R1|]. split; [exact FN|]. split; [exact ARG|]. split; [rewrite <- C4; exact SP|].
  split; [intros r Hr; rewrite SV by exact Hr; destruct AL1 as (-> & _); reflexivity|].
  split; [|split; [|split]].
  - intros o' v RV. destruct (RET v o' RV) as ((Q1 & Q2 & Q3) & Q4). split.
    + split; [rewrite <- C3; exact Q1|]. split; [rewrite <- C4; exact Q2|]. intros r Hr. rewrite Q3 by exact Hr. destruct AL1 as (-> & _). reflexivity.
    + rewrite <- Q4. unfold result. rewrite C2. reflexivity.
  - intros a Ha H2 H3 H4 H5. pose proof (abi_nums A CHK) as NN. rewrite U; [|exact H4| | |rewrite C2; exact H5].
    + change (mm c a) with (m_mem M a). apply (q_live _ _ _ _ R h a ST); auto. unfold own_len, handle in *. fold s1. lia.
    + pose proof (DIS _ _ HF HD FD) as D. destruct RO as ((O1 & O2 & _) & _). unfold sdisj in D. lia.
    + rewrite AT, HH, C5. lia.
  - intros e a HE NE Ha NWa LV. change (m_mem M a) with (mm c a). pose proof (DIS _ _ HE HD NE) as D1.
    destruct RO as ((O1 & O2 & _) & _). pose proof RO1 as ((Q1 & Q2 & Q3) & _).
    assert (SU : arg_to A c + own_len A <= m_hi M d) by (rewrite AT, HH; unfold own_len, handle; lia).
    apply U; [exact NWa| |unfold sdisj in D1; lia|].
    + intros Q. destruct (Nat.eq_dec e from) as [EQ|NF]; [specialize (LV EQ); lia|].
      pose proof (DIS _ _ HE HF NF) as D2. unfold sdisj in D2. lia.
    + intros H EH. rewrite EH in Q3. unfold sdisj in D1. unfold cpu_of in *. lia.
  - rewrite R1 in IS. eapply (s_switch A L n old M t from me h k); eauto. rewrite K. exact IS.
Qed.

(** Creation, interrupted in make_fcontext and in jump_fcontext: make_fcontext returns a context on the new stack; the
    jump to it enters the given function. *)
Theorem C57_create A L n s new t from me to old M (W0 : Z -> Prop) o0 :
  In A ports -> no_windows A -> labels_ok A L -> reachable n s -> s_tr s = new ++ EvSwitch t from me to SwCreate :: old ->
  sexec A L n old M ->
  let c0 := cpu_at M t in let d := fc_ctx to in
  make_ok A c0 -> m_lo M from < sp A c0 - c_mkscr (p_code A) -> sp A c0 + ab_up (p_abi A) <= m_hi M from ->
  m_lo M d + c_frame (p_code A) < mk_top A c0 - c_need (p_code A) -> mk_top A c0 <= m_hi M d ->
  (forall h a, suspended old h -> owned A M h a -> ~ W0 a) -> (forall a, foot_make A c0 a -> ~ W0 a) ->
  irun (cpu_of A) L (signals A [(m_lo M from, m_hi M from)] W0) (c_make (p_code A)) c0 o0 ->
  exists c1, let h := rg c1 (ab_mkres (p_abi A)) in
    o0 = Goto (ret_addr A c0) c1 /\
    sp A c1 = sp A c0 + ab_pop0 (p_abi A) /\ (forall r, In r (ab_saved (p_abi A)) -> rg c1 r = rg c0 r) /\
    m_lo M d <= h /\ h + c_size (p_code A) <= m_hi M d /\
    (forall e a, has_stack n old e -> e <> d -> m_lo M e <= a < m_hi M e -> ~ W0 a ->
       (e = from -> sp A c1 <= a) -> mm c1 a = m_mem M a) /\
    forall c (W : Z -> Prop) o, wf (cpu_of A) c ->
      (forall x a, suspended old x -> owned A M x a -> mm c a = mm c1 a) ->
      (forall a, h <= a < h + c_size (p_code A) -> mm c a = mm c1 a) ->
      call_ok A L c -> arg_to A c = h -> roomy A c (m_lo M from) (m_hi M from) ->
      (forall h a, suspended old h -> owned A M h a -> ~ W a) -> (forall a, foot_new A c a -> ~ W a) ->
      iswitch A L (signals A [(m_lo M from, m_hi M from); (m_lo M d, m_hi M d)] W) Jump c o ->
      exists u,
        o = Goto (mk_fn A c0) u /\
        pair_at A u (ab_ent (p_abi A)) = (handle A c, arg_data A c) /\
        ret_addr A u = L "finish"%string /\
        (sp A u + ab_bias (p_abi A)) mod ab_align (p_abi A) = 0 /\
        m_lo M d <= sp A u <= m_hi M d /\
        (forall e a, has_stack n old e -> e <> d -> m_lo M e <= a < m_hi M e -> ~ W a ->
           (e = from -> sp A c + ab_wr (p_abi A) <= a) -> mm u a = mm c a) /\
        sexec A L n (EvSwitch t from me to SwCreate :: old) (put_sig (spoiled M W0 c1 c) t me (handle A c) c u W).
Proof.
  intros IN NW LAB RE E X c0 d MK T1 T2 T3 T4 W0O W0F IM. pose proof (port_checked A IN) as CHK.
  assert (G1 : good n (EvSwitch t from me to SwCreate :: old)) by (apply (good_app n new); rewrite <- E; apply good_reach; exact RE).
  pose proof (good_tl _ _ _ G1) as G. destruct (sim_sig A L n IN NW LAB _ _ X G) as (N & XN & R).
  pose proof (exec_minv A L n IN LAB _ _ XN G) as V.
  destruct (good_hd _ _ _ G1) as ((M1 & M2 & M3 & M4 & M5) & ((Ht & RT & NT) & _) & (_ & NF & _) & AL). cbn in AL.
  assert (HD : has_stack n old d).
  { split; [right; exact AL|]. intros Y. apply (NF _ Y). cbn. auto. }
  assert (HF : has_stack n old from) by (rewrite <- RT; apply has_run; auto).
  assert (FD : from <> d) by (rewrite <- RT; apply NT; exact Ht).
  assert (DIS : forall c e, has_stack n old c -> has_stack n old e -> c <> e -> sdisj (m_lo M c) (m_hi M c) (m_lo M e) (m_hi M e)).
  { intros c e H1 H2 H3. rewrite <- !(q_lo _ _ _ _ R), <- !(q_hi _ _ _ _ R). apply (v_dis _ _ _ _ _ V); auto. }
  pose proof (DIS _ _ HF HD FD) as DI. pose proof (abi_nums A CHK) as NN. pose proof (wr_up A CHK) as WRU.
  destruct (v_bnd _ _ _ _ _ V _ HD) as (B0 & B1). rewrite (q_lo _ _ _ _ R), (q_hi _ _ _ _ R) in B0.
  assert (T5 : sdisj (m_lo M from) (m_hi M from) (mk_top A c0 - c_need (p_code A)) (mk_top A c0)) by (unfold sdisj in *; lia).
  destruct (C57_make A L c0 _ _ (fun a => ~ W0 a) o0 IN NW LAB MK T1 T2 T5 W0F IM) as (c1 & R1 & SP1 & SV & (s' & F1 & F2 & _ & CX1) & H1 & H2 & U1 & W1).
  exists c1. intros h. split; [exact R1|]. split; [exact SP1|]. split; [exact SV|]. fold h in H1, H2, U1, CX1. split; [lia|]. split; [lia|]. split.
  { intros e a HE NE Ha NWa LV. pose proof (DIS _ _ HE HD NE) as D1. change (m_mem M a) with (mm c0 a). apply U1; [exact NWa| |unfold sdisj in D1; lia].
    intros Q. destruct (Nat.eq_dec e from) as [EQ|NE']; [specialize (LV EQ); lia|]. pose proof (DIS _ _ HE HF NE') as D2. unfold sdisj in D2. lia. }
  intros c W o Wc U U' CS AT RO WO WF IS.
  assert (CX : context A L (mm c) (arg_to A c) (AsmAbi.Made s')).
  { rewrite AT. apply (context_ext A L (mm c1)); [exact CX1|exact U']. }
  destruct (C57_first_jump A L s' c _ _ (m_lo M d) (m_hi M d) (fun a => ~ W a) o IN NW LAB CS CX RO ltac:(lia) ltac:(lia) ltac:(lia) DI WF IS)
    as (u & R2 & ARG & RA & ALI & SPU & _ & UU & _).
  exists u. rewrite F1 in R2. rewrite F2 in SPU. split; [exact R2|]. split; [exact ARG|]. split; [exact RA|]. split; [exact ALI|]. split; [lia|]. split.
  - intros e a HE NE Ha NWa LV. pose proof (DIS _ _ HE HD NE) as D1. destruct RO as ((O1 & O2 & _) & _). apply UU; [exact NWa| |unfold sdisj in D1; lia].
    intros Q. destruct (Nat.eq_dec e from) as [EQ|NE']; [specialize (LV EQ); lia|]. pose proof (DIS _ _ HE HF NE') as D2. unfold sdisj in D2. lia.
  - rewrite R1 in IM. rewrite R2 in IS. eapply (s_create A L n old M t from me to W0); eauto.
Qed.
