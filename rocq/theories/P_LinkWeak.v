(** * C56: fibers on a weak memory

    On a machine whose threads see each other's stores late and in different orders (LinkWeak.v), a
    program that synchronizes when a fiber goes from one thread to another notices nothing of it: the
    routines of src/asm contain no fences and need none.

    In all statements: s is a reachable state of the fiber machine; its history, with events that have
    no context in common exchanged at will, begins with tr; W is a state that the machine can have
    after tr, with the threads anywhere inside routines. *)
From Coq Require Import ZArith List String Lia Bool Arith.
From Verif Require Import ListUtil Fiber FiberSpec LinkHist LinkShuffle.
From Verif Require Import Word AsmMachine AsmSym AsmAbi AsmCheck AsmCode AsmCode2 AsmFacts AsmHist P_Asm AsmIl Link P_Link.
From Verif Require Import LinkStep LinkStepInv LinkStepInv2 LinkStepInv3 P_LinkStep LinkWeak LinkWeakInv.
Import ListNotations.
Open Scope list_scope.
Open Scope Z_scope.

(** thread t is about to execute the last instruction of routine r, which was called in state s; the
    instruction goes to pc *)
Definition wleaving (A : port) (L : string -> Z) (W : weak) (t : nat) (r : routine) (s : mst) (pc : Z) : Prop :=
  exists x rest b, k_ph W t = Inside r (Go x :: rest) b s /\ goes_on A L b (m_reg (k_m W) t x) = false /\ pc = m_reg (k_m W) t x.

Section Sim.
  Variable A : port.
  Variable L : string -> Z.
  Variable n : nat.
  Variables (s0 : state) (new tr : list event) (W : weak).
  Hypothesis IN : In A ports.
  Hypothesis LAB : labels_ok A L.
  Hypothesis RE : reachable n s0.
  Hypothesis ET : shuffled (s_tr s0) (new ++ tr).
  Hypothesis X : wexec A L n tr W.

  Lemma wsim : exists F top N, fexec A L n tr F /\ wrel A F W top /\ rel A L n tr F N /\ good n tr /\ minv A L n tr N.
  Proof.
    assert (G : good n tr) by (apply (good_app n new); eapply shuffled_good; eauto).
    destruct (weak_sim A L n IN LAB tr W X G) as (F & top & XF & Y).
    destruct (fgets A L n IN LAB tr F XF G) as (N & XN & R & V). exists F, top, N. auto.
  Qed.
End Sim.

Section Facts.
  Variable A : port.
  Variable L : string -> Z.
  Variable n : nat.
  Variables (tr : list event) (W : weak) (F : fine) (top : Z -> nat) (N : mach).
  Hypothesis IN : In A ports.
  Hypothesis LAB : labels_ok A L.
  Hypothesis Y : wrel A F W top.
  Hypothesis R : rel A L n tr F N.
  Hypothesis G : good n tr.
  Hypothesis V : minv A L n tr N.

  Lemma winside t r rest b c : k_ph W t = Inside r rest b c ->
    exists r' c', f_ph F t = Inside r' rest b c' /\ r_sim A r' r /\ agree (foot A (f_m F) (f_ph F t)) c' c /\ (t < n)%nat.
  Proof.
    intros E. pose proof (y_ph _ _ _ _ Y t) as PS. rewrite E in PS. apply phase_inside in PS as (r' & c' & FR & RS & AG & _).
    exists r', c'. split; [exact FR|]. split; [exact RS|]. split; [exact AG|].
    apply (inside_lt A L n tr F N t R). rewrite FR. exact Logic.I.
  Qed.

  Lemma foot_latest t a : foot A (k_m W) (k_ph W t) a -> k_seen W t a = top a.
  Proof. intros H. apply (y_upd _ _ _ _ Y). apply (foot_same A L n IN LAB tr F N W top t a R V Y). exact H. Qed.
  Lemma top_latest t a : k_seen W t a = top a -> latest W t a.
  Proof. intros E p Hp. apply (y_top _ _ _ _ Y a). lia. Qed.

  Lemma wcpu_agree t : agree (foot A (f_m F) (f_ph F t)) (cpu_at (f_m F) t) (wcpu W t).
  Proof. apply agree_sym. apply (cpu_agree A F W top t _ Y). apply (y_upd _ _ _ _ Y). Qed.

  Lemma wleave t r c pc : wleaving A L W t r c pc ->
    exists r' c', leaving A L F t r' c' pc /\ r_sim A r' r /\ agree (foot A (f_m F) (f_ph F t)) c' c /\ (t < n)%nat.
  Proof.
    intros (x & rest & b & E & GO & ->). destruct (winside t _ _ _ _ E) as (r' & c' & FR & RS & AG & Ht).
    exists r', c'. split; [|auto]. exists x, rest, b. rewrite <- (y_reg _ _ _ _ Y). auto.
  Qed.

  Lemma wnext t r i rest b c a : k_ph W t = Inside r (i :: rest) b c -> touched (cpu_of A) i (wcpu W t) a ->
    foot A (f_m F) (f_ph F t) a.
  Proof.
    intros E T. destruct (winside t _ _ _ _ E) as (r' & c' & FR & RS & AG & Ht).
    exact (touch_foot A L n tr F N W top t r' i rest b c' a R Y Ht FR T).
  Qed.

  (** the call of a switch in both machines *)
  Lemma wcall t r' r c' c rest b : f_ph F t = Inside r' rest b c' -> r_sim A r' r -> agree (foot A (f_m F) (f_ph F t)) c' c -> (t < n)%nat ->
    match r with RMake _ => False | _ => True end ->
    handle A c = handle A c' /\ arg_data A c = arg_data A c' /\ arg_fn A c = arg_fn A c'.
  Proof.
    intros FR RS AG Ht K. pose proof (l_ph _ _ _ _ _ _ R t Ht) as PH. rewrite FR in PH, AG. cbn [ph_ok] in PH.
    destruct PH as (_ & _ & EN & _).
    assert (CS : call_ok A L c') by (destruct r', r; cbn [r_sim entry] in *; try contradiction; apply EN).
    assert (OWN : forall a, own_foot A c' a -> foot A (f_m F) (Inside r' rest b c') a).
    { destruct r', r; cbn [r_sim] in *; try contradiction; intros a Ha; left; exact Ha. }
    destruct (call_same A L IN _ _ _ CS AG OWN) as (E1 & _ & E3 & E4 & _). auto.
  Qed.

  (** a suspended call in both machines *)
  Lemma wsusp h : suspended tr h ->
    sp A (m_st (k_m W) h) = sp A (m_st (f_m F) h) /\ (forall r, rg (m_st (k_m W) h) r = rg (m_st (f_m F) h) r) /\
    ret_addr A (m_st (k_m W) h) = ret_addr A (m_st (f_m F) h) /\ hidden A (m_st (k_m W) h) = hidden A (m_st (f_m F) h).
  Proof.
    intros S. pose proof (y_st _ _ _ _ Y h) as AG.
    split; [exact (sp_agree A _ _ _ AG)|]. split; [intros r; symmetry; apply AG|]. split; [|exact (hid_same A L n IN LAB _ _ _ _ _ _ R V Y S)].
    pose proof (port_checked A IN) as CHK.
    destruct (susp_same A L n tr F N IN LAB R V h S) as (_ & _ & RA & _). rewrite <- RA.
    destruct (st_agree A L n IN LAB _ _ _ _ R V S) as (CS & _ & HH & _).
    apply (pl_agree A CHK (own_foot A (m_st (f_m F) h)) (ab_ret (p_abi A)) _ _ (call_in A L CHK _ CS) (p_ret A CHK)).
    - eapply agree_trans; [apply agree_sym; apply (l_st _ _ _ _ _ _ R h S)|exact AG].
    - intros a Ha. unfold own_foot. rewrite HH. apply (own_cov A IN). exact Ha.
  Qed.
End Facts.

(** A state of the machine with weak memory is a state of the machine in which all threads see each
    store at once (C55): its memory consists of the last store to each byte. The registers, the stacks
    and the handles are the same, and so are the places in the routines. Where a routine works, the
    thread inside has seen all stores. *)
Theorem C56_refines A L n s new tr W :
  In A ports -> labels_ok A L -> reachable n s -> shuffled (s_tr s) (new ++ tr) -> wexec A L n tr W ->
  exists F, fexec A L n tr F /\
    (forall t x, m_reg (f_m F) t x = m_reg (k_m W) t x) /\
    (forall c, m_lo (f_m F) c = m_lo (k_m W) c /\ m_hi (f_m F) c = m_hi (k_m W) c) /\
    (forall h, m_at (f_m F) h = m_at (k_m W) h) /\
    (forall a, exists p, k_msg W a p = Some (m_mem (f_m F) a) /\ forall q, (p < q)%nat -> k_msg W a q = None) /\
    (forall t r rest b c, k_ph W t = Inside r rest b c ->
       exists r' c', f_ph F t = Inside r' rest b c' /\ goal (f_ph F t) = goal (k_ph W t)) /\
    (forall t a, foot A (k_m W) (k_ph W t) a -> latest W t a /\ view W t a = m_mem (f_m F) a).
Proof.
  intros IN LAB RE ET X. destruct (wsim A L n s new tr W IN LAB RE ET X) as (F & top & N & XF & Y & R & G & V).
  exists F. split; [exact XF|]. split; [intros; symmetry; apply (y_reg _ _ _ _ Y)|].
  split; [intros c; destruct (y_geo _ _ _ _ Y c) as [-> ->]; auto|]. split; [intros; symmetry; apply (y_at _ _ _ _ Y)|].
  split; [intros a; exists (top a); apply (y_top _ _ _ _ Y)|]. split.
  - intros t r rest b c E. destruct (winside A L n tr W F top N Y R t _ _ _ _ E) as (r' & c' & FR & _). exists r', c'.
    split; [exact FR|]. symmetry. apply (goal_same A _ _ _ (y_ph _ _ _ _ Y t)).
  - intros t a H. pose proof (foot_latest A L n tr W F top N IN LAB Y R V t a H) as E. split; [exact (top_latest A W F top Y t a E)|].
    exact (top_view A F W top t a Y E).
Qed.

(** Whatever the other threads have done since the call and whatever this thread has seen of it, it can
    execute the next instruction of the routine that it is in, and the routine comes to its end. *)
Theorem C56_never_stuck A L n s new tr W t r rest b c :
  In A ports -> labels_ok A L -> reachable n s -> shuffled (s_tr s) (new ++ tr) -> wexec A L n tr W ->
  k_ph W t = Inside r rest b c ->
  (exists i rest', rest = i :: rest' /\
     ((exists v, step1 (cpu_of A) L i (wcpu W t) = Some v) \/ exists x, i = Go x)) /\
  (exists pc u, rest_run A L rest b (wcpu W t) = Goto pc u).
Proof.
  intros IN LAB RE ET X E. destruct (wsim A L n s new tr W IN LAB RE ET X) as (F & top & N & XF & Y & R & G & V).
  destruct (winside A L n tr W F top N Y R t _ _ _ _ E) as (r' & c' & FR & RS & _ & Ht).
  pose proof (wcpu_agree A W F top Y t) as AW.
  pose proof (l_ph _ _ _ _ _ _ R t Ht) as PH. rewrite FR in PH, AW. cbn [ph_ok] in PH.
  destruct PH as (_ & _ & _ & _ & _ & pc & uf & u & _ & RU & AC & AG & _).
  pose proof (rest_agree A L _ _ _ _ _ AC (agree_trans _ _ _ _ AG AW)) as RA. rewrite RU in RA. destruct RA as (t' & RT & _).
  split; [|eauto]. unfold rest_run in RT.
  destruct rest as [|i rest']; [discriminate RT|]. exists i, rest'. split; [reflexivity|].
  unfold cpu_of. destruct i; cbn [run] in RT;
    try (right; eexists; reflexivity); try discriminate RT;
    left; destruct (step1 _ _ _ _) as [v|] eqn:Q; try (exists v; reflexivity); discriminate RT.
Qed.

(** An instruction of a routine never reads an old value: to the bytes that it accesses there is no
    store that its thread has not seen; and no other thread that is inside a routine accesses them. *)
Theorem C56_reads_latest A L n s new tr W t r i rest b c a :
  In A ports -> labels_ok A L -> reachable n s -> shuffled (s_tr s) (new ++ tr) -> wexec A L n tr W ->
  k_ph W t = Inside r (i :: rest) b c -> touched (cpu_of A) i (wcpu W t) a ->
  latest W t a /\
  forall t' r' i' rest' b' c', t' <> t -> k_ph W t' = Inside r' (i' :: rest') b' c' -> ~ touched (cpu_of A) i' (wcpu W t') a.
Proof.
  intros IN LAB RE ET X E T. destruct (wsim A L n s new tr W IN LAB RE ET X) as (F & top & N & XF & Y & R & G & V).
  pose proof (wnext A L n tr W F top N Y R t _ _ _ _ _ a E T) as FT. split.
  - apply (top_latest A W F top Y). apply (y_upd _ _ _ _ Y). exact FT.
  - intros t' r' i' rest' b' c' NE E' T'. pose proof (wnext A L n tr W F top N Y R t' _ _ _ _ _ a E' T') as FT'.
    exact (feet_disj A L n IN LAB tr F N t' t a R V G NE FT' FT).
Qed.

(** At its end a routine has done what it does when it is executed at once, with the memory as its
    thread saw it at the call: same registers, same destination, same memory where it works. *)
Theorem C56_result A L n s new tr W t r c pc :
  In A ports -> labels_ok A L -> reachable n s -> shuffled (s_tr s) (new ++ tr) -> wexec A L n tr W ->
  wleaving A L W t r c pc ->
  exists u, alone A L r c = Goto pc u /\ (forall x, m_reg (k_m W) t x = rg u x) /\
    (forall a, foot A (k_m W) (k_ph W t) a -> view W t a = mm u a) /\
    (forall a, ~ foot A (k_m W) (k_ph W t) a -> mm u a = mm c a).
Proof.
  intros IN LAB RE ET X LV. destruct (wsim A L n s new tr W IN LAB RE ET X) as (F & top & N & XF & Y & R & G & V).
  pose proof (fun a => foot_same A L n IN LAB tr F N W top t a R V Y) as FS.
  destruct LV as (x & rest & b & E & GO & ->).
  destruct (winside A L n tr W F top N Y R t _ _ _ _ E) as (r' & c' & FR & RS & AG & Ht).
  assert (GO' : goes_on A L b (m_reg (f_m F) t x) = false) by (rewrite <- (y_reg _ _ _ _ Y); exact GO).
  destruct (end_alone A L n tr F N t r' x rest b c' R Ht FR GO') as (uf & RU & AF & _).
  pose proof (wcpu_agree A W F top Y t) as AW.
  assert (AC : accs A L (foot A (f_m F) (f_ph F t)) (rcode A r') (rtramp r') c').
  { pose proof (l_ph _ _ _ _ _ _ R t Ht) as PH. rewrite FR in PH |- *. cbn [ph_ok] in PH. apply PH. }
  pose proof (rest_agree A L _ _ _ _ _ AC AG) as RA. rewrite RU in RA. destruct RA as (u & RT & AU & _ & UN).
  assert (RE' : rcode A r' = rcode A r /\ rtramp r' = rtramp r).
  { destruct r', r; cbn [r_sim] in RS; try contradiction; [auto|auto|]. destruct RS as (_ & _ & ->). auto. }
  destruct RE' as [RE1 RE2]. exists u. rewrite alone_rest, <- RE1, <- RE2, (y_reg _ _ _ _ Y). split; [exact RT|].
  pose proof (agree_trans _ _ _ _ (agree_sym _ _ _ AW) (agree_trans _ _ _ _ (agree_sym _ _ _ AF) AU)) as [Z1 Z2]. split; [exact Z1|]. split.
  - intros a Ha. apply Z2, FS, Ha.
  - intros a Ha. apply UN. intros Q. apply Ha, FS, Q.
Qed.

(** resume(), also on a thread other than the one that the fiber was suspended on: when the last
    instruction of jump_fcontext is reached, the suspended call returns on this processor: to its
    return address, with its stack pointer and its callee-saved registers; its result is the handle of
    the resuming call and the data pointer. *)
Theorem C56_resume A L n s new tr W t me h c pc :
  In A ports -> labels_ok A L -> reachable n s -> shuffled (s_tr s) (new ++ tr) -> wexec A L n tr W ->
  wleaving A L W t (RSwitch me h SwJump) c pc ->
  let s1 := m_st (k_m W) h in let u := wcpu W t in
  returned A s1 (Goto pc u) u /\ result A s1 u = (handle A c, arg_data A c).
Proof.
  intros IN LAB RE ET X LV s1 u. destruct (wsim A L n s new tr W IN LAB RE ET X) as (F & top & N & XF & Y & R & G & V).
  destruct (wleave A L n tr W F top N Y R t _ c pc LV) as (r' & c' & LF & RS & AG & Ht).
  destruct r' as [|me' to'|me' to' k']; cbn [r_sim] in RS; try contradiction. destruct RS as (-> & -> & ->).
  pose proof (resume_at A L n tr F N t me h c' pc u IN LAB R G V LF (wcpu_agree A W F top Y t)) as [(H1 & H2 & H3) H4].
  destruct LF as (x & rest & b & FR & GO & PC).
  destruct (wcall A L n tr F N IN R t _ (RSwitch me h SwJump) c' c _ _ FR ltac:(cbn; auto) AG Ht Logic.I) as (E1 & E2 & _).
  assert (S : suspended tr h).
  { pose proof (l_ph _ _ _ _ _ _ R t Ht) as PH. rewrite FR in PH. cbn [ph_ok entry] in PH. apply PH. }
  destruct (wsusp A L n tr W F top N IN LAB Y R V h S) as (SP & RG & RA & HI). fold s1 in SP, RG, RA, HI.
  split; [split; [|split]|].
  - rewrite RA. exact H1.
  - rewrite SP. exact H2.
  - intros r Hr. rewrite RG. apply H3. exact Hr.
  - unfold result in *. rewrite HI, E1, E2. exact H4.
Qed.

(** resume_with(), ~fiber() and the end of a context-function: when the last instruction of
    ontop_fcontext is reached, it goes to the function that the call was given, on the stack of the
    suspended call and with its callee-saved registers and return address, with the handle of the
    calling context as argument. *)
Theorem C56_inject A L n s new tr W t me h k c pc :
  In A ports -> labels_ok A L -> reachable n s -> shuffled (s_tr s) (new ++ tr) -> wexec A L n tr W ->
  wleaving A L W t (RSwitch me h k) c pc -> k = SwUnwind \/ (exists g, k = SwOntop g) \/ k = SwExit ->
  let s1 := m_st (k_m W) h in let u := wcpu W t in
  pc = ontop_pc A L c /\ ontop_fn A c u /\
  pair_at A u (ab_ont (p_abi A)) = (handle A c, arg_data A c) /\
  sp A u = sp A s1 /\ (forall r, In r (ab_saved (p_abi A)) -> rg u r = rg s1 r) /\ ret_addr A u = ret_addr A s1.
Proof.
  intros IN LAB RE ET X LV KK s1 u. destruct (wsim A L n s new tr W IN LAB RE ET X) as (F & top & N & XF & Y & R & G & V).
  assert (K : how_of k = Ontop) by (destruct KK as [-> |[(g & ->)| ->]]; reflexivity).
  destruct (wleave A L n tr W F top N Y R t _ c pc LV) as (r' & c' & LF & RS & AG & Ht).
  destruct r' as [|me' to'|me' to' k']; cbn [r_sim] in RS; try contradiction. destruct RS as (-> & -> & ->).
  pose proof (inject_at A L n tr F N t me h k c' pc u IN LAB R G V LF (wcpu_agree A W F top Y t) K) as (H1 & H2 & H3 & H4 & H5 & H6).
  destruct LF as (x & rest & b & FR & GO & PC).
  destruct (wcall A L n tr F N IN R t _ (RSwitch me h k) c' c _ _ FR ltac:(cbn; auto) AG Ht Logic.I) as (E1 & E2 & E3).
  assert (S : suspended tr h).
  { pose proof (l_ph _ _ _ _ _ _ R t Ht) as PH. rewrite FR in PH. cbn [ph_ok entry] in PH. apply PH. }
  destruct (wsusp A L n tr W F top N IN LAB Y R V h S) as (SP & RG & RA & HI). fold s1 in SP, RG, RA, HI.
  unfold ontop_pc, ontop_fn in *. rewrite E1, E2, E3, SP, RA. split; [exact H1|]. split; [exact H2|]. split; [exact H3|]. split; [exact H4|].
  split; [intros r Hr; rewrite RG; auto|exact H6].
Qed.

(** A new fiber: when the jump to a context that make_fcontext has prepared reaches its last
    instruction, it goes to the function that make_fcontext was given, with the handle of the creating
    context and the data pointer as arguments, with an aligned stack pointer on the new stack; the
    function returns to the code that exits. *)
Theorem C56_enter A L n s new tr W t me to c0 c pc :
  In A ports -> labels_ok A L -> reachable n s -> shuffled (s_tr s) (new ++ tr) -> wexec A L n tr W ->
  wleaving A L W t (RFirst me to c0) c pc ->
  let u := wcpu W t in
  pc = mk_fn A c0 /\ pair_at A u (ab_ent (p_abi A)) = (handle A c, arg_data A c) /\ ret_addr A u = L "finish"%string /\
  (sp A u + ab_bias (p_abi A)) mod ab_align (p_abi A) = 0 /\
  m_lo (k_m W) (fc_ctx to) <= sp A u <= m_hi (k_m W) (fc_ctx to).
Proof.
  intros IN LAB RE ET X LV u. destruct (wsim A L n s new tr W IN LAB RE ET X) as (F & top & N & XF & Y & R & G & V).
  destruct (wleave A L n tr W F top N Y R t _ c pc LV) as (r' & c' & LF & RS & AG & Ht).
  destruct r' as [|me' to' c1|]; cbn [r_sim] in RS; try contradiction. destruct RS as (-> & -> & A1).
  pose proof (enter_at A L n tr F N t me to c1 c' pc u IN LAB R G V LF (wcpu_agree A W F top Y t)) as (H1 & H2 & H3 & H4 & H5).
  destruct LF as (x & rest & b & FR & GO & PC).
  destruct (wcall A L n tr F N IN R t _ (RFirst me to c0) c' c _ _ FR ltac:(cbn; auto) AG Ht Logic.I) as (E1 & E2 & _).
  destruct (y_geo _ _ _ _ Y (fc_ctx to)) as [-> ->]. rewrite E1, E2. split; [|auto]. rewrite H1.
  pose proof (l_ph _ _ _ _ _ _ R t Ht) as PH. rewrite FR in PH. cbn [ph_ok entry] in PH.
  destruct PH as (_ & _ & (_ & _ & _ & (pcm & sm & MS & _)) & _). pose proof (port_checked A IN) as CHK.
  symmetry. apply (pl_agree A CHK (foot_make A c1) _ _ _ (make_in A CHK _ MS) (p_mkfn A CHK) A1).
  intros a Ha. left. pose proof (abi_nums A CHK). lia.
Qed.

(** make_fcontext: when its last instruction is reached, it returns to its caller with the caller's
    stack pointer and callee-saved registers; the result points into the new stack. *)
Theorem C56_make A L n s new tr W t d c pc :
  In A ports -> labels_ok A L -> reachable n s -> shuffled (s_tr s) (new ++ tr) -> wexec A L n tr W ->
  wleaving A L W t (RMake d) c pc ->
  let u := wcpu W t in let h := rg u (ab_mkres (p_abi A)) in
  pc = ret_addr A c /\ sp A u = sp A c + ab_pop0 (p_abi A) /\
  (forall r, In r (ab_saved (p_abi A)) -> rg u r = rg c r) /\
  m_lo (k_m W) d <= h /\ h + c_size (p_code A) <= m_hi (k_m W) d.
Proof.
  intros IN LAB RE ET X LV u h.
  destruct (C56_result A L n s new tr W t _ c pc IN LAB RE ET X LV) as (v & RU & RG & _).
  destruct (wsim A L n s new tr W IN LAB RE ET X) as (F & top & N & XF & Y & R & G & V).
  destruct (wleave A L n tr W F top N Y R t _ c pc LV) as (r' & c' & LF & RS & AG & Ht).
  destruct r' as [d'| |]; cbn [r_sim] in RS; try contradiction. subst d'.
  destruct LF as (x & rest & b & FR & GO & ->).
  pose proof (l_ph _ _ _ _ _ _ R t Ht) as PH. rewrite FR in PH, AG. cbn [ph_ok entry] in PH.
  destruct PH as (_ & _ & (UT & MS0 & _ & _ & T1 & T2) & _). pose proof (port_checked A IN) as CHK.
  assert (COV : forall a, sp A c' <= a < sp A c' + ab_up (p_abi A) -> foot_make A c' a) by (intros b' Hb; left; pose proof (abi_nums A CHK); lia).
  assert (WC : wf (ab_cpu (p_abi A)) c).
  { destruct LV as (y & rs & bb & E & _). pose proof (y_ph _ _ _ _ Y t) as PS. rewrite E, FR in PS. apply PS. }
  destruct (make_agree A CHK _ _ _ MS0 AG WC COV) as (MS & TE & _ & _). rewrite <- TE in T1, T2.
  destruct (C27_make_returns A L c IN LAB MS) as (c1 & RM & SP & RS & (_ & H1 & H2 & _) & _).
  cbn [alone] in RU. rewrite RU in RM. injection RM as PC <-.
  split; [exact PC|]. split; [unfold sp in *; cbn [u wcpu rg]; rewrite RG; exact SP|].
  split; [intros r Hr; cbn [u wcpu rg]; rewrite RG; apply RS; exact Hr|].
  destruct (y_geo _ _ _ _ Y d) as [-> ->]. unfold h. cbn [u wcpu rg]. rewrite RG. lia.
Qed.
