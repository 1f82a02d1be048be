(** Machinery for P_LinkSig.v: the machine of LinkSig.v simulates that of Link.v. *)
From Coq Require Import ZArith List String Lia Bool.
From Verif Require Import ListUtil Fiber FiberSpec LinkHist.
From Verif Require Import Word AsmMachine AsmSym AsmAbi AsmCheck AsmCode AsmCode2 AsmFacts AsmHist P_Asm AsmIl Link P_Link LinkStepInv.
From Verif Require Import AsmSig AsmSig2 P_AsmSig LinkSig.
Import ListNotations.
Open Scope list_scope.
Open Scope Z_scope.

Lemma irun_nil P L intr s o : irun P L intr [] s o -> o = Stuck.
Proof. intros X. remember [] as c eqn:E. induction X; try discriminate; auto. Qed.

Section Inv.
  Variable A : port.
  Variable L : string -> Z.
  Variable n : nat.
  Hypothesis IN : In A ports.
  Hypothesis NW : no_windows A.
  Hypothesis LAB : labels_ok A L.
  Local Notation B := (p_abi A).
  Local Notation C := (p_code A).
  Local Notation P := (ab_cpu (p_abi A)).
  Let CHK : check A = true := port_checked A IN.

  (** the same call, as far as it matters *)
  Definition alike (s' s : mst) : Prop :=
    rg s' = rg s /\ wf P s /\ forall a, sp A s <= a < sp A s + ab_up B -> mm s' a = mm s a.

  Record srel (tr : list event) (M N : mach) : Prop := {
    q_mem : m_mem N = m_mem M;
    q_reg : forall t, m_reg N t = m_reg M t;
    q_lo : forall c, m_lo N c = m_lo M c;
    q_hi : forall c, m_hi N c = m_hi M c;
    q_at : forall h, m_at N h = m_at M h;
    q_st : forall h, suspended tr h -> alike (m_st N h) (m_st M h);
    q_room : forall h, suspended tr h -> roomy A (m_st M h) (m_lo M (fc_ctx h)) (m_hi M (fc_ctx h));
    q_live : forall h a, suspended tr h -> m_lo M (fc_ctx h) <= a < m_hi M (fc_ctx h) -> sp A (m_st M h) + ab_wr B <= a ->
               ~ m_wr M h a -> m_mem M a = mm (m_st M h) a
  }.

  Lemma cpu_eq tr M N t : srel tr M N -> cpu_at N t = cpu_at M t.
  Proof. intros R. unfold cpu_at. rewrite (q_mem _ _ _ R), (q_reg _ _ _ R). reflexivity. Qed.

  Lemma alike_call s' s : alike s' s -> call_ok A L s' ->
    call_ok A L s /\ hidden A s' = hidden A s /\ ret_addr A s' = ret_addr A s /\ sp A s' = sp A s /\ handle A s' = handle A s.
  Proof.
    intros (RG & W & M) CS. assert (SP : sp A s' = sp A s) by (unfold sp; rewrite RG; reflexivity).
    destruct (same_call A L s' s CHK CS ltac:(auto) W) as (C1 & _ & _ & C4 & _ & C6 & C7 & C8); [rewrite SP; intros a Ha; symmetry; auto|].
    do 4 (split; [auto|]). auto.
  Qed.

  Lemma alike_roomy s' s lo hi : alike s' s -> call_ok A L s' -> roomy A s lo hi <-> roomy A s' lo hi.
  Proof.
    intros X CS. destruct (alike_call s' s X CS) as (_ & H & _ & SP & HA).
    unfold roomy, on_stack, live_result. rewrite H, SP, HA. reflexivity.
  Qed.
  Lemma alike_foot s s1' s1 a : alike s1' s1 -> call_ok A L s1' -> foot_susp A s s1' a <-> foot_susp A s s1 a.
  Proof. intros X CS. destruct (alike_call s1' s1 X CS) as (_ & H & _). unfold foot_susp. rewrite H. reflexivity. Qed.

  Lemma at_code N t s : cpu_at (put_code N t s) t = s.
  Proof. unfold cpu_at, put_code. cbn. rewrite Nat.eqb_refl. destruct s. reflexivity. Qed.

  (** code on the two stacks *)
  Lemma owned_in N tr h a : minv A L n tr N -> good n tr -> suspended tr h -> owned A N h a ->
    m_lo N (fc_ctx h) <= a < m_hi N (fc_ctx h).
  Proof.
    intros V G S O. destruct (v_ctx _ _ _ _ _ V _ S) as (CX & _ & _ & (O1 & O2 & _) & HH & _).
    cbn [cxof x_lo x_hi x_h x_o] in *. unfold owned, own_len, handle in *. lia.
  Qed.

  Lemma start_srel M : srel [] M M.
  Proof.
    assert (Z : forall h, suspended [] h -> False) by (intros h [(? & ? & ? & ? & [] & _) _]).
    constructor; auto; intros h *; intros S; destruct (Z _ S).
  Qed.

  Lemma quiet_srel e tr M N : is_switch e = false -> srel tr M N -> srel (e :: tr) M N.
  Proof.
    intros Q R. constructor; try apply R; intros h; [intros H|intros H|intros a H]; apply susp_quiet in H; auto; apply R; auto.
  Qed.

  Lemma code_srel tr M N t s : srel tr M N -> srel tr (put_code M t s) (put_code N t s).
  Proof.
    intros R. constructor; cbn; try apply R; auto.
    - intros t'. destruct (Nat.eqb t' t); [reflexivity|apply (q_reg _ _ _ R)].
    - intros h a S Ha Hs Hw. destruct (Z.eq_dec (mm s a) (m_mem M a)) as [E|E]; [|destruct Hw; auto].
      rewrite E. apply (q_live _ _ _ R); auto.
  Qed.

  (** ** A switch *)
  Lemma switch_srel tr M N t from me to k W pc u : srel tr M N -> exec A L n tr N ->
    good n (EvSwitch t from me to k :: tr) -> k <> SwCreate ->
    let s := cpu_at M t in let d := fc_ctx to in
    call_ok A L s -> arg_to A s = m_at M to -> roomy A s (m_lo M from) (m_hi M from) ->
    (forall h a, suspended tr h -> owned A M h a -> ~ W a) -> (forall a, foot_susp A s (m_st M to) a -> ~ W a) ->
    iswitch A L (signals A [(m_lo M from, m_hi M from); (m_lo M d, m_hi M d)] W) (how_of k) s (Goto pc u) ->
    exists N', exec A L n (EvSwitch t from me to k :: tr) N' /\
      srel (EvSwitch t from me to k :: tr) (put_sig M t me (handle A s) s u W) N'.
  Proof.
    intros R X G1 K s d CS AT RO WO WF IS. pose proof (good_tl _ _ _ G1) as G. pose proof (good_facts _ _ G) as F.
    pose proof (exec_minv A L n IN LAB _ _ X G) as V.
    destruct (next_switch n _ _ _ _ _ _ G1 K) as (ST & ME & Ht & RT).
    destruct (good_hd _ _ _ G1) as (_ & ((_ & _ & NT) & _) & _).
    pose proof (cpu_eq _ _ _ t R) as EC. fold s in EC.
    assert (NM : forall h, suspended tr h -> h <> me).
    { intros h H E. subst h. apply (proj2 (proj2 (f_susp _ _ F _ H)) t Ht). congruence. }
    assert (HF : has_stack n tr from) by (rewrite <- RT; apply has_run; auto).
    assert (HD : has_stack n tr d) by (apply has_susp; auto).
    assert (FD : from <> d) by (rewrite <- RT; apply NT; exact Ht).
    assert (DIS : forall c e, has_stack n tr c -> has_stack n tr e -> c <> e -> sdisj (m_lo M c) (m_hi M c) (m_lo M e) (m_hi M e)).
    { intros c e H1 H2 H3. rewrite <- !(q_lo _ _ _ R), <- !(q_hi _ _ _ R). apply (v_dis _ _ _ _ _ V); auto. }
    pose proof (DIS _ _ HF HD FD) as DI.
    (* the target *)
    set (s1 := m_st N to) in *.
    destruct (v_ctx _ _ _ _ _ V _ ST) as (CX & X0 & X1 & OS1 & HH & LIVE). cbn [cxof x_lo x_hi x_h x_o x_w] in *. fold s1 in CX, OS1, HH, LIVE.
    pose proof (proj1 (context_facts A L LAB CHK _ _ _ CX)) as CS1.
    pose proof (q_st _ _ _ R to ST) as AL1. fold s1 in AL1.
    pose proof (proj1 (alike_roomy _ _ _ _ AL1 CS1) (q_room _ _ _ R to ST)) as RO1. fold d in RO1.
    rewrite (q_mem _ _ _ R), (q_at _ _ _ R), <- AT in CX. change (m_mem M) with (mm s) in CX.
    assert (OS : on_stack A (cpu_at N t) (m_lo N from) (m_hi N from)) by (rewrite EC, (q_lo _ _ _ R), (q_hi _ _ _ R); apply RO).
    assert (AP : apart A s (arg_to A s) (Susp s1)).
    { assert (I0 := conf_inv A L n _ _ _ [to] V G Ht ltac:(repeat constructor; intros []) ltac:(intros ? [<-|[]]; exact ST)).
      rewrite RT in I0. pose proof (inv_apart A L _ (cxof N to) I0 (or_introl eq_refl) OS) as AP. cbn [now cxof x_h x_o] in AP. rewrite EC in AP.
      rewrite AT, <- (q_at _ _ _ R). auto. }
    assert (HO : how_of k = Ontop -> has_ontop A).
    { intros E Q. destruct IS as (o1 & IR & GO). rewrite E in *. cbn [code_of tramp_of] in *. rewrite Q in IR. apply irun_nil in IR.
      subst o1. discriminate. }
    assert (KP : forall a, foot_susp A s s1 a -> ~ W a) by (intros a Ha; apply WF; apply (alike_foot s s1); auto).
    destruct (susp_equiv A L IN NW LAB s s1 _ _ _ _ _ CS CX AP RO RO1 DI KP (how_of k) _ HO IS)
      as (pc1 & u1 & s' & t' & E & SW & RG & WS & WU & RU & MU & PU & MS & C1 & C2 & C3 & C4 & C5 & C6 & C7 & CX' & AP').
    injection E as <- <-.
    destruct RO as ((O1 & O2 & O3) & O4 & O5).
    assert (TOS : m_lo M d <= arg_to A s /\ arg_to A s + own_len A <= m_hi M d).
    { destruct RO1 as ((Q1 & Q2 & _) & _). rewrite AT, <- (q_at _ _ _ R), HH. unfold own_len, handle in *. lia. }
    (* the state before *)
    set (N1 := put_code N t s').
    assert (OWN : forall h a, suspended tr h -> h <> to -> owned A M h a -> ~ (m_lo M from <= a < m_hi M from) /\ ~ (m_lo M d <= a < m_hi M d)).
    { intros h a S NE O.
      assert (OI : m_lo M (fc_ctx h) <= a < m_hi M (fc_ctx h)).
      { rewrite <- !(q_lo _ _ _ R), <- !(q_hi _ _ _ R). apply (owned_in N tr); auto. unfold owned in *. rewrite (q_at _ _ _ R). exact O. }
      pose proof (has_susp n _ _ G S) as HS. split; intros Q.
      - pose proof (DIS _ _ HS HF) as D. assert (NE' : fc_ctx h <> from) by (intros E; apply (proj2 (proj2 (f_susp _ _ F _ S)) t Ht); congruence).
        specialize (D NE'). unfold sdisj in D. lia.
      - assert (NE' : fc_ctx h <> d) by (intros E; apply NE; apply (f_one _ _ F); auto).
        pose proof (DIS _ _ HS HD NE') as D. unfold sdisj in D. lia. }
    assert (E1 : exec A L n tr N1).
    { apply x_code; [exact X|exact Ht|exact WS|]. intros h a S O. unfold owned in O. rewrite (q_at _ _ _ R) in O. rewrite (q_mem _ _ _ R).
      change (m_mem M a) with (mm s a). destruct (fctx_eq_dec h to) as [-> |NE].
      - apply MS; [apply KP; right; left; rewrite AT; exact O| |rewrite AT; unfold owned in O; lia].
        rewrite <- AT in O. pose proof (abi_nums A CHK). unfold sdisj in DI. unfold handle, own_len in *. lia.
      - destruct (OWN h a S NE O). apply MS; [apply (WO h a S O)| |]; unfold sdisj, handle, own_len in *; pose proof (abi_nums A CHK); lia. }
    assert (EC1 : cpu_at N1 t = s') by apply at_code.
    assert (OS' : on_stack A s' (m_lo N1 from) (m_hi N1 from)).
    { cbn. rewrite (q_lo _ _ _ R), (q_hi _ _ _ R). unfold on_stack. rewrite C4, C6, C7. auto. }
    assert (E2 : exec A L n (EvSwitch t from me to k :: tr) (put_susp (put_cpu N1 t t') me (handle A s') s')).
    { pose proof (x_switch A L n tr N1 t from me to k pc t' E1 Ht K) as Y. cbv zeta in Y. rewrite EC1 in Y. apply Y; auto.
      cbn. rewrite C2, (q_at _ _ _ R). exact AT. }
    pose proof (exec_minv A L n IN LAB _ _ E1 G) as V1.
    assert (UNT : forall c a, has_stack n tr c -> c <> d -> m_lo M c <= a < m_hi M c ->
              ~ (handle A s <= a < sp A s + ab_wr B) -> mm t' a = mm s' a).
    { intros c a HC NC Ha NH. pose proof (others_untouched A L n IN LAB tr N1 t to (how_of k) t' pc c a V1 G Ht ST) as Y.
      rewrite EC1 in Y. rewrite RT in Y. apply Y; auto.
      - cbn. rewrite C2, (q_at _ _ _ R). exact AT.
      - cbn. rewrite (q_lo _ _ _ R), (q_hi _ _ _ R). exact Ha.
      - rewrite C6, C7. exact NH. }
    (* what is not on the target's stack *)
    assert (FA : forall c a, has_stack n tr c -> c <> d -> m_lo M c <= a < m_hi M c -> ~ W a ->
              (c = from -> sp A s + ab_wr B <= a) -> mm u a = mm s a).
    { intros c a HC NC Ha NWa LV. pose proof (wr_up A CHK) as WRU. pose proof (DIS _ _ HC HD NC) as D1.
      assert (D2 : c <> from -> sdisj (m_lo M c) (m_hi M c) (m_lo M from) (m_hi M from)) by (intros; apply DIS; auto).
      assert (NF : ~ (m_lo M from <= a < sp A s + ab_wr B)).
      { intros Q. destruct (Nat.eq_dec c from) as [EQ|NE]; [specialize (LV EQ); lia|]. specialize (D2 NE). unfold sdisj in D2. lia. }
      assert (ND : ~ (m_lo M d <= a < m_hi M d)) by (unfold sdisj in D1; lia).
      assert (EU : mm u a = mm t' a).
      { destruct (Z.eq_dec (mm u a) (mm t' a)) as [|NE]; [assumption|]. destruct (MU a NE). lia. }
      rewrite EU, (UNT c a HC NC Ha) by lia. apply MS; [exact NWa|lia|]. pose proof (abi_nums A CHK). unfold own_len in *. lia. }
    assert (E3 : exec A L n (EvSwitch t from me to k :: tr) (put_code (put_susp (put_cpu N1 t t') me (handle A s') s') t u)).
    { apply x_code; [exact E2|exact Ht|exact WU|]. intros h a S O. cbn [put_susp put_cpu m_mem].
      destruct (Z.eq_dec (mm u a) (mm t' a)) as [|NE]; [assumption|exfalso]. destruct (MU a NE) as (Q1 & Q2).
      unfold owned in O. cbn [put_susp put_cpu m_at] in O. apply susp_switch in S as (S & NC & NTo).
      destruct (fc_eqb h me) eqn:EH.
      - rewrite C7 in O. unfold sdisj, handle, own_len in *. lia.
      - assert (Hh : suspended tr h).
        { split; [|exact NC]. destruct S as [[-> _]|S]; [rewrite fc_eqb_refl in EH; discriminate|exact S]. }
        cbn in O. rewrite (q_at _ _ _ R) in O. destruct (OWN h a Hh NTo O) as (_ & Q3). lia. }
    eexists. split; [exact E3|].
    constructor; cbn [put_code put_susp put_cpu put_sig m_mem m_reg m_lo m_hi m_at m_st m_wr N1].
    - reflexivity.
    - intros t1. destruct (Nat.eqb t1 t); [reflexivity|]. apply (q_reg _ _ _ R).
    - apply (q_lo _ _ _ R).
    - apply (q_hi _ _ _ R).
    - intros h. destruct (fc_eqb h me); [exact C7|apply (q_at _ _ _ R)].
    - intros h S. apply susp_switch in S as (S & NC & NTo). destruct (fc_eqb h me) eqn:EH.
      + split; [exact RG|]. split; [apply CS|]. intros a Ha. apply MS; [apply KP; left; unfold own_foot, own_len, handle; pose proof (abi_nums A CHK); lia|lia|].
        unfold sdisj, handle, own_len in *. pose proof (abi_nums A CHK). lia.
      + apply (q_st _ _ _ R). split; [|exact NC]. destruct S as [[-> _]|S]; [rewrite fc_eqb_refl in EH; discriminate|exact S].
    - intros h S. apply susp_switch in S as (S & NC & NTo). destruct (fc_eqb h me) eqn:EH.
      + apply fc_eqb_eq in EH. subst h. rewrite ME. split; [split; [exact O1|split; [exact O2|exact O3]]|split; [exact O4|exact O5]].
      + apply (q_room _ _ _ R). split; [|exact NC]. destruct S as [[-> _]|S]; [rewrite fc_eqb_refl in EH; discriminate|exact S].
    - intros h a S Ha Hs Hw. apply susp_switch in S as (S & NC & NTo). destruct (fc_eqb h me) eqn:EH.
      + apply fc_eqb_eq in EH. subst h. rewrite ME in Ha. apply (FA from); auto.
      + assert (Hh : suspended tr h).
        { split; [|exact NC]. destruct S as [[-> _]|S]; [rewrite fc_eqb_refl in EH; discriminate|exact S]. }
        rewrite (FA (fc_ctx h) a); [apply (q_live _ _ _ R); tauto|apply has_susp; auto| |exact Ha|tauto|].
        * intros E. apply NTo. apply (f_one _ _ F); auto.
        * intros E. exfalso. apply (proj2 (proj2 (f_susp _ _ F _ Hh)) t Ht). congruence.
  Qed.

  (** ** A creation *)
  Lemma create_srel tr M N t from me to W0 pc u0 s W pc' u : srel tr M N -> exec A L n tr N ->
    good n (EvSwitch t from me to SwCreate :: tr) ->
    let s00 := cpu_at M t in let d := fc_ctx to in
    make_ok A s00 -> m_lo M from < sp A s00 - c_mkscr C -> sp A s00 + ab_up B <= m_hi M from ->
    m_lo M d + c_frame C < mk_top A s00 - c_need C -> mk_top A s00 <= m_hi M d ->
    (forall h a, suspended tr h -> owned A M h a -> ~ W0 a) -> (forall a, foot_make A s00 a -> ~ W0 a) ->
    irun P L (signals A [(m_lo M from, m_hi M from)] W0) (c_make C) s00 (Goto pc u0) ->
    wf P s ->
    (forall h a, suspended tr h -> owned A M h a -> mm s a = mm u0 a) ->
    (forall a, rg u0 (ab_mkres B) <= a < rg u0 (ab_mkres B) + c_size C -> mm s a = mm u0 a) ->
    call_ok A L s -> arg_to A s = rg u0 (ab_mkres B) -> roomy A s (m_lo M from) (m_hi M from) ->
    (forall h a, suspended tr h -> owned A M h a -> ~ W a) -> (forall a, foot_new A s a -> ~ W a) ->
    iswitch A L (signals A [(m_lo M from, m_hi M from); (m_lo M d, m_hi M d)] W) Jump s (Goto pc' u) ->
    exists N', exec A L n (EvSwitch t from me to SwCreate :: tr) N' /\
      srel (EvSwitch t from me to SwCreate :: tr) (put_sig (spoiled M W0 u0 s) t me (handle A s) s u W) N'.
  Proof.
    intros R X G1 s00 d MK T1 T2 T3 T4 W0O W0F IM WS0 U U' CS AT RO WO WF IS.
    pose proof (good_tl _ _ _ G1) as G. pose proof (good_facts _ _ G) as F.
    pose proof (exec_minv A L n IN LAB _ _ X G) as V.
    destruct (good_hd _ _ _ G1) as ((M1 & M2 & M3 & M4 & M5) & ((Ht & RT & NT) & _) & (_ & NF & _) & AL). cbn in AL.
    pose proof (cpu_eq _ _ _ t R) as EC. fold s00 in EC.
    assert (HD : has_stack n tr d).
    { split; [right; exact AL|]. intros Y. apply (NF _ Y). cbn. auto. }
    assert (NDS : forall h, suspended tr h -> fc_ctx h <> d).
    { intros h H E. destruct (created_from _ _ _ G (proj1 H)) as (t1 & to1 & k1 & H1 & _).
      apply (M5 _ (fc_ctx h) H1); [reflexivity|cbn; auto|exact E]. }
    assert (HF : has_stack n tr from) by (rewrite <- RT; apply has_run; auto).
    assert (FD : from <> d) by (rewrite <- RT; apply NT; exact Ht).
    assert (DIS : forall c e, has_stack n tr c -> has_stack n tr e -> c <> e -> sdisj (m_lo M c) (m_hi M c) (m_lo M e) (m_hi M e)).
    { intros c e H1 H2 H3. rewrite <- !(q_lo _ _ _ R), <- !(q_hi _ _ _ R). apply (v_dis _ _ _ _ _ V); auto. }
    pose proof (DIS _ _ HF HD FD) as DI.
    pose proof (abi_nums A CHK) as NN. pose proof (wr_up A CHK) as WRU.
    destruct (v_bnd _ _ _ _ _ V _ HD) as (B0 & B1). rewrite (q_lo _ _ _ R), (q_hi _ _ _ R) in B0. rewrite (q_hi _ _ _ R) in B1.
    (* make *)
    assert (T5 : sdisj (m_lo M from) (m_hi M from) (mk_top A s00 - c_need C) (mk_top A s00)) by (unfold sdisj in *; lia).
    destruct (make_equiv A L IN NW LAB s00 _ _ _ MK T1 T2 T5 W0F _ IM)
      as (pc1 & u1 & p & m & E & RM & RG0 & WP & WU0 & RU0 & MU0 & MM & K1 & K2 & K3 & K4 & K5).
    injection E as <- <-.
    destruct (C27_make_returns A L p IN LAB K1) as (m' & RM' & SPm & _ & (_ & H1 & H2 & MF) & _).
    unfold cpu_of in RM'. rewrite RM in RM'. injection RM' as EPC <-. rewrite K2 in H1, H2.
    rewrite <- RU0 in H1, H2, MF. rewrite <- AT in H1, H2, MF.
    (* jump *)
    assert (CX : context A L (mm s) (arg_to A s) (AsmAbi.Made p)).
    { rewrite AT, RU0. econstructor; eauto. intros a Ha. rewrite <- RU0 in Ha. rewrite (U' a Ha).
      destruct (Z.eq_dec (mm u0 a) (mm m a)) as [|NE]; [assumption|exfalso]. specialize (MU0 a NE). rewrite <- AT in Ha.
      assert (SPU : sp A u0 = sp A m) by apply RU0. unfold sdisj in DI. lia. }
    destruct (fresh_equiv A L IN NW LAB p s _ _ (m_lo M d) (m_hi M d) _ CS CX RO ltac:(lia) ltac:(lia) ltac:(lia) DI WF _ IS)
      as (pc2 & u2 & s' & t' & E & SW & RG & WS & WU & RU & MU & PU & MS & C1 & C2 & C3 & C4 & C5 & C6 & C7 & CX' & AP').
    injection E as <- <-.
    destruct (C27_first_jump_enters_function A L p s' IN LAB C1 CX' AP') as (t2 & SW2 & _ & _ & _ & _ & _ & _ & UF & _).
    rewrite SW in SW2. injection SW2 as -> <-.
    destruct RO as ((O1 & O2 & O3) & O4 & O5).
    (* what suspended calls own *)
    assert (OWN : forall h a, suspended tr h -> owned A M h a -> ~ (m_lo M from <= a < m_hi M from) /\ ~ (m_lo M d <= a < m_hi M d)).
    { intros h a S O.
      assert (OI : m_lo M (fc_ctx h) <= a < m_hi M (fc_ctx h)).
      { rewrite <- !(q_lo _ _ _ R), <- !(q_hi _ _ _ R). apply (owned_in N tr); auto. unfold owned in *. rewrite (q_at _ _ _ R). exact O. }
      pose proof (has_susp n _ _ G S) as HS. split; intros Q.
      - assert (NE' : fc_ctx h <> from) by (intros E; apply (proj2 (proj2 (f_susp _ _ F _ S)) t Ht); congruence).
        pose proof (DIS _ _ HS HF NE') as D. unfold sdisj in D. lia.
      - pose proof (DIS _ _ HS HD (NDS h S)) as D. unfold sdisj in D. lia. }
    set (N1 := put_code N t p).
    assert (E1 : exec A L n tr N1).
    { apply x_code; [exact X|exact Ht|exact WP|]. intros h a S O. unfold owned in O. rewrite (q_at _ _ _ R) in O. rewrite (q_mem _ _ _ R).
      change (m_mem M a) with (mm s00 a). destruct (OWN h a S O). apply MM; [apply (W0O h a S O)|lia]. }
    assert (EC1 : cpu_at N1 t = p) by apply at_code.
    assert (SPU0 : sp A u0 = sp A m) by apply RU0.
    assert (UM : forall a, ~ (m_lo M from <= a < m_hi M from) -> mm u0 a = mm m a).
    { intros a Ha. destruct (Z.eq_dec (mm u0 a) (mm m a)) as [|NE]; [assumption|exfalso]. specialize (MU0 a NE). lia. }
    assert (DAT : forall a, arg_to A s <= a < arg_to A s + c_size C -> ~ (m_lo M from <= a < m_hi M from)).
    { intros a Ha. unfold sdisj in DI. lia. }
    assert (E2 : exec A L n (EvSwitch t from me to SwCreate :: tr) (put_susp (put_cpu (soiled N1 m s') t t') me (handle A s') s')).
    { pose proof (x_create A L n tr N1 t from me to pc m s' (mk_fn A p) t' E1 Ht) as Y. cbv zeta in Y. rewrite EC1 in Y.
      cbn [N1 put_code m_lo m_hi] in Y. rewrite !(q_lo _ _ _ R), !(q_hi _ _ _ R), K2, K4 in Y. fold d in Y. apply Y; auto; try lia.
      - intros h a S O. unfold owned in O. cbn in O. rewrite (q_at _ _ _ R) in O. destruct (OWN h a S O) as (Q1 & Q2).
        rewrite MS; [|apply (WO h a S O)|lia|lia]. rewrite (U h a S O). apply UM. exact Q1.
      - intros a Ha. rewrite <- RU0, <- AT in Ha. rewrite MS; [|apply WF; right; exact Ha|specialize (DAT a Ha); lia|lia].
        rewrite U' by (rewrite <- AT; exact Ha). apply UM. auto.
      - rewrite C2, AT. apply RU0.
      - unfold on_stack. rewrite C4, C6, C7. auto. }
    assert (E3 : exec A L n (EvSwitch t from me to SwCreate :: tr) (put_code (put_susp (put_cpu (soiled N1 m s') t t') me (handle A s') s') t u)).
    { apply x_code; [exact E2|exact Ht|exact WU|]. intros h a S O. cbn [put_susp put_cpu m_mem].
      destruct (Z.eq_dec (mm u a) (mm t' a)) as [|NE]; [assumption|exfalso]. destruct (MU a NE) as (Q1 & Q2).
      unfold owned in O. cbn [put_susp put_cpu soiled m_at] in O. apply susp_switch in S as (S & NC & NTo).
      destruct (fc_eqb h me) eqn:EH.
      - rewrite C7 in O. unfold sdisj, handle, own_len in *. lia.
      - assert (Hh : suspended tr h).
        { split; [|exact NC]. destruct S as [[-> _]|S]; [rewrite fc_eqb_refl in EH; discriminate|exact S]. }
        cbn in O. rewrite (q_at _ _ _ R) in O. destruct (OWN h a Hh O) as (_ & Q3). lia. }
    (* what is not on the new stack *)
    assert (FA : forall c a, has_stack n tr c -> c <> d -> m_lo M c <= a < m_hi M c -> ~ W a ->
              (c = from -> sp A s + ab_wr B <= a) -> mm u a = mm s a).
    { intros c a HC NC Ha NWa LV. pose proof (DIS _ _ HC HD NC) as D1.
      assert (D2 : c <> from -> sdisj (m_lo M c) (m_hi M c) (m_lo M from) (m_hi M from)) by (intros; apply DIS; auto).
      assert (NFm : ~ (m_lo M from <= a < sp A s + ab_wr B)).
      { intros Q. destruct (Nat.eq_dec c from) as [EQ|NE]; [specialize (LV EQ); lia|]. specialize (D2 NE). unfold sdisj in D2. lia. }
      assert (ND : ~ (m_lo M d <= a < m_hi M d)) by (unfold sdisj in D1; lia).
      assert (EU : mm u a = mm t' a).
      { destruct (Z.eq_dec (mm u a) (mm t' a)) as [|NE]; [assumption|]. destruct (MU a NE). lia. }
      rewrite EU, UF; [|rewrite C6, C7; lia|rewrite C2; lia]. apply MS; [exact NWa|lia|lia]. }
    assert (FB : forall c a, has_stack n tr c -> c <> d -> c <> from -> m_lo M c <= a < m_hi M c -> ~ W0 a -> mm u0 a = m_mem M a).
    { intros c a HC NC NC' Ha NWa. pose proof (DIS _ _ HC HD NC) as D1. pose proof (DIS _ _ HC HF NC') as D2. unfold sdisj in D1, D2.
      rewrite UM by lia. rewrite MF by (rewrite ?K4; lia). change (m_mem M a) with (mm s00 a). apply MM; [exact NWa|lia]. }
    eexists. split; [exact E3|].
    constructor; cbn [put_code put_susp put_cpu put_sig spoiled soiled m_mem m_reg m_lo m_hi m_at m_st m_wr N1].
    - reflexivity.
    - intros t1. destruct (Nat.eqb t1 t); [reflexivity|]. apply (q_reg _ _ _ R).
    - apply (q_lo _ _ _ R).
    - apply (q_hi _ _ _ R).
    - intros h. destruct (fc_eqb h me); [exact C7|apply (q_at _ _ _ R)].
    - intros h S. apply susp_switch in S as (S & NC & NTo). destruct (fc_eqb h me) eqn:EH.
      + split; [exact RG|]. split; [apply CS|]. intros a Ha. apply MS; [apply WF; left; unfold own_foot, own_len, handle; lia|lia|].
        unfold sdisj, handle, own_len in *. lia.
      + apply (q_st _ _ _ R). split; [|exact NC]. destruct S as [[-> _]|S]; [rewrite fc_eqb_refl in EH; discriminate|exact S].
    - intros h S. apply susp_switch in S as (S & NC & NTo). destruct (fc_eqb h me) eqn:EH.
      + apply fc_eqb_eq in EH. subst h. rewrite M1. split; [split; [exact O1|split; [exact O2|exact O3]]|split; [exact O4|exact O5]].
      + apply (q_room _ _ _ R). split; [|exact NC]. destruct S as [[-> _]|S]; [rewrite fc_eqb_refl in EH; discriminate|exact S].
    - intros h a S Ha Hs Hw. apply susp_switch in S as (S & NC & NTo). destruct (fc_eqb h me) eqn:EH.
      + apply fc_eqb_eq in EH. subst h. rewrite M1 in Ha. apply (FA from); auto.
      + assert (Hh : suspended tr h).
        { split; [|exact NC]. destruct S as [[-> _]|S]; [rewrite fc_eqb_refl in EH; discriminate|exact S]. }
        assert (NFr : fc_ctx h <> from) by (intros E; apply (proj2 (proj2 (f_susp _ _ F _ Hh)) t Ht); congruence).
        pose proof (has_susp n _ _ G Hh) as HS.
        rewrite (FA (fc_ctx h) a); [|exact HS|apply NDS; exact Hh|exact Ha|tauto|intros E; contradiction].
        destruct (Z.eq_dec (mm s a) (mm u0 a)) as [Q|Q]; [|exfalso; tauto].
        rewrite Q, (FB (fc_ctx h) a); [apply (q_live _ _ _ R); tauto|exact HS|apply NDS; exact Hh|exact NFr|exact Ha|tauto].
  Qed.

  Theorem sim_sig tr M : sexec A L n tr M -> good n tr -> exists N, exec A L n tr N /\ srel tr M N.
  Proof.
    induction 1 as [M W Bd D|tr M t s X IH Ht W U|tr M e X IH Q|tr M c a lo hi X IH B0 B1 D
                   |tr M t from me to W0 pc u0 s W pc' u X IH Ht s00 d MK T1 T2 T3 T4 W0O W0F IM WS0 U U' CS AT RO WO WF IS
                   |tr M t from me to k W pc u X IH Ht K s d CS AT RO WO WF IS]; intros G.
    - exists M. split; [apply x_start; auto|apply start_srel].
    - destruct (IH G) as (N & E & R). exists (put_code N t s). split; [|apply code_srel; exact R].
      apply x_code; auto. intros h a S O. unfold owned in O. rewrite (q_at _ _ _ R) in O. rewrite (q_mem _ _ _ R). apply (U h a S O).
    - destruct (IH (good_tl _ _ _ G)) as (N & E & R). exists N. split; [apply x_event; auto|].
      apply quiet_srel; [destruct e; auto; contradiction|exact R].
    - destruct (IH (good_tl _ _ _ G)) as (N & E & R). exists (put_stack N c lo hi). split.
      + apply x_alloc; auto. intros e He. rewrite (q_lo _ _ _ R), (q_hi _ _ _ R). auto.
      + destruct (good_hd _ _ _ G) as (_ & _ & (_ & _ & NEW) & AL). cbn in AL.
        assert (NC : forall h, suspended tr h -> fc_ctx h <> c).
        { intros h S E'. pose proof (has_susp n _ _ (good_tl _ _ _ G) S) as [[H|(a' & H)] _]; [lia|]. rewrite E' in H.
          apply (NEW _ H). reflexivity. }
        assert (R' : srel (EvAlloc c a :: tr) M N) by (apply quiet_srel; [reflexivity|exact R]).
        constructor; cbn; try apply R'.
        * intros c'. rewrite (q_lo _ _ _ R). reflexivity.
        * intros c'. rewrite (q_hi _ _ _ R). reflexivity.
        * intros h S. pose proof S as S'. apply susp_quiet in S'; [|reflexivity]. specialize (NC h S').
          destruct (Nat.eqb_spec (fc_ctx h) c); [contradiction|]. apply (q_room _ _ _ R' h S).
        * intros h a' S. pose proof S as S'. apply susp_quiet in S'; [|reflexivity]. specialize (NC h S').
          destruct (Nat.eqb_spec (fc_ctx h) c); [contradiction|]. apply (q_live _ _ _ R' h a' S).
    - destruct (IH (good_tl _ _ _ G)) as (N & E & R). exact (create_srel tr M N t from me to W0 pc u0 s W pc' u R E G MK T1 T2 T3 T4 W0O W0F IM WS0 U U' CS AT RO WO WF IS).
    - destruct (IH (good_tl _ _ _ G)) as (N & E & R). exact (switch_srel tr M N t from me to k W pc u R E G K CS AT RO WO WF IS).
  Qed.
End Inv.
