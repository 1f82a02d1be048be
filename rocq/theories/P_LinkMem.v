(** * C53: stacks, records and allocators on the machine

    The address computations of the fiber constructors (C20, C21), the assembler code (C26-C28) and the
    histories of fibers (C05, C52) fit together: see the statements at the end. *)
From Coq Require Import ZArith List String Lia Bool.
From Verif Require Import ListUtil Fiber FiberSpec LinkHist P_Fiber3 Layout LayoutFacts P_Memory.
From Verif Require Import Word AsmMachine AsmSym AsmAbi AsmCheck AsmCode AsmCode2 AsmFacts AsmHist P_Asm AsmWit Link P_Link LinkMem.
Import ListNotations.
Open Scope list_scope.
Open Scope Z_scope.

Lemma ports_words : forallb (fun A => (1 <=? cwb (cpu_of A)) && (0 <=? c_need (p_code A)) && (0 <=? c_mkscr (p_code A)) && (0 <=? ab_up (p_abi A)) && (0 <=? c_frame (p_code A))) ports = true.
Proof. vm_compute. reflexivity. Qed.

Section P.
  Variable A : port.
  Variable L : string -> Z.
  Variable n : nat.
  Variables rs off : nat -> Z.
  Variable keep : nat -> Z -> Prop.
  Hypothesis IN : In A ports.
  Hypothesis LAB : labels_ok A L.
  Hypothesis KO : keep_ok A rs off keep.
  Let CHK : check A = true := port_checked A IN.
  Notation lay := (lay A rs).
  Notation rec_at := (rec_at A rs).
  Notation block_ok := (block_ok A rs).
  Notation lexec := (lexec A L n rs off keep).
  Notation sctx_in := (sctx_in A off).

  Lemma words : 1 <= cwb (cpu_of A) /\ 0 <= c_need (p_code A) /\ 0 <= c_mkscr (p_code A) /\ 0 <= ab_up (p_abi A) /\ 0 <= c_frame (p_code A).
  Proof.
    pose proof ports_words as W. rewrite forallb_forall in W. specialize (W _ IN).
    rewrite !andb_true_iff, !Z.leb_le in W. lia.
  Qed.
  Lemma bits_space : 2 ^ bits A = space (cpu_of A).
  Proof. unfold bits, space. change (ab_cpu (p_abi A)) with (cpu_of A). rewrite Z.pow_mul_r; [reflexivity|lia|]. pose proof words. lia. Qed.

  (** a block and what is placed in it *)
  Lemma lay_ok c b : block_ok c b ->
    lo_bottom (lay c b) = blk_lo b /\ blk_lo b + c_need (p_code A) <= lo_top (lay c b) /\
    lo_top (lay c b) + 64 = rec_at c b /\ rec_at c b + rs c <= blk_hi b /\ 0 < blk_lo b /\ blk_hi b < space (ab_cpu (p_abi A)) /\ 0 <= rs c /\
    placed_in (blk_lo b) (pa_sp b) (rs c) (lay c b).
  Proof.
    intros (H1 & H2 & H3 & H4). pose proof words as (W1 & W2 & _). destruct (KO c) as (K1 & K2 & _).
    pose proof bits_space as BS. unfold cpu_of, blk_lo, blk_hi in *.
    assert (R0 : 0 <= rs c) by lia.
    assert (PL : placed_in (sc_sp (pa_sctx b) - sc_size (pa_sctx b)) (pa_sp b) (rs c) (lay c b)).
    { apply C21_preallocated; try lia. unfold bits. lia. }
    pose proof PL as (Q1 & Q2 & Q3 & Q4 & Q5 & Q6 & Q7). unfold LinkMem.rec_at. do 7 (split; [lia|]). exact PL.
  Qed.

  Record linv (tr : list event) (M : mach) (blk : nat -> preallocated) : Prop := {
    q_exec : exec A L n tr M;
    q_in : forall c, has_stack n tr c -> blk_lo (blk c) <= m_lo M c /\ m_hi M c <= blk_hi (blk c) /\ blk_hi (blk c) < space (ab_cpu (p_abi A));
    q_fib : forall c, has_stack n tr c -> (n <= c)%nat -> block_ok c (blk c) /\ m_lo M c = lo_bottom (lay c (blk c)) /\ m_hi M c = lo_top (lay c (blk c));
    q_dis : forall c d, has_stack n tr c -> has_stack n tr d -> c <> d -> bdisj (blk c) (blk d);
    q_sctx : forall c, has_record tr c -> sctx_in (m_mem M) c (rec_at c (blk c)) = pa_sctx (blk c)
  }.

  Lemma record_ctx tr c : good n tr -> has_record tr c -> has_stack n tr c /\ (n <= c)%nat.
  Proof.
    intros (_ & _ & _ & AL) ((t & from & me & to & H & <-) & NF).
    apply in_split in H as (l1 & l2 & E). destruct (AL _ _ _ E) as (a & Ha).
    assert (Hi : In (EvAlloc (fc_ctx to) a) tr) by (rewrite E; apply in_or_app; right; right; exact Ha).
    split; [split; [right; exists a; exact Hi|exact NF]|].
    apply in_split in Hi as (l3 & l4 & E'). exact (AL _ _ _ E').
  Qed.

  (** gap and record of a context are not in any stack *)
  Lemma top_outside tr M blk c o d : linv tr M blk -> has_stack n tr c -> (n <= c)%nat -> -64 <= o < rs c ->
    has_stack n tr d -> ~ (m_lo M d <= rec_at c (blk c) + o < m_hi M d).
  Proof.
    intros V HC NC Ho HD. destruct (q_fib _ _ _ V _ HC NC) as (OK & Elo & Ehi). destruct (lay_ok _ _ OK) as (L1 & L2 & L3 & L4 & _).
    pose proof words as (_ & W2 & _).
    destruct (Nat.eq_dec d c) as [->|N]; [rewrite Ehi; lia|].
    destruct (q_in _ _ _ V _ HD) as (D1 & D2 & _). pose proof (q_dis _ _ _ V _ _ HC HD ltac:(auto)) as D. unfold bdisj in D. lia.
  Qed.

  (** a switch changes nothing outside the stacks of caller and target *)
  Lemma switch_outside tr M t to k u pc a :
    minv A L n tr M -> good n tr -> (t < n)%nat -> suspended tr to -> call_ok A L (cpu_at M t) -> arg_to A (cpu_at M t) = m_at M to ->
    on_stack A (cpu_at M t) (m_lo M (running tr t)) (m_hi M (running tr t)) ->
    switch A L k (cpu_at M t) = Goto pc u ->
    ~ (m_lo M (running tr t) <= a < m_hi M (running tr t)) -> ~ (m_lo M (fc_ctx to) <= a < m_hi M (fc_ctx to)) -> mm u a = m_mem M a.
  Proof.
    intros V G Ht ST CS AT OS SW N1 N2.
    assert (I0 := conf_inv A L n _ _ _ [to] V G Ht ltac:(repeat constructor; intros []) ltac:(intros h [<-|[]]; exact ST)).
    assert (HO : k = Ontop -> has_ontop A).
    { intros -> Q. unfold switch in SW. rewrite Q in SW. discriminate. }
    destruct (switch_ok A L LAB CHK _ k (cxof M to) I0 (or_introl eq_refl) CS AT OS ltac:(intros _; exists (m_st M to); reflexivity) HO) as (pc' & u' & SW' & _ & MA).
    cbn [now] in SW'. rewrite SW in SW'. injection SW' as <- <-. apply MA.
    apply (untouched_out A L _ k (cxof M to) a I0 (or_introl eq_refl) OS); [exact N2|].
    destruct OS as (O1 & O2 & _). pose proof (wr_up A CHK). cbn [now]. lia.
  Qed.

  (** what a constructor does: make_fcontext may be called, the new context data is in the new stack,
      and nothing outside the two stacks changes *)
  Lemma create_facts tr M blk t from me to :
    good n (EvSwitch t from me to SwCreate :: tr) -> linv tr M blk ->
    let s00 := cpu_at M t in let d := fc_ctx to in
    mk_top A s00 = lo_top (lay d (blk d)) ->
    m_lo M from <= sp A s00 - c_mkscr (p_code A) -> sp A s00 + ab_up (p_abi A) <= m_hi M from ->
    has_stack n tr d /\ (n <= d)%nat /\ has_stack n tr from /\ d <> from /\ make_ok A s00 /\
    m_lo M d <= mk_top A s00 - c_need (p_code A) /\ mk_top A s00 <= m_hi M d.
  Proof.
    intros G1 V s00 d MT O1 O2. pose proof (good_tl _ _ _ G1) as G. pose proof (exec_minv A L n IN LAB _ _ (q_exec _ _ _ V) G) as MV.
    destruct (good_hd _ _ _ G1) as ((M1 & M2 & M3 & M4 & M5) & ((Ht & RT & NT) & _) & (_ & NF & _) & AL). cbn in AL.
    assert (HD : has_stack n tr d).
    { split; [right; exact AL|]. intros Y. apply (NF _ Y). cbn. auto. }
    assert (ND : (n <= d)%nat).
    { destruct AL as (a & Ha). destruct G as (_ & _ & _ & AL). apply in_split in Ha as (l3 & l4 & E'). exact (AL _ _ _ E'). }
    assert (HF : has_stack n tr from) by (rewrite <- RT; apply has_run; auto).
    assert (DF : d <> from) by (intros Q; apply (NT t Ht); rewrite RT; auto).
    destruct (q_fib _ _ _ V _ HD ND) as (OK & Elo & Ehi). destruct (lay_ok _ _ OK) as (L1 & L2 & L3 & L4 & L5 & L6 & L7 & _).
    pose proof words as (W1 & W2 & W3 & W4 & _).
    destruct (v_bnd _ _ _ _ _ MV _ HF) as (F1 & F2). destruct (q_in _ _ _ V _ HF) as (Q1 & Q2 & Q3).
    pose proof (v_dis _ _ _ _ _ MV _ _ HD HF DF) as D. unfold sdisj in D. rewrite Elo, Ehi in D. unfold cpu_of in *.
    split; [exact HD|]. split; [exact ND|]. split; [exact HF|]. split; [exact DF|]. split; [|rewrite Elo, Ehi; lia].
    split; [apply (minv_wf A L n _ _ t MV)|]. fold s00. rewrite MT. unfold disj. lia.
  Qed.

  Lemma create_outside tr M blk t from me to pc s0 s pc' u a :
    good n (EvSwitch t from me to SwCreate :: tr) -> linv tr M blk ->
    let s00 := cpu_at M t in let d := fc_ctx to in
    mk_top A s00 = lo_top (lay d (blk d)) ->
    m_lo M from <= sp A s00 - c_mkscr (p_code A) -> sp A s00 + ab_up (p_abi A) <= m_hi M from ->
    run (ab_cpu (p_abi A)) L (c_make (p_code A)) s00 = Goto pc s0 ->
    wf (ab_cpu (p_abi A)) s ->
    (forall a, rg s0 (ab_mkres (p_abi A)) <= a < rg s0 (ab_mkres (p_abi A)) + c_size (p_code A) -> mm s a = mm s0 a) ->
    call_ok A L s -> arg_to A s = rg s0 (ab_mkres (p_abi A)) -> on_stack A s (m_lo M from) (m_hi M from) ->
    switch A L Jump s = Goto pc' u ->
    ~ (m_lo M from <= a < m_hi M from) -> ~ (m_lo M d <= a < m_hi M d) -> mm s0 a = m_mem M a /\ mm u a = mm s a.
  Proof.
    intros G1 V s00 d MT O1 O2 R W U CS AT OS SW N1 N2.
    destruct (create_facts _ _ _ _ _ _ _ G1 V MT O1 O2) as (HD & ND & HF & DF & MS & T1 & T2). fold d s00 in HD, ND, DF, MS, T1, T2.
    pose proof (good_tl _ _ _ G1) as G. pose proof (exec_minv A L n IN LAB _ _ (q_exec _ _ _ V) G) as MV.
    destruct (C27_make_returns A L s00 IN LAB MS) as (c1 & RM & _ & _ & (CX & H1 & H2 & MF) & W1). unfold cpu_of in *.
    rewrite R in RM. injection RM as -> ->. pose proof words as (_ & W2 & W3 & W4 & W5). pose proof (wr_up A CHK) as WU.
    split; [apply MF; lia|].
    assert (CX' : context A L (mm s) (arg_to A s) (Made s00)).
    { rewrite AT. eapply ctx_made; eauto. }
    assert (AP : apart A s (arg_to A s) (Made s00)).
    { pose proof (v_dis _ _ _ _ _ MV _ _ HD HF DF) as D. destruct OS as (P1 & P2 & _).
      unfold apart, disj, sdisj, own_len in *. rewrite AT. unfold handle in *. lia. }
    destruct (C27_first_jump_enters_function A L s00 s IN LAB CS CX' AP) as (u' & SW' & _ & _ & _ & _ & _ & _ & UU & _).
    rewrite SW in SW'. injection SW' as -> ->. destruct OS as (P1 & P2 & _). apply UU; [lia|]. rewrite AT. lia.
  Qed.

  Lemma sctx_ext m m' c p : (forall o, keep c o -> m (p + o) = m' (p + o)) -> sctx_in m c p = sctx_in m' c p.
  Proof.
    intros H. unfold LinkMem.sctx_in. destruct (KO c) as (K1 & K2 & K3 & _). pose proof words as (W1 & _). unfold cpu_of in *.
    f_equal; apply load_ext; intros x Hx; replace x with (p + (x - p)) by lia; apply H; apply K3; lia.
  Qed.

  Lemma record_old e tr c : match e with EvSwitch _ _ _ _ SwCreate => False | _ => True end -> has_record (e :: tr) c -> has_record tr c.
  Proof.
    intros Q ((t & from & me & to & [H|H] & E) & NF); [subst e; contradiction|]. split; [eauto 8|].
    intros (a & on & X). apply NF. exists a, on. right. exact X.
  Qed.

  Lemma lexec_inv tr M blk : lexec tr M blk -> good n tr -> linv tr M blk.
  Proof.
    induction 1 as [M blk W Bd D|tr M blk t s X IH Ht W U K|tr M blk e X IH Q|tr M blk c a b X IH OK D
                   |tr M blk t from me to pc s0 s pc' t' X IH Ht s00 d p SC MT O1 O2 R W U U' K CS AT AD OS SW
                   |tr M blk t from me to k pc t' X IH Ht K s CS AT OS AD SW]; intros G.
    - assert (HS : forall c, has_stack n [] c -> (c < n)%nat) by (intros c [[H|(a & [])] _]; exact H).
      constructor.
      + apply x_start; [exact W| |].
        * intros c Hc. destruct (Bd c Hc) as (-> & -> & H1 & H2). lia.
        * intros c d Hc Hd N. destruct (Bd c Hc) as (-> & -> & _), (Bd d Hd) as (-> & -> & _). exact (D c d Hc Hd N).
      + intros c H. destruct (Bd c (HS c H)) as (-> & -> & H1 & H2). lia.
      + intros c H N. pose proof (HS c H). lia.
      + intros c d H H' N. apply D; auto.
      + intros c ((? & ? & ? & ? & [] & _) & _).
    - specialize (IH G). constructor; cbn [put_code m_lo m_hi m_mem]; try apply IH.
      + apply x_code; auto. apply IH.
      + intros c HR. rewrite <- (q_sctx _ _ _ IH c HR). apply sctx_ext. intros o Ho. apply (K c); [exact HR|].
        replace (rec_at c (blk c) + o - rec_at c (blk c)) with o by lia. exact Ho.
    - specialize (IH (good_tl _ _ _ G)).
      assert (HS : forall c, has_stack n (e :: tr) c -> has_stack n tr c) by (intros c; apply has_old; destruct e; auto).
      constructor.
      + apply x_event; [apply IH|exact Q].
      + intros c H. apply (q_in _ _ _ IH). auto.
      + intros c H. apply (q_fib _ _ _ IH). auto.
      + intros c d H H'. apply (q_dis _ _ _ IH); auto.
      + intros c H. apply (q_sctx _ _ _ IH). apply record_old in H; [exact H|]. destruct e; auto; contradiction.
    - pose proof (good_tl _ _ _ G) as G'. specialize (IH G'). destruct (good_hd _ _ _ G) as (_ & _ & (_ & _ & NEW) & AL). cbn in AL.
      assert (NC : ~ is_ctx n tr c).
      { intros [H|(a' & H)]; [lia|]. apply (NEW _ H). reflexivity. }
      assert (HS : forall e, has_stack n (EvAlloc c a :: tr) e -> e = c \/ (e <> c /\ has_stack n tr e)).
      { intros e [H1 H2]. destruct (Nat.eq_dec e c) as [->|N]; [left; reflexivity|right]. split; [exact N|]. split.
        - destruct H1 as [H1|(a' & [E|H1])]; [left; exact H1|congruence|right; exists a'; exact H1].
        - intros (a' & on & H). apply H2. exists a', on. right. exact H. }
      destruct (lay_ok _ _ OK) as (L1 & L2 & L3 & L4 & L5 & L6 & L7 & _). pose proof words as (W1 & W2 & _).
      constructor; cbn [put_stack m_lo m_hi m_mem].
      + apply x_alloc; [apply IH|rewrite L1; lia|lia|]. intros d HD. specialize (D d HD). destruct (q_in _ _ _ IH _ HD) as (D1 & D2 & _).
        unfold sdisj, bdisj in *. rewrite L1. lia.
      + intros e H. destruct (HS _ H) as [->|[N H']].
        * rewrite Nat.eqb_refl. rewrite L1. lia.
        * destruct (Nat.eqb_spec e c); [contradiction|]. apply (q_in _ _ _ IH). exact H'.
      + intros e H NE. destruct (HS _ H) as [->|[N H']].
        * rewrite Nat.eqb_refl. auto.
        * destruct (Nat.eqb_spec e c); [contradiction|]. apply (q_fib _ _ _ IH); auto.
      + intros e f He Hf N. destruct (HS _ He) as [->|[N1 H1]], (HS _ Hf) as [->|[N2 H2]]; [contradiction| | |].
        * rewrite Nat.eqb_refl. destruct (Nat.eqb_spec f c); [contradiction|]. apply D. exact H2.
        * rewrite Nat.eqb_refl. destruct (Nat.eqb_spec e c); [contradiction|]. specialize (D _ H1). unfold bdisj in *. lia.
        * destruct (Nat.eqb_spec e c); [contradiction|]. destruct (Nat.eqb_spec f c); [contradiction|]. apply (q_dis _ _ _ IH); auto.
      + intros e H. apply record_old in H; [|exact Logic.I]. destruct (record_ctx _ _ G' H) as ((HC & _) & _).
        destruct (Nat.eqb_spec e c) as [->|_]; [contradiction|]. apply (q_sctx _ _ _ IH). exact H.
    - pose proof (good_tl _ _ _ G) as G'. specialize (IH G').
      destruct (create_facts _ _ _ _ _ _ _ G IH MT O1 O2) as (HD & ND & HF & DF & MS & T1 & T2). fold d s00 in HD, ND, DF, MS, T1, T2.
      assert (HS : forall c, has_stack n (EvSwitch t from me to SwCreate :: tr) c -> has_stack n tr c) by (intros c; apply has_old; auto).
      constructor; cbn [put_susp put_cpu soiled m_lo m_hi m_mem].
      + eapply x_create; eauto. apply IH.
      + intros c H. apply (q_in _ _ _ IH). auto.
      + intros c H. apply (q_fib _ _ _ IH). auto.
      + intros c e H H'. apply (q_dis _ _ _ IH); auto.
      + intros c HR. destruct (record_ctx _ _ G HR) as (HC & NC). apply HS in HC.
        assert (OLD : has_record tr c \/ c = d).
        { destruct HR as ((t1 & f1 & m1 & to1 & [H|H] & E) & NF); [right; injection H as _ _ _ <-; auto|left]. split; [eauto 8|]. apply HC. }
        assert (V0 : sctx_in (m_mem M) c (rec_at c (blk c)) = pa_sctx (blk c)).
        { destruct OLD as [H|H]; [apply (q_sctx _ _ _ IH); exact H|rewrite H; exact SC]. }
        rewrite <- V0. apply sctx_ext. intros o Ho. destruct (KO c) as (_ & _ & _ & K4).
        pose proof (K4 _ Ho) as Bo.
        destruct (create_outside _ _ _ _ _ _ _ _ _ _ _ _ (rec_at c (blk c) + o) G IH MT O1 O2 R W U' CS AT OS SW) as (E1 & E2).
        * eapply top_outside; eauto.
        * eapply top_outside; eauto.
        * rewrite E2, <- E1. apply (K c); [exact OLD|]. replace (rec_at c (blk c) + o - rec_at c (blk c)) with o by lia. exact Ho.
    - pose proof (good_tl _ _ _ G) as G'. specialize (IH G').
      destruct (next_switch n _ _ _ _ _ _ G K) as (ST & ME & _ & RT).
      assert (HS : forall c, has_stack n (EvSwitch t from me to k :: tr) c -> has_stack n tr c) by (intros c; apply has_old; auto).
      constructor; cbn [put_susp put_cpu m_lo m_hi m_mem].
      + eapply x_switch; eauto. apply IH.
      + intros c H. apply (q_in _ _ _ IH). auto.
      + intros c H. apply (q_fib _ _ _ IH). auto.
      + intros c e H H'. apply (q_dis _ _ _ IH); auto.
      + intros c HR. destruct (record_ctx _ _ G HR) as (HC & NC). apply HS in HC.
        apply record_old in HR; [|destruct k; auto].
        rewrite <- (q_sctx _ _ _ IH c HR). apply sctx_ext. intros o Ho. destruct (KO c) as (_ & _ & _ & K4). pose proof (K4 _ Ho) as Bo.
        rewrite <- RT in OS.
        apply (switch_outside tr M t to (how_of k) t' pc); auto.
        * apply exec_minv; auto. apply IH.
        * rewrite RT. eapply top_outside; eauto. rewrite <- RT. apply has_run; auto.
        * eapply top_outside; eauto. apply has_susp; auto.
  Qed.

  (** contexts that run or are suspended are threads' own or were created *)
  Lemma known tr : good n tr ->
    let made c := (c < n)%nat \/ exists t from me to, In (EvSwitch t from me to SwCreate) tr /\ fc_ctx to = c in
    (forall t, (t < n)%nat -> made (running tr t)) /\ (forall h, created tr h -> made (fc_ctx h)).
  Proof.
    induction tr as [|e tr IH]; intros G.
    - split; [intros t Ht; left; exact Ht|intros h (? & ? & ? & ? & [] & _)].
    - specialize (IH (good_tl _ _ _ G)). cbv zeta in *. destruct IH as (IR & IC).
      assert (MORE : forall c, ((c < n)%nat \/ exists t from me to, In (EvSwitch t from me to SwCreate) tr /\ fc_ctx to = c) ->
        (c < n)%nat \/ exists t from me to, In (EvSwitch t from me to SwCreate) (e :: tr) /\ fc_ctx to = c).
      { intros c [H|(t & f & m & to & H & E)]; [left; exact H|right]. exists t, f, m, to. split; [right; exact H|exact E]. }
      destruct (is_switch e) eqn:Q.
      + destruct e as [| | |t from me to k| | | | | | | | | | |]; try discriminate Q. clear Q.
        destruct (good_hd _ _ _ G) as ((M1 & M2 & M3 & M4 & M5) & ((T1 & RT & T3) & _) & _).
        split.
        * intros t' Ht'. cbn [running]. destruct (Nat.eqb_spec t t') as [<-|N]; [|apply MORE; apply IR; exact Ht'].
          destruct k; try (apply MORE; apply IC; exact M5). right. exists t, from, me, to. split; [left; reflexivity|reflexivity].
        * intros h (t1 & f1 & to1 & k1 & [H|H] & K1).
          -- injection H as _ _ -> _ _. rewrite M1. apply MORE. pose proof (IR t T1) as Z. rewrite RT in Z. exact Z.
          -- apply MORE. apply IC. exists t1, f1, to1, k1. auto.
      + split.
        * intros t Ht. rewrite run_quiet by exact Q. apply MORE. apply IR. exact Ht.
        * intros h (t1 & f1 & to1 & k1 & [H|H] & K1); [subst e; discriminate|]. apply MORE. apply IC. exists t1, f1, to1, k1. auto.
  Qed.

  (** a context that ends has a record *)
  Lemma exit_record tr t from me to : good n (EvSwitch t from me to SwExit :: tr) -> has_record tr from /\ has_stack n tr from /\ (n <= from)%nat.
  Proof.
    intros G. pose proof (good_tl _ _ _ G) as G'. destruct (good_hd _ _ _ G) as (_ & ((T1 & RT & T3) & _) & _ & (a & AL)).
    assert (N : (n <= from)%nat). { destruct G' as (_ & _ & _ & Z). apply in_split in AL as (l3 & l4 & E'). exact (Z _ _ _ E'). }
    pose proof (has_run n _ _ G' T1) as HS. rewrite RT in HS.
    destruct (proj1 (known _ G') t T1) as [H|H]; rewrite RT in H; [lia|]. split; [|auto]. split; [exact H|apply HS].
  Qed.

  (** the bytes [keep] of a record do not change until its stack is given back *)
  Lemma lexec_kept tr M blk c : lexec tr M blk -> good n tr -> has_record tr c ->
    exists mid t from me to old0 M0 blk0,
      tr = mid ++ EvSwitch t from me to SwCreate :: old0 /\ fc_ctx to = c /\
      lexec (EvSwitch t from me to SwCreate :: old0) M0 blk0 /\ blk c = blk0 c /\
      forall o, keep c o -> m_mem M (rec_at c (blk c) + o) = m_mem M0 (rec_at c (blk c) + o).
  Proof.
    intros X. induction X as [M blk W Bd D|tr M blk t s X IH Ht W U K|tr M blk e X IH Q|tr M blk c1 a b X IH OK D
                   |tr M blk t from me to pc s0 s pc' t' X IH Ht s00 d p SC MT O1 O2 R W U U' K CS AT AD OS SW
                   |tr M blk t from me to k pc t' X IH Ht K s CS AT OS AD SW]; intros G HR.
    - destruct HR as ((? & ? & ? & ? & [] & _) & _).
    - destruct (IH G HR) as (mid & t1 & f1 & m1 & to1 & old0 & M0 & blk0 & E & C1 & X0 & B0 & H0).
      exists mid, t1, f1, m1, to1, old0, M0, blk0. do 4 (split; [assumption|]). intros o Ho. rewrite <- H0 by exact Ho.
      cbn [put_code m_mem]. apply (K c); [exact HR|]. replace (rec_at c (blk c) + o - rec_at c (blk c)) with o by lia. exact Ho.
    - assert (HR' : has_record tr c) by (apply record_old in HR; [exact HR|destruct e; auto; contradiction]).
      destruct (IH (good_tl _ _ _ G) HR') as (mid & t1 & f1 & m1 & to1 & old0 & M0 & blk0 & E & H).
      exists (e :: mid), t1, f1, m1, to1, old0, M0, blk0. split; [rewrite E; reflexivity|exact H].
    - pose proof (good_tl _ _ _ G) as G'. assert (HR' : has_record tr c) by (apply record_old in HR; [exact HR|exact Logic.I]).
      destruct (IH G' HR') as (mid & t1 & f1 & m1 & to1 & old0 & M0 & blk0 & E & H).
      exists (EvAlloc c1 a :: mid), t1, f1, m1, to1, old0, M0, blk0. split; [rewrite E; reflexivity|].
      destruct (good_hd _ _ _ G) as (_ & _ & (_ & _ & NEW) & AL). cbn in AL.
      destruct (record_ctx _ _ G' HR') as (([HC|(a' & HC)] & _) & NC); [lia|].
      destruct (Nat.eqb_spec c c1) as [->|_]; [|exact H]. exfalso. apply (NEW _ HC). reflexivity.
    - destruct (Nat.eq_dec c d) as [->|ND].
      + exists [], t, from, me, to, tr. do 2 eexists. split; [reflexivity|]. split; [reflexivity|]. split; [eapply l_create; eauto|]. split; [reflexivity|]. auto.
      + pose proof (good_tl _ _ _ G) as G'. pose proof (lexec_inv _ _ _ X G') as V.
        assert (HR' : has_record tr c).
        { destruct HR as ((t1 & f1 & m1 & to1 & [H|H] & E) & NF); [injection H as _ _ _ <-; exfalso; apply ND; exact (eq_sym E)|]. split; [eauto 8|].
          intros (a & on & Y). apply NF. exists a, on. right. exact Y. }
        destruct (create_facts _ _ _ _ _ _ _ G V MT O1 O2) as (HD & _ & HF & DF & _). destruct (record_ctx _ _ G' HR') as (HC & NC).
        destruct (IH G' HR') as (mid & t1 & f1 & m1 & to1 & old0 & M0 & blk0 & E & C1 & X0 & B0 & H0).
        exists (EvSwitch t from me to SwCreate :: mid), t1, f1, m1, to1, old0, M0, blk0. split; [rewrite E; reflexivity|].
        do 3 (split; [assumption|]). intros o Ho. rewrite <- H0 by exact Ho. cbn [put_susp put_cpu soiled m_mem].
        destruct (KO c) as (_ & _ & _ & K4). pose proof (K4 _ Ho) as Bo.
        destruct (create_outside _ _ _ _ _ _ _ _ _ _ _ _ (rec_at c (blk c) + o) G V MT O1 O2 R W U' CS AT OS SW) as (E1 & E2).
        * eapply top_outside; eauto.
        * eapply top_outside; eauto.
        * rewrite E2, <- E1. apply (K c); [left; exact HR'|]. replace (rec_at c (blk c) + o - rec_at c (blk c)) with o by lia. exact Ho.
    - pose proof (good_tl _ _ _ G) as G'. pose proof (lexec_inv _ _ _ X G') as V.
      assert (HR' : has_record tr c) by (apply record_old in HR; [exact HR|destruct k; auto]).
      destruct (next_switch n _ _ _ _ _ _ G K) as (ST & ME & _ & RT). destruct (record_ctx _ _ G' HR') as (HC & NC).
      destruct (IH G' HR') as (mid & t1 & f1 & m1 & to1 & old0 & M0 & blk0 & E & C1 & X0 & B0 & H0).
      exists (EvSwitch t from me to k :: mid), t1, f1, m1, to1, old0, M0, blk0. split; [rewrite E; reflexivity|].
      do 3 (split; [assumption|]). intros o Ho. rewrite <- H0 by exact Ho. cbn [put_susp put_cpu m_mem].
      destruct (KO c) as (_ & _ & _ & K4). pose proof (K4 _ Ho) as Bo. rewrite <- RT in OS.
      apply (switch_outside tr M t to (how_of k) t' pc); auto.
      + apply exec_minv; auto. apply V.
      + rewrite RT. eapply top_outside; eauto. rewrite <- RT. apply has_run; auto.
      + eapply top_outside; eauto. apply has_susp; auto.
  Qed.

  Lemma lexec_alloc tr M blk c a mid old : lexec tr M blk -> good n tr -> tr = mid ++ EvAlloc c a :: old ->
    exists M0 blk0, lexec (EvAlloc c a :: old) M0 blk0 /\ block_ok c (blk0 c) /\ blk c = blk0 c /\
      forall d, has_stack n old d -> bdisj (blk0 c) (blk0 d).
  Proof.
    intros X. revert mid. induction X as [M blk W Bd D|tr M blk t s X IH Ht W U K|tr M blk e X IH Q|tr M blk c1 a1 b X IH OK D
                   |tr M blk t from me to pc s0 s pc' t' X IH Ht s00 d p SC MT O1 O2 R W U U' K CS AT AD OS SW
                   |tr M blk t from me to k pc t' X IH Ht K s CS AT OS AD SW]; intros mid G E.
    - destruct mid; discriminate.
    - exact (IH mid G E).
    - destruct mid as [|e' mid]; [injection E as -> _; contradiction|]. injection E as -> E. exact (IH mid (good_tl _ _ _ G) E).
    - pose proof (good_tl _ _ _ G) as G'. destruct (good_hd _ _ _ G) as (_ & _ & (_ & _ & NEW) & AL). cbn in AL.
      assert (NC : ~ is_ctx n tr c1).
      { intros [H|(a' & H)]; [lia|]. apply (NEW _ H). reflexivity. }
      destruct mid as [|e' mid].
      + injection E as -> -> ->. do 2 eexists. split; [eapply l_alloc; eauto|]. cbn. rewrite Nat.eqb_refl. split; [exact OK|]. split; [reflexivity|].
        intros d HD. destruct (Nat.eqb_spec d c) as [->|_]; [|apply D; exact HD]. exfalso. apply NC. apply HD.
      + injection E as <- E. destruct (IH mid G' E) as (M0 & blk0 & X0 & Y0 & Z0). exists M0, blk0. split; [exact X0|]. split; [exact Y0|].
        destruct (Nat.eqb_spec c c1) as [->|_]; [|exact Z0]. exfalso. apply NC. right. exists a. rewrite E. apply in_or_app. right. left. reflexivity.
    - destruct mid as [|e' mid]; [discriminate|]. injection E as <- E. exact (IH mid (good_tl _ _ _ G) E).
    - destruct mid as [|e' mid]; [discriminate|]. injection E as <- E. exact (IH mid (good_tl _ _ _ G) E).
  Qed.
End P.

(** ** The statements

    In all of them: [s] is a reachable state of the fiber machine, [old] is the beginning of its history,
    and [M], [blk] are the state of the machine and the blocks of the contexts after [old]. [rs] and [off]
    are the sizes of the records and the offsets of their member sctx_, [keep] the bytes of a record that
    are not written after its construction. *)

(** Everything that C52 says holds. *)
Theorem C53_refines A L n rs off keep s new old M blk :
  In A ports -> labels_ok A L -> keep_ok A rs off keep -> reachable n s -> s_tr s = new ++ old ->
  lexec A L n rs off keep old M blk -> exec A L n old M.
Proof.
  intros IN LAB KO R E X. assert (G : good n old) by (apply (good_app n new); rewrite <- E; apply good_reach; exact R).
  apply (q_exec _ _ _ _ _ _ _ _ (lexec_inv A L n rs off keep IN LAB KO _ _ _ X G)).
Qed.
Print Assumptions C53_refines.

(** Where everything is: each fiber that has a stack lives in the block that its allocator returned;
    record, gap and stack do not overlap and are inside of it; the blocks of different contexts, fibers
    and threads, do not overlap. *)
Theorem C53_placement A L n rs off keep s new old M blk :
  In A ports -> labels_ok A L -> keep_ok A rs off keep -> reachable n s -> s_tr s = new ++ old ->
  lexec A L n rs off keep old M blk ->
  (forall c, has_stack n old c -> (n <= c)%nat ->
     placed_in (blk_lo (blk c)) (pa_sp (blk c)) (rs c) (create_fiber2_layout (bits A) (rs c) (blk c)) /\
     pa_sp (blk c) <= blk_hi (blk c) /\
     m_lo M c = blk_lo (blk c) /\ m_hi M c + 64 = rec_at A rs c (blk c)) /\
  (forall c, has_stack n old c -> 0 < blk_lo (blk c) /\ blk_hi (blk c) < space (cpu_of A) /\
     blk_lo (blk c) <= m_lo M c <= m_hi M c /\ m_hi M c <= blk_hi (blk c)) /\
  (forall c d, has_stack n old c -> has_stack n old d -> c <> d -> bdisj (blk c) (blk d)).
Proof.
  intros IN LAB KO R E X. assert (G : good n old) by (apply (good_app n new); rewrite <- E; apply good_reach; exact R).
  pose proof (lexec_inv A L n rs off keep IN LAB KO _ _ _ X G) as V. pose proof (exec_minv A L n IN LAB _ _ (q_exec _ _ _ _ _ _ _ _ V) G) as MV.
  split; [|split].
  - intros c HC NC. destruct (q_fib _ _ _ _ _ _ _ _ V c HC NC) as (OK & Elo & Ehi).
    destruct (lay_ok A rs off keep IN KO c (blk c) OK) as (L1 & L2 & L3 & L4 & L5 & L6 & L7 & PL).
    split; [exact PL|]. destruct OK as (_ & _ & _ & OK). split; [apply OK|]. rewrite Elo, Ehi. split; [exact L1|exact L3].
  - intros c HC. destruct (q_in _ _ _ _ _ _ _ _ V c HC) as (Q1 & Q2 & Q3). destruct (v_bnd _ _ _ _ _ MV c HC) as (B1 & B2).
    split; [|unfold cpu_of; lia]. 
    destruct (Nat.ltb_spec c n) as [LT|GE]; [|destruct (q_fib _ _ _ _ _ _ _ _ V c HC GE) as (OK & _); apply OK].
    (* threads *)
    clear - X LT. induction X; auto; cbn.
    + apply H0; exact LT.
    + destruct (Nat.eqb_spec c c0) as [->|_]; [|exact IHX]. exact (proj1 H).
  - apply (q_dis _ _ _ _ _ _ _ _ V).
Qed.
Print Assumptions C53_placement.

(** The block of a context is the one that was allocated for it, for its whole life; when it was allocated
    it did not overlap the block of any context that had a stack. *)
Theorem C53_block_of_allocation A L n rs off keep s new mid c a old M blk :
  reachable n s -> s_tr s = new ++ mid ++ EvAlloc c a :: old ->
  lexec A L n rs off keep (mid ++ EvAlloc c a :: old) M blk ->
  exists M0 blk0, lexec A L n rs off keep (EvAlloc c a :: old) M0 blk0 /\ blk c = blk0 c /\
    forall d, has_stack n old d -> bdisj (blk0 c) (blk0 d).
Proof.
  intros R E X. assert (G : good n (mid ++ EvAlloc c a :: old)) by (apply (good_app n new); rewrite <- E; apply good_reach; exact R).
  destruct (lexec_alloc A L n rs off keep _ _ _ c a mid old X G eq_refl) as (M0 & blk0 & X0 & _ & B0 & D0). eauto.
Qed.
Print Assumptions C53_block_of_allocation.

(** From its construction until its stack is given back, the constant bytes of a record and of the gap
    below it (the stack_context; with shadow stacks: base and size of the shadow stack) are as the
    constructor left them; in particular it contains the stack_context of its block. *)
Theorem C53_record_kept A L n rs off keep s new old M blk c :
  In A ports -> labels_ok A L -> keep_ok A rs off keep -> reachable n s -> s_tr s = new ++ old ->
  lexec A L n rs off keep old M blk -> has_record old c ->
  let p := rec_at A rs c (blk c) in
  sctx_in A off (m_mem M) c p = pa_sctx (blk c) /\
  exists mid t from me to old0 M0 blk0,
    old = mid ++ EvSwitch t from me to SwCreate :: old0 /\ fc_ctx to = c /\
    lexec A L n rs off keep (EvSwitch t from me to SwCreate :: old0) M0 blk0 /\ blk c = blk0 c /\
    forall o, keep c o -> m_mem M (p + o) = m_mem M0 (p + o).
Proof.
  intros IN LAB KO R E X HR p. assert (G : good n old) by (apply (good_app n new); rewrite <- E; apply good_reach; exact R).
  split; [apply (q_sctx _ _ _ _ _ _ _ _ (lexec_inv A L n rs off keep IN LAB KO _ _ _ X G)); exact HR|].
  exact (lexec_kept A L n rs off keep IN LAB KO _ _ _ c X G HR).
Qed.
Print Assumptions C53_record_kept.

(** The constructor of a fiber: from the block of the allocator to the entry function. If the block has room for record, gap, alignment and context
    data, make_fcontext succeeds and writes neither record nor gap; the jump enters the given function, on
    a stack inside the block and below the record, with the creator's fcontext_t and the address of the
    record; the record is as the creator left it. *)
Theorem C53_create A L n rs off keep s new t from me to old M blk :
  In A ports -> labels_ok A L -> keep_ok A rs off keep -> reachable n s ->
  s_tr s = new ++ EvSwitch t from me to SwCreate :: old -> lexec A L n rs off keep old M blk ->
  let c0 := cpu_at M t in let d := fc_ctx to in let p := rec_at A rs d (blk d) in
  mk_top A c0 = p - 64 ->
  m_lo M from <= sp A c0 - c_mkscr (p_code A) -> sp A c0 + ab_up (p_abi A) <= m_hi M from ->
  sctx_in A off (m_mem M) d p = pa_sctx (blk d) ->
  exists c1, let h := rg c1 (ab_mkres (p_abi A)) in
    run (cpu_of A) L (c_make (p_code A)) c0 = Goto (ret_addr A c0) c1 /\
    blk_lo (blk d) <= h /\ h + c_size (p_code A) <= p - 64 /\ p + rs d <= blk_hi (blk d) /\
    (forall a, p - 64 <= a < p + rs d -> mm c1 a = m_mem M a) /\
    forall c, wf (cpu_of A) c ->
      (forall x a, suspended old x -> owned A M x a -> mm c a = mm c1 a) ->
      (forall a, h <= a < h + c_size (p_code A) -> mm c a = mm c1 a) ->
      (forall e a, has_record old e \/ e = d -> keep e (a - rec_at A rs e (blk e)) -> mm c a = mm c1 a) ->
      call_ok A L c -> arg_to A c = h -> arg_data A c = p -> on_stack A c (m_lo M from) (m_hi M from) ->
      exists u M',
        switch A L Jump c = Goto (mk_fn A c0) u /\
        pair_at A u (ab_ent (p_abi A)) = (handle A c, p) /\
        blk_lo (blk d) <= sp A u <= p - 64 /\
        (forall a, p - 64 <= a < p + rs d -> mm u a = mm c a) /\
        sctx_in A off (mm u) d p = pa_sctx (blk d) /\
        switched A M t me c u M' /\ lexec A L n rs off keep (EvSwitch t from me to SwCreate :: old) M' blk.
Proof.
  intros IN LAB KO R E X c0 d p MT O1 O2 SC.
  assert (G1 : good n (EvSwitch t from me to SwCreate :: old)) by (apply (good_app n new); rewrite <- E; apply good_reach; exact R).
  pose proof (good_tl _ _ _ G1) as G. pose proof (lexec_inv A L n rs off keep IN LAB KO _ _ _ X G) as V.
  assert (MT' : mk_top A c0 = lo_top (lay A rs d (blk d))).
  { rewrite MT. unfold p, rec_at, lay, create_fiber2_layout. 
    assert (HD : has_stack n old d /\ (n <= d)%nat).
    { destruct (good_hd _ _ _ G1) as (_ & _ & (_ & NF & _) & AL). cbn in AL. split; [split; [right; exact AL|intros Y; apply (NF _ Y); cbn; auto]|].
      destruct AL as (a & Ha). destruct G as (_ & _ & _ & AL). apply in_split in Ha as (l3 & l4 & E'). exact (AL _ _ _ E'). }
    destruct (q_fib _ _ _ _ _ _ _ _ V d (proj1 HD) (proj2 HD)) as (OK & _). destruct (lay_ok A rs off keep IN KO d (blk d) OK) as (_ & _ & L3 & _).
    unfold rec_at, lay, create_fiber2_layout in L3. cbn in *. lia. }
  destruct (create_facts A L n rs off keep IN LAB KO _ _ _ _ _ _ _ G1 V MT' O1 O2) as (HD & ND & HF & DF & MS & T1 & T2). fold c0 d in HD, ND, DF, MS, T1, T2.
  destruct (q_fib _ _ _ _ _ _ _ _ V d HD ND) as (OK & Elo & Ehi). destruct (lay_ok A rs off keep IN KO d (blk d) OK) as (L1 & L2 & L3 & L4 & L5 & L6 & L7 & _).
  pose proof (q_exec _ _ _ _ _ _ _ _ V) as XE. pose proof (words A IN) as (W1 & W2 & _).
  destruct (C52_create A L n s new t from me to old M IN LAB R E XE MS O1 O2 T1 T2) as (c1 & RM & H1 & H2 & _ & JU). fold d in H1, H2, JU.
  assert (OUT : forall a, p - 64 <= a < p + rs d -> forall e, has_stack n old e -> ~ (m_lo M e <= a < m_hi M e)).
  { intros a Ha e HE. replace a with (p + (a - p)) by lia. eapply (top_outside A L n rs off keep IN KO); eauto. lia. }
  exists c1. intros h. split; [exact RM|]. split; [unfold h; lia|]. split.
  { unfold h. rewrite <- MT. 
    destruct (C27_make_returns A L c0 IN LAB MS) as (c1' & RM' & _ & _ & (_ & Y1 & Y2 & _) & _). fold c0 in RM. rewrite RM in RM'. injection RM' as <-. exact Y2. }
  split; [exact L4|]. split.
  { intros a Ha. destruct (C27_make_returns A L c0 IN LAB MS) as (c1' & RM' & _ & _ & (_ & Y1 & Y2 & MF) & _). fold c0 in RM. rewrite RM in RM'. injection RM' as <-.
    pose proof (OUT a Ha _ HF). pose proof (OUT a Ha _ HD). unfold cpu_of in *. 
    pose proof ports_words as PW. rewrite forallb_forall in PW. specialize (PW _ IN). rewrite !andb_true_iff, !Z.leb_le in PW.
    apply MF; fold h; lia. }
  intros c W U U' K CS AT AD OS.
  destruct (JU c W U U' CS AT OS) as (u & SW & ARG & _ & _ & SPU & _ & M' & SWD & WR & X').
  exists u.
  assert (LX : lexec A L n rs off keep (EvSwitch t from me to SwCreate :: old) (put_susp (put_cpu (soiled M c1 c) t u) me (handle A c) c) blk).
  { eapply (l_create A L n rs off keep old M blk t from me to _ c1 c _ u); eauto. apply (good_hd _ _ _ G1). }
  exists (put_susp (put_cpu (soiled M c1 c) t u) me (handle A c) c).
  assert (UN : forall a, p - 64 <= a < p + rs d -> mm u a = mm c a).
  { intros a Ha. apply (create_outside A L n rs off keep IN LAB KO old M blk t from me to _ c1 c _ u a G1 V MT' O1 O2 RM W U' CS AT OS SW); eapply OUT; eauto. }
  split; [exact SW|]. split; [rewrite <- AD; exact ARG|]. split.
  { split; [lia|]. rewrite <- MT.
    assert (CX : context A L (mm c) (arg_to A c) (Made c0)) by (rewrite AT; eapply ctx_made; eauto).
    assert (AP : apart A c (arg_to A c) (Made c0)).
    { pose proof (exec_minv A L n IN LAB _ _ XE G) as MV. pose proof (v_dis _ _ _ _ _ MV _ _ HD HF DF) as D. destruct OS as (P1 & P2 & _).
      unfold apart, disj, sdisj, own_len in *. rewrite AT. unfold handle, h in *. lia. }
    destruct (C27_first_jump_enters_function A L c0 c IN LAB CS CX AP) as (u' & SW' & _ & _ & _ & SPU' & _). rewrite SW in SW'. injection SW' as <-. lia. }
  split; [exact UN|]. split.
  { pose proof (lexec_inv A L n rs off keep IN LAB KO _ _ _ LX G1) as V'.
    apply (q_sctx _ _ _ _ _ _ _ _ V' d). split.
    - exists t, from, me, to. split; [left; reflexivity|reflexivity].
    - intros (a & on & [Q|Q]); [discriminate|]. destruct HD as (_ & NF). apply NF. exists a, on. exact Q. }
  split; [exact (put_switched A (soiled M c1 c) t me c u)|exact LX].
Qed.
Print Assumptions C53_create.

(** The end of a context-function, ontop_fcontext( fctx, rec, fiber_exit): fiber_exit is entered on the
    stack of the target, outside the block of the finished context; its data pointer is the record of the
    finished context, and the stack_context found there is the block of the finished context. *)
Theorem C53_exit_releases_own_stack A L n rs off keep s new t from me h old M blk :
  In A ports -> has_ontop A -> labels_ok A L -> keep_ok A rs off keep -> reachable n s ->
  s_tr s = new ++ EvSwitch t from me h SwExit :: old -> lexec A L n rs off keep old M blk ->
  let c := cpu_at M t in let p := rec_at A rs from (blk from) in
  call_ok A L c -> arg_to A c = m_at M h -> on_stack A c (m_lo M from) (m_hi M from) -> arg_data A c = p ->
  exists u M',
    switch A L Ontop c = Goto (ontop_pc A L c) u /\ ontop_fn A c u /\
    pair_at A u (ab_ont (p_abi A)) = (handle A c, p) /\
    sctx_in A off (mm u) from p = pa_sctx (blk from) /\
    (forall o, keep from o -> mm u (p + o) = m_mem M (p + o)) /\
    blk_lo (blk (fc_ctx h)) <= sp A u <= blk_hi (blk (fc_ctx h)) /\ bdisj (blk (fc_ctx h)) (blk from) /\
    switched A M t me c u M' /\ lexec A L n rs off keep (EvSwitch t from me h SwExit :: old) M' blk.
Proof.
  intros IN HO LAB KO R E X c p CS AT OS AD.
  assert (G1 : good n (EvSwitch t from me h SwExit :: old)) by (apply (good_app n new); rewrite <- E; apply good_reach; exact R).
  pose proof (good_tl _ _ _ G1) as G. pose proof (lexec_inv A L n rs off keep IN LAB KO _ _ _ X G) as V. pose proof (q_exec _ _ _ _ _ _ _ _ V) as XE.
  pose proof (exec_minv A L n IN LAB _ _ XE G) as MV.
  destruct (C52_inject A L n s new t from me h SwExit old M IN HO LAB R E ltac:(auto) XE CS AT OS)
    as (u & SW & FN & ARG & SP & _ & _ & _ & _ & M' & SWD & _). fold c in SW, FN, ARG, SWD.
  destruct (next_switch n _ _ _ _ _ _ G1 ltac:(discriminate)) as (ST & ME & Ht & RT).
  destruct (exit_record A n _ _ _ _ _ G1) as (HR & HF & NF).
  assert (HH : has_stack n old (fc_ctx h)) by (apply has_susp; auto).
  assert (NE : fc_ctx h <> from).
  { intros Q. apply (proj2 (proj2 (f_susp _ _ (good_facts _ _ G) _ ST)) t Ht). congruence. }
  assert (KP : forall o, keep from o -> mm u (p + o) = m_mem M (p + o)).
  { intros o Ho. destruct (KO from) as (_ & _ & _ & K4). pose proof (K4 _ Ho) as Bo. rewrite <- RT in OS.
    apply (switch_outside A L n IN LAB old M t h Ontop u (ontop_pc A L c) (p + o)); auto.
    - rewrite RT. eapply (top_outside A L n rs off keep IN KO); eauto.
    - eapply (top_outside A L n rs off keep IN KO); eauto. }
  exists u, (put_susp (put_cpu M t u) me (handle A c) c).
  split; [exact SW|]. split; [exact FN|]. split; [rewrite <- AD; exact ARG|]. split.
  { rewrite <- (q_sctx _ _ _ _ _ _ _ _ V from HR). apply (sctx_ext A rs off keep IN KO). exact KP. }
  split; [exact KP|]. split.
  { destruct (v_ctx _ _ _ _ _ MV _ ST) as (_ & _ & _ & (Y1 & Y2 & _) & _). cbn [cxof x_lo x_hi x_o] in *.
    destruct (q_in _ _ _ _ _ _ _ _ V _ HH) as (Q1 & Q2 & _). pose proof (words A IN) as (_ & _ & _ & W4 & W5). rewrite SP. unfold handle in Y1. lia. }
  split; [apply (q_dis _ _ _ _ _ _ _ _ V); auto|]. split; [apply put_switched|].
  eapply (l_switch A L n rs off keep old M blk t from me h SwExit); eauto. discriminate.
Qed.
Print Assumptions C53_exit_releases_own_stack.

(** When a stack is given back: the record still contains the stack_context of the block of that context;
    no thread runs in that block, no suspended call is in it, and the code that gives it back runs on a
    context whose block is another one. *)
Theorem C53_free A L n rs off keep s new c a on old M blk :
  In A ports -> labels_ok A L -> keep_ok A rs off keep -> reachable n s ->
  s_tr s = new ++ EvFree c a on :: old -> lexec A L n rs off keep old M blk ->
  In (EvAlloc c a) old /\
  sctx_in A off (m_mem M) c (rec_at A rs c (blk c)) = pa_sctx (blk c) /\
  (forall t, (t < n)%nat -> running old t <> c /\ bdisj (blk (running old t)) (blk c)) /\
  (forall h, suspended old h -> m_at M h + own_len A <= blk_lo (blk c) \/ blk_hi (blk c) <= m_at M h) /\
  (exists t, (t < n)%nat /\ running old t = on).
Proof.
  intros IN LAB KO R E X.
  assert (G1 : good n (EvFree c a on :: old)) by (apply (good_app n new); rewrite <- E; apply good_reach; exact R).
  pose proof (good_tl _ _ _ G1) as G. pose proof (lexec_inv A L n rs off keep IN LAB KO _ _ _ X G) as V. pose proof (q_exec _ _ _ _ _ _ _ _ V) as XE.
  pose proof (exec_minv A L n IN LAB _ _ XE G) as MV. pose proof (good_facts _ _ G) as F.
  destruct (good_hd _ _ _ G1) as (_ & (_ & TH) & (_ & _ & AL & _ & NFR & t & me & to & SE & TO & ON) & _).
  assert (EX : exited old c) by (exists t, me, to; exact SE).
  assert (HC : has_stack n old c) by (split; [right; eauto|exact NFR]).
  assert (HR : has_record old c).
  { split; [|exact NFR]. apply in_split in SE as (l1 & l2 & E').
    assert (G2 : good n (EvSwitch t c me to SwExit :: l2)) by (apply (good_app n l1); rewrite <- E'; exact G).
    destruct (exit_record A n _ _ _ _ _ G2) as (((t1 & f1 & m1 & to1 & H & E1) & _) & _).
    exists t1, f1, m1, to1. split; [|exact E1]. rewrite E'. apply in_or_app. right. right. exact H. }
  split; [exact AL|]. split; [apply (q_sctx _ _ _ _ _ _ _ _ V c HR)|]. split; [|split].
  - intros t1 Ht1. destruct (f_run _ _ F t1 Ht1) as (_ & N1).
    assert (NE : running old t1 <> c) by (intros Q; apply N1; rewrite Q; exact EX).
    split; [exact NE|]. apply (q_dis _ _ _ _ _ _ _ _ V); auto. apply has_run; auto.
  - intros h ST. destruct (f_susp _ _ F h ST) as (_ & N1 & _).
    assert (NE : fc_ctx h <> c) by (intros Q; apply N1; rewrite Q; exact EX).
    assert (HH : has_stack n old (fc_ctx h)) by (apply has_susp; auto).
    pose proof (q_dis _ _ _ _ _ _ _ _ V _ _ HH HC NE) as D. destruct (q_in _ _ _ _ _ _ _ _ V _ HH) as (Q1 & Q2 & _).
    destruct (v_ctx _ _ _ _ _ MV _ ST) as (_ & _ & _ & (Y1 & Y2 & _) & HX & _). cbn [cxof x_lo x_hi x_h x_o] in *.
    unfold bdisj in D. unfold own_len, handle in *. lia.
  - apply TH. reflexivity.
Qed.
Print Assumptions C53_free.

(** resume_with( fn): ontop_fcontext( fctx, & fn, fiber_ontop): fiber_ontop is entered on the target with
    the address of fn as data pointer, and finds there the bytes that the caller left; fn is in the
    caller's stack (or anywhere outside of the target's stack), above the space that the call uses. *)
Theorem C53_functor A L n rs off keep s new t from me h g old M blk p k :
  In A ports -> has_ontop A -> labels_ok A L -> keep_ok A rs off keep -> reachable n s ->
  s_tr s = new ++ EvSwitch t from me h (SwOntop g) :: old -> lexec A L n rs off keep old M blk ->
  let c := cpu_at M t in
  call_ok A L c -> arg_to A c = m_at M h -> on_stack A c (m_lo M from) (m_hi M from) -> arg_data A c = p ->
  sp A c + ab_wr (p_abi A) <= p -> p + k <= m_hi M from ->
  exists u,
    switch A L Ontop c = Goto (ontop_pc A L c) u /\ ontop_fn A c u /\
    pair_at A u (ab_ont (p_abi A)) = (handle A c, p) /\
    (forall a, p <= a < p + k -> mm u a = m_mem M a).
Proof.
  intros IN HO LAB KO R E X c CS AT OS AD P1 P2.
  pose proof (C53_refines A L n rs off keep s (new ++ [EvSwitch t from me h (SwOntop g)]) old M blk IN LAB KO R ltac:(rewrite E, <- app_assoc; reflexivity) X) as XE.
  assert (G1 : good n (EvSwitch t from me h (SwOntop g) :: old)) by (apply (good_app n new); rewrite <- E; apply good_reach; exact R).
  pose proof (good_tl _ _ _ G1) as G.
  destruct (next_switch n _ _ _ _ _ _ G1 ltac:(discriminate)) as (ST & ME & Ht & RT).
  destruct (C52_inject A L n s new t from me h (SwOntop g) old M IN HO LAB R E ltac:(eauto) XE CS AT OS)
    as (u & SW & FN & ARG & _ & _ & _ & _ & OTH & _). fold c in SW, FN, ARG, OTH.
  exists u. split; [exact SW|]. split; [exact FN|]. split; [rewrite <- AD; exact ARG|].
  intros a Ha. destruct OS as (Y1 & Y2 & _). pose proof (words A IN) as (_ & _ & _ & W4 & W5). pose proof (wr_up A (port_checked A IN)) as WU.
  apply (OTH from a); [rewrite <- RT; apply has_run; auto| |unfold handle in Y1; lia|lia].
  intros Q. apply (proj2 (proj2 (f_susp _ _ (good_facts _ _ G) _ ST)) t Ht). congruence.
Qed.
Print Assumptions C53_functor.

(** Code that writes only to the stack of the context it runs on, or to memory that belongs to no context,
    keeps the rules: it does not write to what other contexts need. *)
Theorem C53_code_on_own_stack A L n rs off keep s new old M blk t m' :
  In A ports -> labels_ok A L -> keep_ok A rs off keep -> reachable n s -> s_tr s = new ++ old ->
  lexec A L n rs off keep old M blk -> (t < n)%nat -> wf (cpu_of A) m' ->
  (forall a c, has_stack n old c -> blk_lo (blk c) <= a < blk_hi (blk c) ->
     ~ (m_lo M (running old t) <= a < m_hi M (running old t)) -> mm m' a = m_mem M a) ->
  lexec A L n rs off keep old (put_code M t m') blk.
Proof.
  intros IN LAB KO R E X Ht W U. assert (G : good n old) by (apply (good_app n new); rewrite <- E; apply good_reach; exact R).
  pose proof (lexec_inv A L n rs off keep IN LAB KO _ _ _ X G) as V. pose proof (q_exec _ _ _ _ _ _ _ _ V) as XE.
  pose proof (exec_minv A L n IN LAB _ _ XE G) as MV. pose proof (good_facts _ _ G) as F.
  pose proof (has_run n _ _ G Ht) as HT. pose proof (words A IN) as (_ & W2 & _ & W4 & W5).
  apply l_code; auto.
  - intros h a ST Ha. assert (HH : has_stack n old (fc_ctx h)) by (apply has_susp; auto).
    destruct (v_ctx _ _ _ _ _ MV _ ST) as (_ & _ & _ & (Y1 & Y2 & _) & HX & _). cbn [cxof x_lo x_hi x_h x_o] in *.
    unfold owned, own_len, handle in *. destruct (q_in _ _ _ _ _ _ _ _ V _ HH) as (Q1 & Q2 & _).
    assert (NE : fc_ctx h <> running old t) by (intros Q; apply (proj2 (proj2 (f_susp _ _ F _ ST)) t Ht); auto).
    pose proof (v_dis _ _ _ _ _ MV _ _ HH HT NE) as D. unfold sdisj in D.
    apply (U a (fc_ctx h) HH); lia.
  - intros c a HR Ha. destruct (record_ctx n _ _ G HR) as (HC & NC). destruct (KO c) as (_ & _ & _ & K4). pose proof (K4 _ Ha) as Bo.
    destruct (q_fib _ _ _ _ _ _ _ _ V _ HC NC) as (OK & Elo & Ehi). destruct (lay_ok A rs off keep IN KO c (blk c) OK) as (L1 & L2 & L3 & L4 & _).
    apply (U a c HC); [lia|]. replace a with (rec_at A rs c (blk c) + (a - rec_at A rs c (blk c))) by lia.
    eapply (top_outside A L n rs off keep IN KO); eauto.
Qed.
Print Assumptions C53_code_on_own_stack.

(** ** In every execution

    The same, said about executions that have already taken place: in every execution there was, at each
    construction of a fiber and at each end of a context-function, a state of the machine before, and the
    machine entered the function as described. *)
Theorem C53_every_construction A L n rs off keep s new mid t from me to old M blk :
  In A ports -> labels_ok A L -> keep_ok A rs off keep -> reachable n s ->
  s_tr s = new ++ mid ++ EvSwitch t from me to SwCreate :: old ->
  lexec A L n rs off keep (mid ++ EvSwitch t from me to SwCreate :: old) M blk ->
  let d := fc_ctx to in let p := rec_at A rs d (blk d) in
  exists M0 blk0 c1 c u, let c0 := cpu_at M0 t in
    lexec A L n rs off keep old M0 blk0 /\ blk0 d = blk d /\
    run (cpu_of A) L (c_make (p_code A)) c0 = Goto (ret_addr A c0) c1 /\
    switch A L Jump c = Goto (mk_fn A c0) u /\
    pair_at A u (ab_ent (p_abi A)) = (handle A c, p) /\
    blk_lo (blk d) <= sp A u <= p - 64 /\ p + rs d <= blk_hi (blk d) /\
    sctx_in A off (mm u) d p = pa_sctx (blk d).
Proof.
  intros IN LAB KO R E X d p.
  remember (mid ++ EvSwitch t from me to SwCreate :: old) as tr eqn:ET. revert mid new E ET. 
  induction X as [M blk W Bd D|tr M blk t1 s1 X IH Ht W U K|tr M blk e X IH Q|tr M blk c1 a1 b X IH OK D
                   |tr M blk t1 from1 me1 to1 pc s0 s1 pc' t' X IH Ht s00 d1 p1 SC MT O1 O2 RM W U U' K CS AT AD OS SW
                   |tr M blk t1 from1 me1 to1 k pc t' X IH Ht K s1 CS AT OS AD SW]; intros mid new E ET.
  - destruct mid; discriminate.
  - exact (IH mid new E ET).
  - destruct mid as [|e' mid]; [injection ET as -> _; contradiction|]. injection ET as <- ET.
    apply (IH mid (new ++ [e])); [|exact ET]. rewrite E, <- app_assoc. reflexivity.
  - destruct mid as [|e' mid]; [discriminate|]. injection ET as <- ET.
    destruct (IH mid (new ++ [EvAlloc c1 a1])) as (M0 & blk0 & x1 & c & u & Z0 & Z1 & Z); [rewrite E, <- app_assoc; reflexivity|exact ET|].
    assert (G1 : good n (EvAlloc c1 a1 :: tr)) by (apply (good_app n new); rewrite <- E; apply good_reach; exact R).
    assert (NE : d <> c1).
    { intros Q. destruct (good_hd _ _ _ G1) as (_ & _ & (_ & _ & NEW) & _). cbn in NEW.
      assert (G2 : good n (EvSwitch t from me to SwCreate :: old)) by (apply (good_app n (new ++ EvAlloc c1 a1 :: mid)); rewrite <- app_assoc; cbn; rewrite <- ET, <- E; apply good_reach; exact R).
      destruct (good_hd _ _ _ G2) as (_ & _ & _ & (a & AL)).
      apply (NEW (EvAlloc (fc_ctx to) a)); [rewrite ET; apply in_or_app; right; right; exact AL|]. cbn. exact Q. }
    subst d p. unfold rec_at in *. cbn beta. rewrite (proj2 (Nat.eqb_neq _ _) NE). exists M0, blk0, x1, c, u. split; [exact Z0|]. split; [exact Z1|]. exact Z.
  - destruct mid as [|e' mid].
    + injection ET as -> -> -> -> ->.
      assert (G1 : good n (EvSwitch t from me to SwCreate :: old)) by (apply (good_app n new); rewrite <- E; apply good_reach; exact R).
      pose proof (good_tl _ _ _ G1) as G. pose proof (lexec_inv A L n rs off keep IN LAB KO _ _ _ X G) as V.
      destruct (create_facts A L n rs off keep IN LAB KO _ _ _ _ _ _ _ G1 V MT O1 O2) as (HD & ND & _).
      destruct (q_fib _ _ _ _ _ _ _ _ V d HD ND) as (OK & _). destruct (lay_ok A rs off keep IN KO d (blk d) OK) as (_ & _ & L3 & _).
      assert (MT' : mk_top A s00 = p - 64) by (rewrite MT; unfold p, d, d1 in *; lia).
      destruct (C53_create A L n rs off keep s new t from me to old M blk IN LAB KO R E X MT' O1 O2 SC) as (x1 & RM' & H1 & H2 & H3 & H4 & JU).
      fold s00 in RM', JU. unfold cpu_of in RM'. rewrite RM in RM'. injection RM' as -> ->.
      destruct (JU s1 W U U' K CS AT AD OS) as (u & M' & SW' & ARG & SPU & _ & SX & _).
      rewrite SW in SW'. injection SW' as -> ->.
      exists M, blk, x1, s1, u. intros c0. fold d p in ARG, SPU, SX, H3. split; [exact X|]. split; [reflexivity|]. split; [exact RM|]. split; [exact SW|]. split; [exact ARG|].
      split; [exact SPU|]. split; [exact H3|exact SX].
    + injection ET as <- ET. apply (IH mid (new ++ [EvSwitch t1 from1 me1 to1 SwCreate])); [|exact ET]. rewrite E, <- app_assoc. reflexivity.
  - destruct mid as [|e' mid]; [injection ET as -> -> -> -> -> ->; contradiction|]. injection ET as <- ET.
    apply (IH mid (new ++ [EvSwitch t1 from1 me1 to1 k])); [|exact ET]. rewrite E, <- app_assoc. reflexivity.
Qed.
Print Assumptions C53_every_construction.

Theorem C53_every_exit A L n rs off keep s new mid t from me h old M blk :
  In A ports -> has_ontop A -> labels_ok A L -> keep_ok A rs off keep -> reachable n s ->
  s_tr s = new ++ mid ++ EvSwitch t from me h SwExit :: old ->
  lexec A L n rs off keep (mid ++ EvSwitch t from me h SwExit :: old) M blk ->
  let p := rec_at A rs from (blk from) in
  exists M0 blk0 u, let c := cpu_at M0 t in
    lexec A L n rs off keep old M0 blk0 /\ blk0 from = blk from /\ blk0 (fc_ctx h) = blk (fc_ctx h) /\
    switch A L Ontop c = Goto (ontop_pc A L c) u /\ ontop_fn A c u /\
    pair_at A u (ab_ont (p_abi A)) = (handle A c, p) /\
    sctx_in A off (mm u) from p = pa_sctx (blk from) /\
    blk_lo (blk (fc_ctx h)) <= sp A u <= blk_hi (blk (fc_ctx h)) /\ bdisj (blk (fc_ctx h)) (blk from).
Proof.
  intros IN HO LAB KO R E X p.
  remember (mid ++ EvSwitch t from me h SwExit :: old) as tr eqn:ET. revert mid new E ET. 
  induction X as [M blk W Bd D|tr M blk t1 s1 X IH Ht W U K|tr M blk e X IH Q|tr M blk c1 a1 b X IH OK D
                   |tr M blk t1 from1 me1 to1 pc s0 s1 pc' t' X IH Ht s00 d1 p1 SC MT O1 O2 RM W U U' K CS AT AD OS SW
                   |tr M blk t1 from1 me1 to1 k pc t' X IH Ht K s1 CS AT OS AD SW]; intros mid new E ET.
  - destruct mid; discriminate.
  - exact (IH mid new E ET).
  - destruct mid as [|e' mid]; [injection ET as -> _; contradiction|]. injection ET as <- ET.
    apply (IH mid (new ++ [e])); [|exact ET]. rewrite E, <- app_assoc. reflexivity.
  - destruct mid as [|e' mid]; [discriminate|]. injection ET as <- ET.
    destruct (IH mid (new ++ [EvAlloc c1 a1])) as (M0 & blk0 & u & Z0 & Z1 & Z2 & Z); [rewrite E, <- app_assoc; reflexivity|exact ET|].
    assert (G1 : good n (EvAlloc c1 a1 :: tr)) by (apply (good_app n new); rewrite <- E; apply good_reach; exact R).
    assert (G2 : good n (EvSwitch t from me h SwExit :: old)) by (apply (good_app n (new ++ EvAlloc c1 a1 :: mid)); rewrite <- app_assoc; cbn; rewrite <- ET, <- E; apply good_reach; exact R).
    assert (NE : forall d, is_ctx n old d -> d <> c1).
    { intros d HI ->. destruct (good_hd _ _ _ G1) as (_ & _ & (_ & _ & NEW) & AL). cbn in NEW, AL.
      destruct HI as [HI|(a & HI)]; [lia|]. apply (NEW (EvAlloc c1 a)); [rewrite ET; apply in_or_app; right; right; exact HI|reflexivity]. }
    destruct (exit_record A n _ _ _ _ _ G2) as (HR & HF & NF).
    destruct (next_switch n _ _ _ _ _ _ G2 ltac:(discriminate)) as (ST & ME & Ht & RT).
    pose proof (NE from (proj1 HF)) as N1. pose proof (NE (fc_ctx h) (proj1 (has_susp n _ _ (good_tl _ _ _ G2) ST))) as N2.
    subst p. unfold rec_at in *. cbn beta. rewrite (proj2 (Nat.eqb_neq _ _) N1), (proj2 (Nat.eqb_neq _ _) N2).
    exists M0, blk0, u. split; [exact Z0|]. split; [exact Z1|]. split; [exact Z2|]. exact Z.
  - destruct mid as [|e' mid]; [discriminate|]. injection ET as <- ET.
    apply (IH mid (new ++ [EvSwitch t1 from1 me1 to1 SwCreate])); [|exact ET]. rewrite E, <- app_assoc. reflexivity.
  - destruct mid as [|e' mid].
    + injection ET as -> -> -> -> -> ->.
      destruct (C53_exit_releases_own_stack A L n rs off keep s new t from me h old M blk IN HO LAB KO R E X CS AT OS (AD eq_refl))
        as (u & M' & SW' & FN & ARG & SX & _ & SPU & BD & _).
      exists M, blk, u. intros c. split; [exact X|]. split; [reflexivity|]. split; [reflexivity|]. split; [exact SW'|]. split; [exact FN|]. split; [exact ARG|].
      split; [exact SX|]. split; [exact SPU|exact BD].
    + injection ET as <- ET. apply (IH mid (new ++ [EvSwitch t1 from1 me1 to1 k])); [|exact ET]. rewrite E, <- app_assoc. reflexivity.
Qed.
Print Assumptions C53_every_exit.
