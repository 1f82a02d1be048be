(** * C52: fibers on the assembler

    Every history of the fiber machine can be executed by the assembler code, and what the fiber
    machine says about a switch is what the machine does: on every port, for any number of threads
    and fibers, whichever threads resume them. *)
From Coq Require Import ZArith List String Lia Bool.
From Verif Require Import ListUtil Fiber FiberSpec LinkHist P_Fiber3.
From Verif Require Import Word AsmMachine AsmSym AsmAbi AsmCheck AsmCode AsmCode2 AsmFacts AsmHist P_Asm AsmWit Link.
Import ListNotations.
Open Scope list_scope.
Open Scope Z_scope.

Lemma fc_eqb_eq a b : fc_eqb a b = true <-> a = b.
Proof.
  unfold fc_eqb. rewrite andb_true_iff, !Nat.eqb_eq. destruct a as [c v], b as [c' v']; cbn. split.
  - intros [-> ->]. reflexivity.
  - intros [= -> ->]. auto.
Qed.
Lemma fc_eqb_refl a : fc_eqb a a = true.
Proof. apply fc_eqb_eq. reflexivity. Qed.
Lemma fc_eqb_ne a b : a <> b -> fc_eqb a b = false.
Proof. intros H. destruct (fc_eqb a b) eqn:E; [|reflexivity]. apply fc_eqb_eq in E. contradiction. Qed.

Section P.
  Variable A : port.
  Variable L : string -> Z.
  Variable n : nat.
  Let B := p_abi A.
  Let C := p_code A.
  Let P := ab_cpu B.
  Hypothesis IN : In A ports.
  Hypothesis LAB : labels_ok A L.
  Let CHK : check A = true := port_checked A IN.

  Definition cxof (M : mach) (h : fctx) : cx :=
    Cx (m_lo M (fc_ctx h)) (m_hi M (fc_ctx h)) (m_at M h) (Susp (m_st M h)) (m_wr M h).

  Record minv (tr : list event) (M : mach) : Prop := {
    v_byte : forall a, 0 <= m_mem M a < 256;
    v_reg : forall t r, 0 <= m_reg M t r < 256 ^ (rw P r);
    v_bnd : forall c, has_stack n tr c -> 0 < m_lo M c <= m_hi M c /\ m_hi M c <= space P;
    v_dis : forall c d, has_stack n tr c -> has_stack n tr d -> c <> d -> sdisj (m_lo M c) (m_hi M c) (m_lo M d) (m_hi M d);
    v_ctx : forall h, suspended tr h -> xinv A L (m_mem M) (cxof M h)
  }.

  Lemma minv_wf tr M t : minv tr M -> wf P (cpu_at M t).
  Proof. intros V. split; [apply (v_byte _ _ V)|apply (v_reg _ _ V)]. Qed.

  Lemma has_susp tr h : good n tr -> suspended tr h -> has_stack n tr (fc_ctx h).
  Proof.
    intros G H. pose proof (good_facts _ _ G) as F. destruct (f_susp _ _ F _ H) as (H1 & H2 & _). split; [exact H1|].
    intros X. apply H2. apply (f_freed _ _ F). exact X.
  Qed.
  Lemma has_run tr t : good n tr -> (t < n)%nat -> has_stack n tr (running tr t).
  Proof.
    intros G H. pose proof (good_facts _ _ G) as F. destruct (f_run _ _ F _ H) as (H1 & H2). split; [exact H1|].
    intros X. apply H2. apply (f_freed _ _ F). exact X.
  Qed.
  Lemma has_old e tr c : match e with EvAlloc _ _ => False | _ => True end -> has_stack n (e :: tr) c -> has_stack n tr c.
  Proof.
    intros Q [H1 H2]. split.
    - destruct H1 as [H1|(a & [E|H1])]; [left; exact H1|subst e; contradiction|right; exists a; exact H1].
    - intros (a & on & H). apply H2. exists a, on. right. exact H.
  Qed.

  (** a processor, the context it executes, and some suspended contexts *)
  Lemma conf_inv tr M t l : minv tr M -> good n tr -> (t < n)%nat -> NoDup l -> (forall h, In h l -> suspended tr h) ->
    inv A L (Conf (cpu_at M t) (m_lo M (running tr t)) (m_hi M (running tr t)) (map (cxof M) l)).
  Proof.
    intros V G Ht ND S. pose proof (good_facts _ _ G) as F. pose proof (has_run _ _ G Ht) as HR.
    split; [apply (minv_wf _ _ _ V)|]. cbn [n_lo n_hi others now]. destruct (v_bnd _ _ V _ HR).
    split; [lia|]. split; [assumption|]. split.
    - cbn [pw]. split.
      + intros y Hy. rewrite map_map in Hy. apply in_map_iff in Hy as (h & <- & Hh). cbn.
        apply (v_dis _ _ V); [exact HR|apply has_susp; auto|]. apply (f_susp _ _ F); auto.
      + clear H. induction l as [|h l IH]; [exact Logic.I|]. cbn [map pw]. inversion ND; subst. split.
        * intros y Hy. rewrite map_map in Hy. apply in_map_iff in Hy as (h' & <- & Hh). cbn.
          apply (v_dis _ _ V); [apply has_susp; auto; apply S; left; reflexivity|apply has_susp; auto; apply S; right; exact Hh|].
          intros E. apply H2. replace h with h'; [exact Hh|]. apply (f_one _ _ F); [apply S; right; exact Hh|apply S; left; reflexivity|auto].
        * apply IH; [assumption|]. intros h' Hh. apply S. right. exact Hh.
    - intros x Hx. apply in_map_iff in Hx as (h & <- & Hh). apply (v_ctx _ _ V). auto.
  Qed.

  Lemma exec_minv tr M : exec A L n tr M -> good n tr -> minv tr M.
  Proof.
    induction 1 as [M W Bd D|tr M t s X IH Ht W U|tr M e X IH Q|tr M c a lo hi X IH B0 B1 D
                   |tr M t from me to pc s0 s pc' t' X IH Ht s00 d MS O1 O2 T1 T2 R W U U' CS AT OS SW
                   |tr M t from me to k pc t' X IH Ht K s CS AT OS SW]; intros G.
    - assert (HS : forall c, has_stack n [] c -> (c < n)%nat) by (intros c [[H|(a & [])] _]; exact H).
      constructor; auto.
      + apply (W 0%nat).
      + intros t. apply (W t).
      + intros h [(? & ? & ? & ? & [] & _) _].
    - specialize (IH G). destruct W as [W1 W2]. constructor; cbn; auto.
      + intros t' r. destruct (Nat.eqb t' t); [apply W2|apply (v_reg _ _ IH)].
      + apply (v_bnd _ _ IH).
      + apply (v_dis _ _ IH).
      + intros h H. apply (xinv_soil A L (m_mem M) (mm s) (cxof M h) (v_ctx _ _ IH h H)). intros a Ha. exact (U h a H Ha).
    - specialize (IH (good_tl _ _ _ G)).
      assert (HS : forall c, has_stack n (e :: tr) c -> has_stack n tr c) by (intros c; apply has_old; destruct e; auto).
      constructor; try apply IH; auto.
      + intros c H. apply (v_bnd _ _ IH). auto.
      + intros c d H H'. apply (v_dis _ _ IH); auto.
      + intros h H. apply (v_ctx _ _ IH). apply susp_quiet in H; [exact H|]. destruct e; try reflexivity. contradiction.
    - pose proof (good_tl _ _ _ G) as G'. specialize (IH G'). destruct (good_hd _ _ _ G) as (_ & _ & (_ & _ & NEW) & AL). cbn in AL.
      assert (NC : ~ is_ctx n tr c).
      { intros [H|(a' & H)]; [lia|]. apply (NEW _ H). reflexivity. }
      assert (HS : forall e, has_stack n (EvAlloc c a :: tr) e -> e = c \/ (e <> c /\ has_stack n tr e)).
      { intros e [H1 H2]. destruct (Nat.eq_dec e c) as [->|N]; [left; reflexivity|right]. split; [exact N|]. split.
        - destruct H1 as [H1|(a' & [E|H1])]; [left; exact H1|congruence|right; exists a'; exact H1].
        - intros (a' & on & H). apply H2. exists a', on. right. exact H. }
      constructor; cbn; try apply IH.
      + intros e H. destruct (HS _ H) as [->|[N H']].
        * rewrite Nat.eqb_refl. split; [exact B0|exact B1].
        * destruct (Nat.eqb_spec e c); [contradiction|]. apply (v_bnd _ _ IH). exact H'.
      + intros e f He Hf N. destruct (HS _ He) as [->|[N1 H1]], (HS _ Hf) as [->|[N2 H2]]; [contradiction| | |].
        * rewrite Nat.eqb_refl. destruct (Nat.eqb_spec f c); [contradiction|]. apply D. exact H2.
        * rewrite Nat.eqb_refl. destruct (Nat.eqb_spec e c); [contradiction|]. specialize (D _ H1). unfold sdisj in *. lia.
        * destruct (Nat.eqb_spec e c); [contradiction|]. destruct (Nat.eqb_spec f c); [contradiction|]. apply (v_dis _ _ IH); auto.
      + intros h H. apply susp_quiet in H; [|reflexivity]. pose proof (v_ctx _ _ IH _ H) as Y.
        unfold cxof in *. cbn. destruct (Nat.eqb_spec (fc_ctx h) c) as [E|_]; [|exact Y].
        exfalso. apply NC. rewrite <- E. apply (has_susp _ _ G' H).
    - (* create *)
      pose proof (good_tl _ _ _ G) as G'. specialize (IH G'). pose proof (good_facts _ _ G') as F.
      destruct (good_hd _ _ _ G) as ((M1 & M2 & M3 & M4 & M5) & ((_ & RT & NT) & _) & (_ & NF & _) & AL). cbn in AL.
      assert (HD : has_stack n tr d).
      { split; [right; exact AL|]. intros Y. apply (NF _ Y). cbn. auto. }
      assert (ND : forall h, suspended tr h -> fc_ctx h <> d).
      { intros h H E. destruct (created_from _ _ _ G' (proj1 H)) as (t1 & to1 & k1 & H1 & _).
        apply (M5 _ (fc_ctx h) H1); [reflexivity|cbn; auto|exact E]. }
      assert (NM : forall h, suspended tr h -> h <> me).
      { intros h H E. subst h. apply (proj2 (proj2 (f_susp _ _ F _ H)) t Ht). congruence. }
      destruct (v_bnd _ _ IH _ HD) as (D0 & D1).
      assert (HF : has_stack n tr from) by (rewrite <- RT; apply has_run; auto).
      (* with any list of suspended contexts *)
      assert (Z : forall l, NoDup l -> (forall h, In h l -> suspended tr h) ->
        inv A L (Conf t' (m_lo M d) (m_hi M d) (Cx (m_lo M from) (m_hi M from) (handle A s) (Susp s) clean :: map (fun h => soil (mm s0) (mm s) (cxof M h)) l))).
      { intros l NDl Sl. pose proof (conf_inv _ _ _ _ IH G' Ht NDl Sl) as I0. rewrite RT in I0.
        pose proof (inv_make A L LAB CHK _ (m_lo M d) (m_hi M d) pc s0 I0 MS O1 O2) as I1. cbn [now n_lo n_hi others] in I1.
        assert (I1' : inv A L (Conf s0 (m_lo M from) (m_hi M from) (Cx (m_lo M d) (m_hi M d) (rg s0 (ab_mkres (p_abi A))) (Made s00) clean :: map (cxof M) l))).
        { apply I1; auto.
          - fold s00 C. split; [lia|]. exact T1.
          - apply (v_dis _ _ IH); [exact HD|exact HF|]. intros E. apply (NT t Ht). rewrite RT. auto.
          - intros x Hx. apply in_map_iff in Hx as (h & <- & Hh). cbn. apply (v_dis _ _ IH); [exact HD|apply has_susp; auto|].
            intros E. apply (ND h); auto. }
        pose proof (inv_user A L _ s I1' W) as I2. cbn [now n_lo n_hi others] in I2.
        assert (I2' := I2 ltac:(intros x a [<-|Hx]; [cbn [x_h x_o flen]; intros Ha; apply U'; exact Ha|
          apply in_map_iff in Hx as (h & <- & Hh); intros Ha; apply (U h); [auto|exact Ha]])). cbn [map] in I2'. rewrite map_map in I2'.
        exact (inv_switch A L LAB CHK _ Jump _ [] _ pc' t' I2' eq_refl CS AT OS ltac:(discriminate) SW). }
      destruct (Z [] (NoDup_nil _) ltac:(intros h [])) as ((W1 & W2) & _ & _ & _ & XI). cbn [map] in XI.
      constructor; cbn; auto.
      + intros t1 r. destruct (Nat.eqb t1 t); [apply W2|apply (v_reg _ _ IH)].
      + intros c H. apply (v_bnd _ _ IH). apply has_old in H; auto.
      + intros c e H H'. apply (v_dis _ _ IH); [apply has_old in H; auto|apply has_old in H'; auto].
      + intros h H. apply susp_switch in H as (H & NCo & NTo). unfold cxof. cbn. destruct H as [[-> _]|H].
        * rewrite fc_eqb_refl, M1. apply XI. left. reflexivity.
        * assert (Hh : suspended tr h) by (split; assumption). rewrite fc_eqb_ne by auto.
          destruct (Z [h]) as (_ & _ & _ & _ & Y); [repeat constructor; intros []|intros ? [<-|[]]; exact Hh|].
          apply Y. right. left. reflexivity.
    - (* switch *)
      pose proof (good_tl _ _ _ G) as G'. specialize (IH G'). pose proof (good_facts _ _ G') as F.
      destruct (good_hd _ _ _ G) as ((M1 & M2 & M3 & M4 & M5) & ((_ & RT & NT) & _) & _).
      assert (ST : suspended tr to) by (split; [destruct k; try exact M5; contradiction|exact M4]).
      assert (NM : forall h, suspended tr h -> h <> me).
      { intros h H E. subst h. apply (proj2 (proj2 (f_susp _ _ F _ H)) t Ht). congruence. }
      assert (Z : forall l, NoDup (to :: l) -> (forall h, In h l -> suspended tr h) ->
        inv A L (Conf t' (m_lo M (fc_ctx to)) (m_hi M (fc_ctx to)) (Cx (m_lo M from) (m_hi M from) (handle A s) (Susp s) clean :: map (cxof M) l))).
      { intros l NDl Sl. assert (Sl' : forall h, In h (to :: l) -> suspended tr h) by (intros h [<-|Hh]; auto).
        pose proof (conf_inv _ _ _ _ IH G' Ht NDl Sl') as I0. rewrite RT in I0.
        refine (inv_switch A L LAB CHK _ (how_of k) (cxof M to) [] _ pc t' I0 eq_refl CS AT OS _ SW).
        intros _. exists (m_st M to). reflexivity. }
      destruct (Z [] ltac:(repeat constructor; intros []) ltac:(intros h [])) as ((W1 & W2) & _ & _ & _ & XI). cbn [map] in XI.
      constructor; cbn; auto.
      + intros t1 r. destruct (Nat.eqb t1 t); [apply W2|apply (v_reg _ _ IH)].
      + intros c H. apply (v_bnd _ _ IH). apply has_old in H; auto.
      + intros c e H H'. apply (v_dis _ _ IH); [apply has_old in H; auto|apply has_old in H'; auto].
      + intros h H. apply susp_switch in H as (H & NCo & NTo). unfold cxof. cbn. destruct H as [[-> _]|H].
        * rewrite fc_eqb_refl, M1. apply XI. left. reflexivity.
        * assert (Hh : suspended tr h) by (split; assumption). rewrite fc_eqb_ne by auto.
          destruct (Z [h]) as (_ & _ & _ & _ & Y); [constructor; [intros [E|[]]; auto|repeat constructor; intros []]|intros ? [<-|[]]; exact Hh|].
          apply Y. right. left. reflexivity.
  Qed.

  (** what the next switch of a history goes to *)
  Lemma next_switch tr t from me to k : good n (EvSwitch t from me to k :: tr) -> k <> SwCreate ->
    suspended tr to /\ fc_ctx me = from /\ (t < n)%nat /\ running tr t = from.
  Proof.
    intros G K. destruct (good_hd _ _ _ G) as ((M1 & M2 & M3 & M4 & M5) & ((T1 & RT & NT) & _) & _).
    split; [|auto]. split; [destruct k; try exact M5; contradiction|exact M4].
  Qed.

  (** a switch does not touch the stack of any other context *)
  Lemma others_untouched tr M t to k u pc c a :
    minv tr M -> good n tr -> (t < n)%nat -> suspended tr to -> call_ok A L (cpu_at M t) -> arg_to A (cpu_at M t) = m_at M to ->
    on_stack A (cpu_at M t) (m_lo M (running tr t)) (m_hi M (running tr t)) ->
    switch A L k (cpu_at M t) = Goto pc u ->
    has_stack n tr c -> c <> fc_ctx to -> m_lo M c <= a < m_hi M c ->
    ~ (handle A (cpu_at M t) <= a < sp A (cpu_at M t) + ab_wr (p_abi A)) -> mm u a = m_mem M a.
  Proof.
    intros V G Ht ST CS AT OS SW HC NC Ha Hf.
    assert (I0 := conf_inv _ _ _ [to] V G Ht ltac:(repeat constructor; intros []) ltac:(intros h [<-|[]]; exact ST)).
    assert (HO : k = Ontop -> has_ontop A).
    { intros -> Q. unfold switch in SW. rewrite Q in SW. discriminate. }
    destruct (switch_ok A L LAB CHK _ k (cxof M to) I0 (or_introl eq_refl) CS AT OS ltac:(intros _; exists (m_st M to); reflexivity) HO) as (pc' & u' & SW' & _ & MA).
    cbn [now] in SW'. rewrite SW in SW'. injection SW' as <- <-. apply MA.
    apply (untouched_out A L _ k (cxof M to) a I0 (or_introl eq_refl) OS); [|exact Hf].
    cbn [cxof x_lo x_hi]. pose proof (v_dis _ _ V _ _ HC (has_susp _ _ G ST) NC) as D. unfold sdisj in D. lia.
  Qed.
End P.

(** ** The statements

    In all of them: [s] is a reachable state of the fiber machine, the history of [s] contains a
    switch with the events [old] before it, and [M] is a state that the real machine can have after
    [old]. *)

(** M' is M after thread t, having called the routine in state c, has arrived in state u: the call has
    become suspension me under the caller's handle; the processors of the other threads, the other
    suspensions and the placement of the stacks are as before *)
Definition switched (A : port) (M : mach) (t : nat) (me : fctx) (c u : mst) (M' : mach) : Prop :=
  (forall a, m_mem M' a = mm u a) /\ (forall r, m_reg M' t r = rg u r) /\
  (forall t' r, t' <> t -> m_reg M' t' r = m_reg M t' r) /\
  (forall d, m_lo M' d = m_lo M d /\ m_hi M' d = m_hi M d) /\
  m_at M' me = handle A c /\ m_st M' me = c /\ (forall a, ~ m_wr M' me a) /\
  (forall x, x <> me -> m_at M' x = m_at M x /\ m_st M' x = m_st M x).

Lemma put_switched A M t me c u : switched A M t me c u (put_susp (put_cpu M t u) me (handle A c) c).
Proof.
  unfold switched. cbn. rewrite fc_eqb_refl, Nat.eqb_refl. do 2 (split; [reflexivity|]). split; [|split; [auto|do 2 (split; [reflexivity|]); split; [intros a []|]]].
  - intros t' r N. destruct (Nat.eqb_spec t' t); [contradiction|reflexivity].
  - intros x N. rewrite fc_eqb_ne by exact N. auto.
Qed.

(** What a suspension is to the machine: the fcontext_t points into the stack of the suspended
    context; it is the handle of a call of jump or ontop that was made on that stack. *)
Theorem C52_suspension A L n s new old M h :
  In A ports -> labels_ok A L -> reachable n s -> s_tr s = new ++ old -> exec A L n old M -> suspended old h ->
  m_at M h = handle A (m_st M h) /\ call_ok A L (m_st M h) /\
  on_stack A (m_st M h) (m_lo M (fc_ctx h)) (m_hi M (fc_ctx h)) /\
  0 < m_lo M (fc_ctx h) <= m_at M h /\ m_at M h + own_len A <= m_hi M (fc_ctx h) /\
  (forall a, m_lo M (fc_ctx h) <= a < m_hi M (fc_ctx h) ->
     ~ (handle A (m_st M h) <= a < sp A (m_st M h) + ab_wr (p_abi A)) -> ~ m_wr M h a -> m_mem M a = mm (m_st M h) a).
Proof.
  intros IN LAB R E X S. assert (G : good n old) by (apply (good_app n new); rewrite <- E; apply good_reach; exact R).
  pose proof (exec_minv A L n IN LAB _ _ X G) as V. destruct (v_ctx _ _ _ _ _ V _ S) as (CX & X0 & X1 & OS & HH & LIVE).
  cbn [cxof x_lo x_hi x_h x_o x_w] in *. pose proof (context_facts A L LAB (port_checked A IN) _ _ _ CX) as (CS & _).
  destruct (v_bnd _ _ _ _ _ V _ (has_susp n _ _ G S)) as (Y1 & Y2).
  split; [exact HH|]. split; [exact CS|]. split; [exact OS|]. destruct OS as (O1 & O2 & _).
  split; [lia|]. split; [unfold own_len, handle in *; lia|exact LIVE].
Qed.

(** and the state that is recorded for it is the state of the processor that made the call *)
Theorem C52_suspending_call A L n s new t from me to k old M :
  reachable n s -> s_tr s = new ++ EvSwitch t from me to k :: old -> exec A L n (s_tr s) M ->
  exists M0, exec A L n old M0 /\ (k <> SwCreate -> m_st M me = cpu_at M0 t).
Proof.
  intros R E X. pose proof (good_reach _ _ R) as G. rewrite E in X, G. clear R E s. revert X.
  remember (new ++ EvSwitch t from me to k :: old) as tr eqn:Etr. intros X. revert new Etr.
  induction X as [M W Bd D|tr M t1 s X IH Ht W U|tr M e X IH Q|tr M c a lo hi X IH B0 B1 D
                 |tr M t1 from1 me1 to1 pc s0 s pc' t' X IH Ht s00 d MS O1 O2 T1 T2 R W U U' CS AT OS SW
                 |tr M t1 from1 me1 to1 k1 pc t' X IH Ht K s CS AT OS SW]; intros new Etr.
  - destruct new; discriminate.
  - exact (IH G new Etr).
  - destruct new as [|e' new]; [injection Etr as -> _; contradiction|]. injection Etr as -> ->.
    exact (IH (good_tl _ _ _ G) new eq_refl).
  - destruct new as [|e' new]; [discriminate|]. injection Etr as <- ->.
    exact (IH (good_tl _ _ _ G) new eq_refl).
  - destruct new as [|e' new].
    + injection Etr as -> -> -> -> <- ->. exists M. split; [exact X|]. intros []. reflexivity.
    + injection Etr as <- ->. destruct (IH (good_tl _ _ _ G) new eq_refl) as (M0 & X0 & H0). exists M0. split; [exact X0|].
      intros K. rewrite <- H0 by exact K. cbn. rewrite fc_eqb_ne; [reflexivity|]. intros <-.
      destruct (good_hd _ _ _ G) as ((_ & M2 & _) & _). apply (M2 t from to k). apply in_or_app. right. left. reflexivity.
  - destruct new as [|e' new].
    + injection Etr as -> -> -> -> -> ->. exists M. split; [exact X|]. intros _. cbn. rewrite fc_eqb_refl. reflexivity.
    + injection Etr as <- ->. destruct (IH (good_tl _ _ _ G) new eq_refl) as (M0 & X0 & H0). exists M0. split; [exact X0|].
      intros K'. rewrite <- H0 by exact K'. cbn. rewrite fc_eqb_ne; [reflexivity|]. intros <-.
      destruct (good_hd _ _ _ G) as ((_ & M2 & _) & _). apply (M2 t from to k). apply in_or_app. right. left. reflexivity.
Qed.

(** resume(): when thread t calls jump_fcontext with the fcontext_t of h, the suspended call h returns
    on the processor of t, whichever thread made it: to its return address, with its stack pointer,
    its callee-saved registers; its result is the fcontext_t under which the caller is suspended
    from now on, and the data pointer; every byte of its stack is as it was when it was suspended
    (except the space that belonged to the call, the result object, and what other code has written
    there since: [m_wr]); no byte of the stack of any
    other context changes, be it suspended or running on another thread, nor of the caller's except
    below its stack pointer. The machine goes on with this switch as an event. *)
Theorem C52_resume A L n s new t from me h old M :
  In A ports -> labels_ok A L -> reachable n s -> s_tr s = new ++ EvSwitch t from me h SwJump :: old ->
  exec A L n old M ->
  let c := cpu_at M t in let s1 := m_st M h in
  call_ok A L c -> arg_to A c = m_at M h -> on_stack A c (m_lo M from) (m_hi M from) ->
  exists u,
    returned A s1 (switch A L Jump c) u /\
    result A s1 u = (handle A c, arg_data A c) /\
    (forall a, m_lo M (fc_ctx h) <= a < m_hi M (fc_ctx h) ->
       ~ (handle A s1 <= a < sp A s1 + ab_wr (p_abi A)) -> ~ m_wr M h a ->
       (forall H, hidden A s1 = Some H -> ~ (H <= a < H + 2 * cwb (cpu_of A))) -> mm u a = mm s1 a) /\
    (forall d a, has_stack n old d -> d <> fc_ctx h -> m_lo M d <= a < m_hi M d ->
       ~ (handle A c <= a < sp A c + ab_wr (p_abi A)) -> mm u a = m_mem M a) /\
    (exists M', switched A M t me c u M' /\ (forall x a, x <> me -> m_wr M' x a <-> m_wr M x a) /\
       exec A L n (EvSwitch t from me h SwJump :: old) M').
Proof.
  intros IN LAB R E X c s1 CS AT OS. subst c s1. pose proof (port_checked A IN) as CHK.
  assert (G1 : good n (EvSwitch t from me h SwJump :: old)) by (apply (good_app n new); rewrite <- E; apply good_reach; exact R).
  pose proof (good_tl _ _ _ G1) as G. pose proof (exec_minv A L n IN LAB _ _ X G) as V.
  destruct (next_switch n _ _ _ _ _ _ G1 ltac:(discriminate)) as (ST & ME & Ht & RT).
  assert (I0 := conf_inv A L n _ _ _ [h] V G Ht ltac:(repeat constructor; intros []) ltac:(intros ? [<-|[]]; exact ST)).
  rewrite RT in I0. pose proof (inv_apart A L _ (cxof M h) I0 (or_introl eq_refl) OS CS) as AP.
  destruct (v_ctx _ _ _ _ _ V _ ST) as (CX & _ & _ & (Y1 & Y2 & Y3) & HH & LIVE). cbn [cxof x_lo x_hi x_h x_o x_w now] in *.
  set (c := cpu_at M t) in *. set (s1 := m_st M h) in *.
  rewrite <- AT in CX, AP.
  destruct (C26_jump_resumes_suspended_call A L s1 c IN LAB CS CX AP) as (u & RU & RES & _ & U & _).
  exists u. split; [exact RU|]. split; [exact RES|]. split; [|split].
  - intros a Ha Hf Hw Hr. rewrite U; [apply LIVE; auto| |exact Hr].
    assert (D : sdisj (m_lo M from) (m_hi M from) (m_lo M (fc_ctx h)) (m_hi M (fc_ctx h))).
    { destruct I0 as (_ & _ & _ & (PW & _) & _). apply (PW _ (or_introl eq_refl)). }
    destruct OS as (O1 & O2 & _). pose proof (wr_up A CHK). unfold sdisj in D. lia.
  - intros d a HD ND Ha Hf. destruct RU as (SW & _). rewrite <- RT in OS.
    eapply (others_untouched A L n IN LAB old M t h Jump u); eauto.
  - destruct RU as (SW & _). exists (put_susp (put_cpu M t u) me (handle A c) c). split; [apply put_switched|].
    split; [intros x a N; cbn; rewrite fc_eqb_ne by exact N; reflexivity|].
    eapply (x_switch A L n old M t from me h SwJump); eauto. discriminate.
Qed.

(** ~fiber(), resume_with(fn) and the end of a context-function: ontop_fcontext enters the function
    it is given as if the suspended call h had called it, with the fcontext_t of the caller as its
    argument; when that function returns, the suspended call h returns, with the function's
    result. *)
Theorem C52_inject A L n s new t from me h k old M :
  In A ports -> has_ontop A -> labels_ok A L -> reachable n s -> s_tr s = new ++ EvSwitch t from me h k :: old ->
  k = SwUnwind \/ (exists g, k = SwOntop g) \/ k = SwExit -> exec A L n old M ->
  let c := cpu_at M t in let s1 := m_st M h in
  call_ok A L c -> arg_to A c = m_at M h -> on_stack A c (m_lo M from) (m_hi M from) ->
  exists u,
    switch A L Ontop c = Goto (ontop_pc A L c) u /\ ontop_fn A c u /\
    pair_at A u (ab_ont (p_abi A)) = (handle A c, arg_data A c) /\
    sp A u = sp A s1 /\ (forall r, In r (ab_saved (p_abi A)) -> rg u r = rg s1 r) /\
    (forall o v, returned A u o v -> returned A s1 o v /\ result A s1 v = result A u v) /\
    (forall a, m_lo M (fc_ctx h) <= a < m_hi M (fc_ctx h) -> ~ (handle A s1 <= a < handle A s1 + own_len A) -> ~ m_wr M h a ->
       (forall H, hidden A s1 = Some H -> ~ (H <= a < H + 2 * cwb (cpu_of A))) -> mm u a = mm s1 a) /\
    (forall d a, has_stack n old d -> d <> fc_ctx h -> m_lo M d <= a < m_hi M d ->
       ~ (handle A c <= a < sp A c + ab_wr (p_abi A)) -> mm u a = m_mem M a) /\
    (exists M', switched A M t me c u M' /\ (forall x a, x <> me -> m_wr M' x a <-> m_wr M x a) /\
       exec A L n (EvSwitch t from me h k :: old) M').
Proof.
  intros IN HO LAB R E KK X c s1 CS AT OS. assert (K : how_of k = Ontop) by (destruct KK as [-> |[(g & ->)| ->]]; reflexivity). subst c s1. pose proof (port_checked A IN) as CHK.
  assert (G1 : good n (EvSwitch t from me h k :: old)) by (apply (good_app n new); rewrite <- E; apply good_reach; exact R).
  pose proof (good_tl _ _ _ G1) as G. pose proof (exec_minv A L n IN LAB _ _ X G) as V.
  assert (K' : k <> SwCreate) by (intros ->; discriminate).
  destruct (next_switch n _ _ _ _ _ _ G1 K') as (ST & ME & Ht & RT).
  assert (I0 := conf_inv A L n _ _ _ [h] V G Ht ltac:(repeat constructor; intros []) ltac:(intros ? [<-|[]]; exact ST)).
  rewrite RT in I0. pose proof (inv_apart A L _ (cxof M h) I0 (or_introl eq_refl) OS CS) as AP.
  destruct (v_ctx _ _ _ _ _ V _ ST) as (CX & _ & _ & (Y1 & Y2 & Y3) & HH & LIVE). cbn [cxof x_lo x_hi x_h x_o x_w now] in *.
  set (c := cpu_at M t) in *. set (s1 := m_st M h) in *.
  rewrite <- AT in CX, AP.
  destruct (C28_ontop_enters_function_on_target A L s1 c IN HO LAB CS CX AP) as (u & SW & FN & ARG & SP & RS & RET & HID & U & _).
  exists u. split; [exact SW|]. split; [exact FN|]. split; [exact ARG|]. split; [exact SP|]. split; [exact RS|]. split; [|split; [|split]].
  - intros o v RV. exact (C28_ontop_return_completes_suspended_call A L s1 c u IN HO LAB CS CX AP SW o v RV).
  - intros a Ha Hf Hw Hr. rewrite AT, HH in U. rewrite U; [apply LIVE; [exact Ha| |exact Hw]| |exact Hf|exact Hr].
    + pose proof (wr_up A CHK). unfold own_len, handle in *. lia.
    + assert (D : sdisj (m_lo M from) (m_hi M from) (m_lo M (fc_ctx h)) (m_hi M (fc_ctx h))).
      { destruct I0 as (_ & _ & _ & (PW & _) & _). apply (PW _ (or_introl eq_refl)). }
      destruct OS as (O1 & O2 & _). pose proof (wr_up A CHK). unfold sdisj in D. lia.
  - intros d a HD ND Ha Hf. rewrite <- RT in OS. eapply (others_untouched A L n IN LAB old M t h Ontop u); eauto.
  - exists (put_susp (put_cpu M t u) me (handle A c) c). split; [apply put_switched|].
    split; [intros x a N; cbn; rewrite fc_eqb_ne by exact N; reflexivity|].
    eapply (x_switch A L n old M t from me h k); eauto. rewrite K. exact SW.
Qed.

(** Creation: make_fcontext on the new stack returns and changes no other stack (but may use the space
    below the stack pointer of its caller); a jump to its result enters the given function with the
    caller's fcontext_t and the data pointer, with an aligned stack pointer inside the new stack, and
    changes no other stack (but the space that the suspended call owns). *)
Theorem C52_create A L n s new t from me to old M :
  In A ports -> labels_ok A L -> reachable n s -> s_tr s = new ++ EvSwitch t from me to SwCreate :: old ->
  exec A L n old M ->
  let c0 := cpu_at M t in let d := fc_ctx to in
  make_ok A c0 -> m_lo M from <= sp A c0 - c_mkscr (p_code A) -> sp A c0 + ab_up (p_abi A) <= m_hi M from ->
  m_lo M d <= mk_top A c0 - c_need (p_code A) -> mk_top A c0 <= m_hi M d ->
  exists c1, let h := rg c1 (ab_mkres (p_abi A)) in
    run (cpu_of A) L (c_make (p_code A)) c0 = Goto (ret_addr A c0) c1 /\
    m_lo M d <= h /\ h + c_size (p_code A) <= m_hi M d /\
    (forall e a, has_stack n old e -> e <> d -> m_lo M e <= a < m_hi M e ->
       ~ (sp A c0 - c_mkscr (p_code A) <= a < sp A c0) -> mm c1 a = m_mem M a) /\
    forall c, wf (cpu_of A) c ->
      (forall x a, suspended old x -> owned A M x a -> mm c a = mm c1 a) ->
      (forall a, h <= a < h + c_size (p_code A) -> mm c a = mm c1 a) ->
      call_ok A L c -> arg_to A c = h -> on_stack A c (m_lo M from) (m_hi M from) ->
      exists u,
        switch A L Jump c = Goto (mk_fn A c0) u /\
        pair_at A u (ab_ent (p_abi A)) = (handle A c, arg_data A c) /\
        ret_addr A u = L "finish"%string /\
        (sp A u + ab_bias (p_abi A)) mod ab_align (p_abi A) = 0 /\
        m_lo M d <= sp A u <= m_hi M d /\
        (forall e a, has_stack n old e -> e <> d -> m_lo M e <= a < m_hi M e ->
           ~ (handle A c <= a < sp A c + ab_wr (p_abi A)) -> mm u a = mm c a) /\
        (exists M', switched A M t me c u M' /\ (forall x a, x <> me -> m_wr M' x a <-> m_wr M x a \/ mm c a <> mm c1 a) /\
           exec A L n (EvSwitch t from me to SwCreate :: old) M').
Proof.
  intros IN LAB R E X c0 d MS O1 O2 T1 T2. pose proof (port_checked A IN) as CHK.
  assert (G1 : good n (EvSwitch t from me to SwCreate :: old)) by (apply (good_app n new); rewrite <- E; apply good_reach; exact R).
  pose proof (good_tl _ _ _ G1) as G. pose proof (exec_minv A L n IN LAB _ _ X G) as V.
  destruct (good_hd _ _ _ G1) as ((M1 & M2 & M3 & M4 & M5) & ((Ht & RT & NT) & _) & (_ & NF & _) & AL). cbn in AL.
  assert (HD : has_stack n old d).
  { split; [right; exact AL|]. intros Y. apply (NF _ Y). cbn. auto. }
  assert (HF : has_stack n old from) by (rewrite <- RT; apply has_run; auto).
  assert (DF : d <> from) by (intros Q; apply (NT t Ht); rewrite RT; auto).
  destruct (v_bnd _ _ _ _ _ V _ HD) as (D0 & D1).
  destruct (C27_make_returns A L c0 IN LAB MS) as (c1 & RM & _ & _ & (_ & H1 & H2 & MF) & W1).
  exists c1. intros h. split; [exact RM|]. split; [unfold h; lia|]. split; [unfold h; lia|]. split.
  { intros e a HE ND Ha Hs. apply MF; [exact Hs|].
    pose proof (v_dis _ _ _ _ _ V _ _ HE HD ND) as DE. unfold sdisj in DE. lia. }
  intros c W U U' CS AT OS.
  assert (I0 := conf_inv A L n _ _ _ [] V G Ht (NoDup_nil _) ltac:(intros ? [])). rewrite RT in I0. fold c0 in I0. cbn [map] in I0.
  assert (I1 := inv_make A L LAB CHK _ (m_lo M d) (m_hi M d) _ c1 I0 MS O1 O2 ltac:(split; [lia|exact T1]) T2 D1
    (v_dis _ _ _ _ _ V _ _ HD HF DF) ltac:(intros ? []) RM). cbn [now n_lo n_hi others] in I1.
  assert (I2 := inv_user A L _ c I1 W ltac:(intros x a [<-|[]]; cbn [x_h x_o flen]; intros Ha; apply U'; exact Ha)). cbn [now n_lo n_hi others map] in I2.
  pose proof (inv_apart A L _ _ I2 (or_introl eq_refl) OS CS) as AP.
  destruct I2 as (_ & _ & _ & (PW & _) & XI). pose proof (XI _ (or_introl eq_refl)) as (CX & _ & _ & XB). cbn [soil x_lo x_hi x_h x_o x_w now] in *.
  fold h in CX, AP, XB. rewrite <- AT in CX, AP, XB.
  destruct (C27_first_jump_enters_function A L c0 c IN LAB CS CX AP) as (u & SW & ARG & FIN & ALI & SPU & _ & _ & UU & _).
  exists u. split; [exact SW|]. split; [exact ARG|]. split; [exact FIN|]. split; [exact ALI|]. split; [lia|]. split.
  - intros e a HE N1 Ha Hf.
    assert (DE : sdisj (m_lo M e) (m_hi M e) (m_lo M d) (m_hi M d)) by (apply (v_dis _ _ _ _ _ V); auto).
    unfold sdisj in DE. apply UU; [exact Hf|]. lia.
  - exists (put_susp (put_cpu (soiled M c1 c) t u) me (handle A c) c). split; [exact (put_switched A (soiled M c1 c) t me c u)|].
    split; [intros x a N; cbn; rewrite fc_eqb_ne by exact N; reflexivity|].
    eapply (x_create A L n old M t from me to); eauto.
Qed.

(** The numbers that operator bool and operator< see (C16): the values of the fcontext_t of all
    suspended contexts are not null and lie in disjoint ranges. *)
Lemma frame_pos : forallb (fun A => 0 <? own_len A) ports = true.
Proof. vm_compute. reflexivity. Qed.

Theorem C52_handle_values A L n s M :
  In A ports -> labels_ok A L -> reachable n s -> exec A L n (s_tr s) M ->
  placed s (fun h => Z.to_nat (m_at M h)).
Proof.
  intros IN LAB R X. pose proof (good_reach _ _ R) as G. pose proof (exec_minv A L n IN LAB _ _ X G) as V.
  assert (FP : 0 < own_len A).
  { pose proof frame_pos as FP. rewrite forallb_forall in FP. apply Z.ltb_lt. apply FP. exact IN. }
  set (ex := fun c => orb (Nat.ltb c n) (existsb (fun e => match e with EvAlloc c' _ => Nat.eqb c' c | _ => false end) (s_tr s))).
  assert (EX : forall c, ex c = true <-> is_ctx n (s_tr s) c).
  { intros c. unfold ex, is_ctx. rewrite orb_true_iff, Nat.ltb_lt, existsb_exists. split; intros [H|H]; auto; right.
    - destruct H as (e & H & Q). destruct e; try discriminate. apply Nat.eqb_eq in Q. subst. eauto.
    - destruct H as (a & H). exists (EvAlloc c a). split; [exact H|apply Nat.eqb_refl]. }
  exists (fun c => if ex c then Z.to_nat (m_lo M c) else 0%nat), (fun c => if ex c then Z.to_nat (m_hi M c) else 0%nat).
  split.
  - intros h H. destruct (C52_suspension A L n s [] (s_tr s) M h IN LAB R eq_refl X H) as (_ & _ & _ & H1 & H2 & _).
    rewrite (proj2 (EX _) (proj1 (has_susp n _ _ G H))). lia.
  - intros c d N F1 F2. destruct (ex c) eqn:E1; [|left; lia]. destruct (ex d) eqn:E2; [|right; lia].
    apply EX in E1, E2. pose proof (v_dis _ _ _ _ _ V c d (conj E1 F1) (conj E2 F2) N) as D.
    unfold sdisj in D. lia.
Qed.

(** ** On every port there is such a machine: a thread creates a fiber, the fiber comes back, and the
    thread is about to call resume_with *)
Definition lk_ops : list (nat * label) := [(0%nat, LUser (UCreate 0 [] true)); (0%nat, LTau); (0%nat, LUser (UResumeWith 0 9))].
Definition lk_s : state := Eval vm_compute in match Fiber.run (init 1) lk_ops with Next s => s | _ => init 0 end.
Lemma lk_reach : reachable 1 lk_s.
Proof. exists lk_ops. vm_compute. reflexivity. Qed.

Section Example_.
  Variable A : port.
  Definition args3 : list (place * Z) :=
    [(ab_ret (p_abi A), 0x77a); (ab_to (p_abi A), wsp2 A - c_frame (p_code A)); (ab_data (p_abi A), 0xdcdc); (ab_fn (p_abi A), 0x4321)] ++
    match ab_hidden (p_abi A) with Some p => [(p, 0x9100)] | None => [] end.
  Definition mem3 : Z -> Z :=
    fold_right (fun x m => let '(a, n, v) := x in store (cbig (cpu_of A)) m a n v) (fun _ => 7)
      (flat_map (fun x => pmem (fst x) (wsp1 A) (snd x)) args3).
  Definition w3 : mst :=
    St (wreg A (wsp1 A) args3 []) (fun a => if (0x8000 <=? a) && (a <? 0xa000) then mem3 a else mm (v2 A [] [] []) a).
  Definition wit3 : bool :=
    call_okb A w3 && on_stackb A w3 0x8000 0xa000 &&
    (arg_to A w3 =? handle A (w2 A [] [] [])) && (0xa000 <=? space (cpu_of A)) &&
    (0x8000 <=? sp A (w0 A []) - c_mkscr (p_code A)) && (sp A (w0 A []) + ab_up (p_abi A) <=? 0xa000) &&
    (mk_top A (w0 A []) =? 0x6000) && (0x4000 <=? 0x6000 - c_need (p_code A)) &&
    (rg (v0 A []) (ab_mkres (p_abi A)) =? arg_to A (w1 A [] [])).

  (** thread 0 has the stack [0x8000, 0xa000), the fiber will get [0x4000, 0x6000) *)
  Definition lk_M0 : mach :=
    Mach (mm (w0 A [])) (fun _ => rg (w0 A [])) (fun _ => 0x8000) (fun _ => 0xa000) (fun _ => 0) (fun _ => w0 A []) (fun _ => clean).
  Definition lk_M1 : mach := put_stack lk_M0 1 0x4000 0x6000.
  Definition lk_M2 : mach := put_code (put_susp (put_cpu (soiled lk_M1 (v0 A []) (w1 A [] [])) 0 (v1 A [] [])) (mk_fc 0 1) (handle A (w1 A [] [])) (w1 A [] [])) 0 (w2 A [] [] []).
  Definition lk_M3 : mach := put_code (put_susp (put_cpu lk_M2 0 (v2 A [] [] [])) (mk_fc 1 1) (handle A (w2 A [] [] [])) (w2 A [] [] [])) 0 w3.
End Example_.

Lemma wit3_ports : forallb wit3 ports = true.
Proof. vm_compute. reflexivity. Qed.

(** the histories before the three switches *)
Definition lk_t1 : list event := [EvAlloc 1 0].
Definition lk_t2 : list event := EvSwitch 0 0 (mk_fc 0 1) (mk_fc 1 0) SwCreate :: lk_t1.
Definition lk_t3 : list event := EvCtor (OnCtx 0) (OFib 0) :: EvResumed 0 (Some (mk_fc 1 1)) :: EvSwitch 0 1 (mk_fc 1 1) (mk_fc 0 1) SwJump :: lk_t2.

Example C52_hypotheses_met A : In A ports -> exists new1 new2 new3,
  labels_ok A wL /\ reachable 1 lk_s /\
  (* C52_create *)
  (s_tr lk_s = new1 ++ EvSwitch 0 0 (mk_fc 0 1) (mk_fc 1 0) SwCreate :: lk_t1 /\ exec A wL 1 lk_t1 (lk_M1 A) /\
   make_ok A (w0 A []) /\ 0x8000 <= sp A (w0 A []) - c_mkscr (p_code A) /\ sp A (w0 A []) + ab_up (p_abi A) <= 0xa000 /\
   0x4000 <= mk_top A (w0 A []) - c_need (p_code A) /\ mk_top A (w0 A []) <= 0x6000) /\
  (* C52_resume *)
  (s_tr lk_s = new2 ++ EvSwitch 0 1 (mk_fc 1 1) (mk_fc 0 1) SwJump :: lk_t2 /\ exec A wL 1 lk_t2 (lk_M2 A) /\
   call_ok A wL (w2 A [] [] []) /\ arg_to A (w2 A [] [] []) = m_at (lk_M2 A) (mk_fc 0 1) /\ on_stack A (w2 A [] [] []) 0x4000 0x6000) /\
  (* C52_inject *)
  (s_tr lk_s = new3 ++ EvSwitch 0 0 (mk_fc 0 2) (mk_fc 1 1) (SwOntop 9) :: lk_t3 /\ exec A wL 1 lk_t3 (lk_M3 A) /\
   call_ok A wL (w3 A) /\ arg_to A (w3 A) = m_at (lk_M3 A) (mk_fc 1 1) /\ on_stack A (w3 A) 0x8000 0xa000).
Proof.
  intros IN. pose proof wit_ports as WP. rewrite forallb_forall in WP. specialize (WP A IN).
  pose proof wit3_ports as W3. rewrite forallb_forall in W3. specialize (W3 A IN).
  destruct (witness A [] [] [] WP IN) as (LAB & MK & (_ & CS1 & OS1 & _ & _) & _ & CS2 & OS2 & AT2 & _ & _).
  unfold wit3 in W3. do 8 (let X := fresh "X" in apply andb_true_iff in W3 as [W3 X]).
  rewrite ?Z.leb_le, ?Z.eqb_eq in *.
  assert (R1 : exists new, s_tr lk_s = new ++ EvSwitch 0 0 (mk_fc 0 1) (mk_fc 1 0) SwCreate :: lk_t1) by (exists (firstn 6 (s_tr lk_s)); reflexivity).
  assert (R2 : exists new, s_tr lk_s = new ++ EvSwitch 0 1 (mk_fc 1 1) (mk_fc 0 1) SwJump :: lk_t2) by (exists (firstn 5 (s_tr lk_s)); reflexivity).
  assert (R3 : exists new, s_tr lk_s = new ++ EvSwitch 0 0 (mk_fc 0 2) (mk_fc 1 1) (SwOntop 9) :: lk_t3) by (exists (firstn 2 (s_tr lk_s)); reflexivity).
  destruct R1 as (new1 & R1), R2 as (new2 & R2), R3 as (new3 & R3). exists new1, new2, new3.
  pose proof lk_reach as RE. pose proof MK as (W0 & _).
  assert (E1 : exec A wL 1 lk_t1 (lk_M1 A)).
  { apply x_alloc; [|lia|unfold cpu_of in *; lia|].
    - apply x_start; cbn [lk_M0 cpu_at m_reg m_mem m_lo m_hi].
      + intros t. destruct W0. split; assumption.
      + intros c _. unfold cpu_of in *. lia.
      + intros c d H1 H2 N. exfalso. lia.
    - intros d _. unfold sdisj. cbn [lk_M0 m_lo m_hi]. lia. }
  destruct (C52_create A wL 1 lk_s new1 0 0 (mk_fc 0 1) (mk_fc 1 0) lk_t1 (lk_M1 A) IN LAB RE R1 E1) as (c1 & RM & _ & _ & _ & JU).
  { exact MK. }
  { exact X3. }
  { exact X2. }
  { change (0x4000 <= mk_top A (w0 A []) - c_need (p_code A)). rewrite X1. exact X0. }
  { change (mk_top A (w0 A []) <= 0x6000). rewrite X1. lia. }
  assert (EV : c1 = v0 A []).
  { unfold v0. change (ab_cpu (p_abi A)) with (cpu_of A). change (cpu_at (lk_M1 A) 0) with (St (rg (w0 A [])) (mm (w0 A []))) in RM.
    assert (Eta : St (rg (w0 A [])) (mm (w0 A [])) = w0 A []) by (destruct (w0 A []); reflexivity). rewrite Eta in RM. rewrite RM. reflexivity. }
  subst c1.
  destruct (JU (w1 A [] [])) as (u1 & SW1 & _).
  { apply CS1. }
  { reflexivity. }
  { reflexivity. }
  { exact CS1. }
  { symmetry. exact X. }
  { exact OS1. }
  assert (EU : u1 = v1 A [] []) by (unfold v1; rewrite SW1; reflexivity). subst u1.
  assert (X1E : exec A wL 1 lk_t2 (put_susp (put_cpu (soiled (lk_M1 A) (v0 A []) (w1 A [] [])) 0 (v1 A [] [])) (mk_fc 0 1) (handle A (w1 A [] [])) (w1 A [] []))).
  { eapply (x_create A wL 1 lk_t1 (lk_M1 A) 0 0 (mk_fc 0 1) (mk_fc 1 0) _ (v0 A []) (w1 A [] [])); try exact RM; try exact SW1; auto; try (apply CS1).
    - change (0x4000 <= mk_top A (w0 A []) - c_need (p_code A)). rewrite X1. exact X0.
    - change (mk_top A (w0 A []) <= 0x6000). rewrite X1. lia. }
  assert (E2 : exec A wL 1 lk_t2 (lk_M2 A)).
  { unfold lk_M2. apply x_code; [exact X1E|lia|apply CS2|]. intros c a _ _. reflexivity. }
  assert (EQ2 : cpu_at (lk_M2 A) 0 = w2 A [] [] []) by reflexivity.
  assert (AT2' : arg_to A (w2 A [] [] []) = m_at (lk_M2 A) (mk_fc 0 1)) by exact AT2.
  destruct (C52_resume A wL 1 lk_s new2 0 1 (mk_fc 1 1) (mk_fc 0 1) lk_t2 (lk_M2 A) IN LAB RE R2 E2) as (u2 & (SW2 & _) & _).
  { rewrite EQ2. exact CS2. }
  { rewrite EQ2. exact AT2'. }
  { rewrite EQ2. exact OS2. }
  rewrite EQ2 in SW2.
  assert (EU : u2 = v2 A [] [] []) by (unfold v2; rewrite SW2; reflexivity). subst u2.
  assert (X2E : exec A wL 1 (EvSwitch 0 1 (mk_fc 1 1) (mk_fc 0 1) SwJump :: lk_t2)
            (put_susp (put_cpu (lk_M2 A) 0 (v2 A [] [] [])) (mk_fc 1 1) (handle A (w2 A [] [] [])) (w2 A [] [] []))).
  { eapply (x_switch A wL 1 lk_t2 (lk_M2 A) 0 1 (mk_fc 1 1) (mk_fc 0 1) SwJump); try rewrite EQ2; eauto. discriminate. }
  assert (Wv2 : wf (cpu_of A) (v2 A [] [] [])).
  { assert (GG : good 1 (EvSwitch 0 1 (mk_fc 1 1) (mk_fc 0 1) SwJump :: lk_t2)) by (apply (good_app 1 new2); rewrite <- R2; apply good_reach; exact RE).
    pose proof (minv_wf _ _ _ _ _ 0%nat (exec_minv A wL 1 IN LAB _ _ X2E GG)) as WW. destruct WW. split; assumption. }
  assert (W3' : wf (cpu_of A) (w3 A)).
  { split; [|apply (wreg_ok A [] [] [] WP)]. intros a. cbn [w3 mm]. destruct (_ && _); [|apply Wv2].
    unfold mem3. generalize a. clear a. induction (flat_map _ _) as [|[[b k] v] l IH]; intros a; simpl; [lia|]. apply store_byte. exact IH. }
  assert (E3 : exec A wL 1 lk_t3 (lk_M3 A)).
  { unfold lk_M3, lk_t3. apply x_code; [|lia|exact W3'|].
    - apply x_event; [|exact Logic.I]. apply x_event; [|exact Logic.I]. exact X2E.
    - intros h a Hh. unfold owned.
      apply susp_quiet in Hh; [|reflexivity]. apply susp_quiet in Hh; [|reflexivity].
      apply susp_switch in Hh as (Hh & NC & NT). destruct Hh as [[-> _]|Hh].
      + cbn [put_susp put_cpu m_at m_mem fc_eqb fc_ctx fc_ver Nat.eqb andb]. intros Ha.
        destruct OS2 as (P1 & P2 & _). unfold own_len, handle in *. cbn [w3 mm].
        destruct (Z.leb_spec 0x8000 a); [exfalso; lia|reflexivity].
      + exfalso. assert (Hs : suspended lk_t2 h) by (split; assumption). apply susp_switch in Hs as (Hs & _ & _).
        destruct Hs as [[-> _]|Hs]; [contradiction|]. destruct Hs as (? & ? & ? & ? & [Q|[]] & _). discriminate. }
  split; [exact LAB|]. split; [exact RE|]. split; [|split].
  - split; [exact R1|]. split; [exact E1|]. split; [exact MK|]. split; [exact X3|]. split; [exact X2|]. rewrite X1. split; [exact X0|lia].
  - auto.
  - split; [exact R3|]. split; [exact E3|]. split; [apply call_okb_ok; [exact W3'|exact W3]|]. split; [exact X5|]. apply on_stackb_ok. exact X6.
Qed.
