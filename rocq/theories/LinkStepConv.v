(** * C55, the other direction: executing each routine at once is one way of interleaving *)
From Coq Require Import ZArith List String Lia Bool.
From Verif Require Import ListUtil Fiber FiberSpec LinkHist LinkShuffle.
From Verif Require Import Word AsmMachine AsmSym AsmAbi AsmCheck AsmCode AsmCode2 AsmFacts AsmHist P_Asm AsmIl Link P_Link.
From Verif Require Import LinkStep LinkStepInv LinkStepInv2 LinkStepInv3 P_LinkStep.
Import ListNotations.
Open Scope list_scope.
Open Scope Z_scope.

(** the two machines are in the same state *)
Definition mach_eq (M M' : mach) : Prop :=
  m_mem M = m_mem M' /\ (forall t, m_reg M t = m_reg M' t) /\ m_lo M = m_lo M' /\ m_hi M = m_hi M' /\ m_at M = m_at M' /\ m_st M = m_st M'.

Lemma mach_eq_refl M : mach_eq M M.
Proof. repeat split. Qed.
Lemma mach_eq_trans a b c : mach_eq a b -> mach_eq b c -> mach_eq a c.
Proof.
  intros (H1 & H2 & H3 & H4 & H5 & H6) (K1 & K2 & K3 & K4 & K5 & K6). unfold mach_eq.
  rewrite H1, H3, H4, H5, H6. split; [exact K1|]. split; [intros t; rewrite H2; apply K2|auto].
Qed.
Lemma mach_eq_cpu M M' t : mach_eq M M' -> cpu_at M t = cpu_at M' t.
Proof. intros (H1 & H2 & _). unfold cpu_at. rewrite H1, H2. reflexivity. Qed.
Lemma eta s : St (rg s) (mm s) = s.
Proof. destruct s; reflexivity. Qed.
Lemma put_cpu_at M t s : cpu_at (put_cpu M t s) t = s.
Proof. unfold cpu_at. cbn. rewrite Nat.eqb_refl. apply eta. Qed.
Lemma put_cpu_eq M M' t s : mach_eq M M' -> mach_eq (put_cpu M t s) (put_cpu M' t s).
Proof.
  intros (H1 & H2 & H3 & H4 & H5 & H6). unfold mach_eq. cbn. split; [reflexivity|]. split; [|auto].
  intros t'. destruct (Nat.eqb t' t); auto.
Qed.
Lemma put_twice M t s s' : mach_eq (put_cpu (put_cpu M t s) t s') (put_cpu M t s').
Proof.
  unfold mach_eq. cbn. split; [reflexivity|]. split; [|auto]. intros t'. destruct (Nat.eqb t' t); reflexivity.
Qed.
Lemma put_same M t : mach_eq (put_cpu M t (cpu_at M t)) M.
Proof.
  unfold mach_eq. cbn. split; [reflexivity|]. split; [|auto]. intros t'. destruct (Nat.eqb_spec t' t) as [->|]; reflexivity.
Qed.

Section Conv.
  Variable A : port.
  Variable L : string -> Z.
  Variable n : nat.
  Hypothesis IN : In A ports.
  Hypothesis LAB : labels_ok A L.
  Local Notation B := (p_abi A).
  Local Notation C := (p_code A).
  Local Notation P := (ab_cpu (p_abi A)).
  Local Notation exec := (exec A L n).
  Local Notation fexec := (fexec A L n).

  (** the thread executes what is left of its routine while the others wait *)
  Lemma run_out1 tr : forall rest F t r b c pc u, (t < n)%nat -> fexec tr F -> f_ph F t = Inside r rest b c ->
    run P L rest (cpu_at (f_m F) t) = Goto pc u ->
    exists F' x rest', fexec tr F' /\ f_ph F' t = Inside r (Go x :: rest') b c /\ m_reg (f_m F') t x = pc /\
      mach_eq (f_m F') (put_cpu (f_m F) t u) /\ forall t', t' <> t -> f_ph F' t' = f_ph F t'.
  Proof.
    induction rest as [|i rest IH]; intros F t r b c pc u Ht X FR RU; [discriminate|].
    assert (Z : (match step1 P L i (cpu_at (f_m F) t) with Some v => run P L rest v | None => Stuck end) = Goto pc u ->
      exists F' x rest', fexec tr F' /\ f_ph F' t = Inside r (Go x :: rest') b c /\ m_reg (f_m F') t x = pc /\
      mach_eq (f_m F') (put_cpu (f_m F) t u) /\ forall t', t' <> t -> f_ph F' t' = f_ph F t').
    { destruct (step1 P L i (cpu_at (f_m F) t)) as [v|] eqn:ST; [|discriminate]. intros RV.
      pose proof (i_step A L n tr F t r i rest b c v X Ht FR ST) as X1.
      destruct (IH _ t r b c pc u Ht X1) as (F' & x & rest' & X' & FR' & PC & ME & OT).
      - rewrite set_ph_eq. reflexivity.
      - cbn [set_ph f_m]. rewrite put_cpu_at. exact RV.
      - exists F', x, rest'. split; [exact X'|]. split; [exact FR'|]. split; [exact PC|]. split.
        + eapply mach_eq_trans; [exact ME|]. cbn [set_ph f_m]. apply put_twice.
        + intros t' NE. rewrite OT by exact NE. apply set_ph_ne. exact NE. }
    destruct i; cbn [run] in RU; try (apply Z; exact RU); try discriminate RU.
    injection RU as <- <-. exists F, r0, rest. split; [exact X|]. split; [exact FR|]. split; [reflexivity|]. split; [|auto].
    unfold mach_eq. cbn. split; [reflexivity|]. split; [|auto]. intros t'. destruct (Nat.eqb_spec t' t) as [->|]; reflexivity.
  Qed.

  Lemma run_out tr rest F t r b c pc u : (t < n)%nat -> fexec tr F -> f_ph F t = Inside r rest b c ->
    rest_run A L rest b (cpu_at (f_m F) t) = Goto pc u ->
    exists F', fexec tr F' /\ leaving A L F' t r c pc /\
      mach_eq (f_m F') (put_cpu (f_m F) t u) /\ forall t', t' <> t -> f_ph F' t' = f_ph F t'.
  Proof.
    intros Ht X FR RU. unfold rest_run in RU. destruct (run P L rest (cpu_at (f_m F) t)) as [pc1 u1| |] eqn:R1; try discriminate.
    destruct (run_out1 tr rest F t r b c pc1 u1 Ht X FR R1) as (F1 & x & rest1 & X1 & FR1 & PC1 & ME1 & OT1).
    destruct (goes_on A L b pc1) eqn:GO.
    - pose proof (i_tramp A L n tr F1 t r x rest1 b c X1 Ht FR1 ltac:(rewrite PC1; exact GO)) as X2.
      destruct (run_out1 tr (c_tramp C) (set_ph F1 (f_m F1) t (Inside r (c_tramp C) false c)) t r false c pc u Ht X2) as (F3 & y & rest3 & X3 & FR3 & PC3 & ME3 & OT3).
      + rewrite set_ph_eq. reflexivity.
      + cbn [set_ph f_m]. rewrite (mach_eq_cpu _ _ t ME1), put_cpu_at. exact RU.
      + exists F3. split; [exact X3|]. split; [|split].
        * exists y, rest3, false. rewrite PC3. auto.
        * eapply mach_eq_trans; [exact ME3|]. cbn [set_ph f_m]. eapply mach_eq_trans; [apply put_cpu_eq; exact ME1|]. apply put_twice.
        * intros t' NE. rewrite OT3 by exact NE. rewrite set_ph_ne by exact NE. auto.
    - injection RU as <- <-. exists F1. split; [exact X1|]. split; [|auto]. exists x, rest1, b. rewrite PC1. auto.
  Qed.

  (** every routine that a thread is inside of can be brought to its end by that thread alone *)
  Lemma ends tr F t r rest b c : good n tr -> fexec tr F -> f_ph F t = Inside r rest b c ->
    exists F' pc, fexec tr F' /\ leaving A L F' t r c pc /\
      (forall t', t' <> t -> f_ph F' t' = f_ph F t' /\ m_reg (f_m F') t' = m_reg (f_m F) t') /\
      m_lo (f_m F') = m_lo (f_m F) /\ m_hi (f_m F') = m_hi (f_m F) /\ m_at (f_m F') = m_at (f_m F) /\ m_st (f_m F') = m_st (f_m F) /\
      (forall a, ~ foot A (f_m F) (f_ph F t) a -> m_mem (f_m F') a = m_mem (f_m F) a).
  Proof.
    intros G X FR. destruct (sim_rel A L n IN LAB tr F X G) as (N & XN & R).
    assert (Ht : (t < n)%nat) by (apply (inside_lt A L n tr F N t R); rewrite FR; exact Logic.I).
    pose proof (l_ph _ _ _ _ _ _ R t Ht) as PH. rewrite FR in PH. cbn [ph_ok] in PH.
    destruct PH as (_ & _ & _ & _ & _ & pc & uf & u & _ & RU & AC & AG & _).
    pose proof (rest_agree A L _ _ _ _ _ AC AG) as RA. rewrite RU in RA. destruct RA as (t' & RT & _ & _ & UN).
    destruct (run_out tr rest F t r b c pc t' Ht X FR RT) as (F' & X' & LV & (E1 & E2 & E3 & E4 & E5 & E6) & OT).
    exists F', pc. split; [exact X'|]. split; [exact LV|]. split.
    - intros q NE. split; [apply OT; exact NE|]. rewrite E2. cbn. destruct (Nat.eqb_spec q t); [contradiction|reflexivity].
    - cbn in E3, E4, E5, E6. do 4 (split; [assumption|]). intros a Ha. rewrite E1. cbn. rewrite FR in Ha. apply (UN a Ha).
  Qed.

  Lemma conv tr M : exec tr M -> good n tr -> exists F, fexec tr F /\ all_free F /\ mach_eq (f_m F) M.
  Proof.
    induction 1 as [M W Bd D|tr M t s X IH Ht W U|tr M e X IH Q|tr M c a lo hi X IH B0 B1 D
                   |tr M t from me to pc s0 s pc' t' X IH Ht s00 d MS O1 O2 T1 T2 R W U U' CS AT OS SW
                   |tr M t from me to k pc t' X IH Ht K s CS AT OS SW]; intros G.
    - exists (Fine M (fun _ => Free)). split; [apply i_start; auto|]. split; [intros t; reflexivity|apply mach_eq_refl].
    - destruct (IH G) as (F & XF & AF & ME). pose proof ME as (E1 & E2 & E3 & E4 & E5 & E6).
      exists (Fine (put_cpu (f_m F) t s) (f_ph F)). split; [|split; [exact AF|]].
      + apply i_code; auto.
        * rewrite AF. auto.
        * intros h a S O. rewrite E1. apply (U h a S). unfold owned in *. rewrite <- E5. exact O.
        * intros t' a Q. rewrite AF in Q. destruct Q.
      + cbn [f_m]. eapply mach_eq_trans; [apply put_cpu_eq; exact ME|]. repeat split.
    - destruct (IH (good_tl _ _ _ G)) as (F & XF & AF & ME). exists F. split; [apply i_event; auto|auto].
    - destruct (IH (good_tl _ _ _ G)) as (F & XF & AF & ME). pose proof ME as (E1 & E2 & E3 & E4 & E5 & E6).
      exists (Fine (put_stack (f_m F) c lo hi) (f_ph F)). split; [|split; [exact AF|]].
      + apply i_alloc; auto. intros x Hx. rewrite E3, E4. auto.
      + unfold mach_eq. cbn. rewrite E1, E3, E4, E5, E6. auto 10.
    - pose proof (good_tl _ _ _ G) as G'. destruct (IH G') as (F & XF & AF & ME). pose proof ME as (E1 & E2 & E3 & E4 & E5 & E6).
      destruct (good_hd _ _ _ G) as ((M1 & M2 & M3 & M4 & M5) & ((_ & RT & NT) & _) & (_ & NF & _) & AL). cbn in AL.
      assert (UT : untried tr d) by (split; [exact AL|]; intros e I1 I2 I3; apply (M5 e d I1 I2 I3); reflexivity).
      assert (CE : cpu_at (f_m F) t = s00) by (apply mach_eq_cpu; exact ME).
      (* make *)
      pose proof (i_make A L n tr F t d XF Ht (AF t)) as X1. cbv zeta in X1. rewrite CE, RT, E3, E4 in X1.
      specialize (X1 UT ltac:(intros q _; rewrite AF; discriminate) MS O1 O2 T1 T2). cbn [rcode rtramp] in X1.
      destruct (run_out tr (c_make C) (set_ph F (f_m F) t (Inside (RMake d) (c_make C) false s00)) t (RMake d) false s00 pc s0 Ht X1) as (F2 & X2 & (x & rest & b & FR2 & _) & ME2 & OT2).
      { rewrite set_ph_eq. reflexivity. }
      { cbn [set_ph f_m]. rewrite CE. unfold rest_run. rewrite R. reflexivity. }
      pose proof (i_made A L n tr F2 t d x rest b s00 X2 Ht FR2) as X3. set (h := m_reg (f_m F2) t (ab_mkres B)) in *.
      cbn [set_ph f_m] in ME2.
      assert (HE : h = rg s0 (ab_mkres B)).
      { unfold h. destruct ME2 as (_ & ME2 & _). rewrite ME2. cbn. rewrite Nat.eqb_refl. reflexivity. }
      assert (MM : m_mem (f_m F2) = mm s0) by (destruct ME2 as (ME2 & _); exact ME2).
      pose proof ME2 as (_ & RR2 & L2 & H2 & A2 & S2). cbn in L2, H2, A2, S2.
      assert (PH2 : forall q, q <> t -> f_ph F2 q = Free) by (intros q NE; rewrite OT2 by exact NE; rewrite set_ph_ne by exact NE; apply AF).
      set (F3 := set_ph F2 (f_m F2) t (Between d h s00)) in *.
      (* the code in between *)
      assert (X4 : fexec tr (Fine (put_cpu (f_m F3) t s) (f_ph F3))).
      { apply i_code; auto.
        - unfold F3. rewrite set_ph_eq. auto.
        - intros g a S O. change (f_m F3) with (f_m F2). rewrite MM. apply (U g a S). unfold owned in *. change (f_m F3) with (f_m F2) in O. rewrite A2, E5 in O. exact O.
        - intros q a Q. change (f_m F3) with (f_m F2). rewrite MM. destruct (Nat.eq_dec q t) as [-> |NE].
          + unfold F3 in Q. rewrite set_ph_eq in Q. cbn [foot] in Q. rewrite HE in Q. apply U'. exact Q.
          + unfold F3 in Q. rewrite set_ph_ne in Q by exact NE. rewrite PH2 in Q by exact NE. destruct Q. }
      set (F4 := Fine (put_cpu (f_m F3) t s) (f_ph F3)) in *.
      assert (C4 : cpu_at (f_m F4) t = s) by apply put_cpu_at.
      assert (L4 : m_lo (f_m F4) = m_lo M) by (cbn; congruence). assert (H4 : m_hi (f_m F4) = m_hi M) by (cbn; congruence).
      pose proof (i_first A L n tr F4 t me to h s00 X4 Ht) as X5. cbv zeta in X5. rewrite C4, RT, L4, H4 in X5.
      specialize (X5 ltac:(cbn [F4 f_ph]; unfold F3; rewrite set_ph_eq; reflexivity) CS ltac:(rewrite HE; exact AT) OS).
      change (rcode A (RFirst me to s00)) with (code_of A Jump) in X5. change (rtramp (RFirst me to s00)) with (tramp_of Jump) in X5.
      destruct (run_out tr (code_of A Jump) (set_ph F4 (f_m F4) t (Inside (RFirst me to s00) (code_of A Jump) (tramp_of Jump) s)) t (RFirst me to s00) (tramp_of Jump) s pc' t' Ht X5)
        as (F6 & X6 & (y & rest6 & b6 & FR6 & GO6 & PC6) & ME6 & OT6).
      { rewrite set_ph_eq. reflexivity. }
      { cbn [set_ph f_m]. rewrite C4, <- switch_rest. exact SW. }
      pose proof (i_done A L n tr F6 t _ me to SwCreate s00 y rest6 b6 s X6 Ht FR6 GO6 (or_introl (conj eq_refl eq_refl))) as X7.
      rewrite RT in X7. eexists. split; [exact X7|]. split.
      + intros q. destruct (Nat.eq_dec q t) as [-> |NE]; [apply set_ph_eq|]. rewrite set_ph_ne by exact NE. rewrite OT6 by exact NE.
        rewrite set_ph_ne by exact NE. cbn [F4 f_ph]. unfold F3. rewrite set_ph_ne by exact NE. auto.
      + cbn [set_ph f_m] in ME6 |- *. destruct ME6 as (Z1 & Z2 & Z3 & Z4 & Z5 & Z6). cbn in Z1, Z2, Z3, Z4, Z5, Z6.
        unfold mach_eq. cbn. rewrite Z1, Z3, Z4, Z5, Z6, L2, H2, A2, S2, E3, E4, E5, E6. split; [reflexivity|]. split; [|auto].
        intros q. rewrite Z2. destruct (Nat.eqb_spec q t); [reflexivity|]. rewrite RR2. cbn. destruct (Nat.eqb_spec q t); [contradiction|]. apply E2.
    - pose proof (good_tl _ _ _ G) as G'. destruct (IH G') as (F & XF & AF & ME). pose proof ME as (E1 & E2 & E3 & E4 & E5 & E6).
      destruct (next_switch n _ _ _ _ _ _ G K) as (ST & M1 & _ & RT).
      assert (CE : cpu_at (f_m F) t = s) by (apply mach_eq_cpu; exact ME).
      assert (HO : how_of k = Ontop -> has_ontop A).
      { intros HK Q. rewrite HK in SW. unfold switch in SW. rewrite Q in SW. discriminate. }
      pose proof (i_call A L n tr F t me to k XF Ht (AF t) K) as X1. cbv zeta in X1. rewrite CE, RT, E3, E4, E5 in X1.
      specialize (X1 ST ltac:(intros q _; rewrite AF; discriminate) HO CS AT OS). cbn [rcode rtramp] in X1.
      destruct (run_out tr (code_of A (how_of k)) (set_ph F (f_m F) t (Inside (RSwitch me to k) (code_of A (how_of k)) (tramp_of (how_of k)) s)) t (RSwitch me to k) (tramp_of (how_of k)) s pc t' Ht X1)
        as (F6 & X6 & (y & rest6 & b6 & FR6 & GO6 & PC6) & ME6 & OT6).
      { rewrite set_ph_eq. reflexivity. }
      { cbn [set_ph f_m]. rewrite CE, <- switch_rest. exact SW. }
      pose proof (i_done A L n tr F6 t _ me to k s y rest6 b6 s X6 Ht FR6 GO6 (or_intror eq_refl)) as X7.
      rewrite RT in X7. eexists. split; [exact X7|]. split.
      + intros q. destruct (Nat.eq_dec q t) as [-> |NE]; [apply set_ph_eq|]. rewrite set_ph_ne by exact NE. rewrite OT6 by exact NE.
        rewrite set_ph_ne by exact NE. apply AF.
      + cbn [set_ph f_m] in ME6 |- *. destruct ME6 as (Z1 & Z2 & Z3 & Z4 & Z5 & Z6). cbn in Z1, Z2, Z3, Z4, Z5, Z6.
        unfold mach_eq. cbn. rewrite Z1, Z3, Z4, Z5, Z6, E3, E4, E5, E6. split; [reflexivity|]. split; [|auto].
        intros q. rewrite Z2. destruct (Nat.eqb_spec q t); [reflexivity|]. apply E2.
  Qed.
End Conv.

(** Nothing is lost: the executions with each routine at once (C52) are executions of the interleaved
    machine. *)
Theorem C55_includes_atomic A L n s new tr M :
  In A ports -> labels_ok A L -> reachable n s -> shuffled (s_tr s) (new ++ tr) -> exec A L n tr M ->
  exists F, fexec A L n tr F /\ (forall t, f_ph F t = Free) /\ mach_eq (f_m F) M.
Proof.
  intros IN LAB RE ET X. apply (conv A L n); auto. apply (good_app n new). eapply shuffled_good; eauto.
Qed.

(** Wherever the other threads are, a thread inside a routine can by itself bring it to its end; the
    others stay where they are. *)
Theorem C55_completes A L n s new tr F t r rest b c :
  In A ports -> labels_ok A L -> reachable n s -> shuffled (s_tr s) (new ++ tr) -> fexec A L n tr F ->
  f_ph F t = Inside r rest b c ->
  exists F' pc, fexec A L n tr F' /\ leaving A L F' t r c pc /\
    (forall t', t' <> t -> f_ph F' t' = f_ph F t' /\ m_reg (f_m F') t' = m_reg (f_m F) t') /\
    (forall a, ~ foot A (f_m F) (f_ph F t) a -> m_mem (f_m F') a = m_mem (f_m F) a).
Proof.
  intros IN LAB RE ET X FR.
  destruct (ends A L n IN LAB tr F t r rest b c ltac:(apply (good_app n new); eapply shuffled_good; eauto) X FR)
    as (F' & pc & X' & LV & OT & _ & _ & _ & _ & UN).
  exists F', pc. auto.
Qed.
