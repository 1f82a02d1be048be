(** The hypotheses of the C57 theorems can be met on every port, with handlers that overwrite everything below the stack
    pointer before every instruction: a thread creates a fiber, the fiber comes back, and the thread calls resume_with. *)
From Coq Require Import ZArith List String Lia Bool.
From Verif Require Import ListUtil Fiber FiberSpec LinkHist.
From Verif Require Import Word AsmMachine AsmSym AsmAbi AsmCheck AsmCode AsmCode2 AsmFacts AsmHist P_Asm AsmWit AsmIl Link P_Link.
From Verif Require Import AsmSig AsmSig2 P_AsmSig LinkSig LinkSigInv P_LinkSig.
Import ListNotations.
Open Scope list_scope.
Open Scope Z_scope.

(** a storm of signals: all bytes below the stack pointer, and a byte elsewhere, become 0xee *)
Definition heap_byte : Z := 0x3000.
Definition storm (spr : string) (stacks : list (Z * Z)) (u : mst) : Z -> Z :=
  let p := rg u spr in
  fun a => if existsb (fun x => (fst x <=? a) && (a <? p) && (p <=? snd x)) stacks || (a =? heap_byte) then 0xee else mm u a.
Definition Wheap (a : Z) : Prop := a = heap_byte.

Definition bytes (s : mst) : Prop := forall a, 0 <= mm s a < 256.

Lemma storm_bytes spr stacks u : bytes u -> forall a, 0 <= storm spr stacks u a < 256.
Proof. intros H a. unfold storm. destruct (_ || _); [lia|apply H]. Qed.

Lemma storm_handler spr stacks u : bytes u -> handler spr stacks (fun a => ~ Wheap a) u (storm spr stacks u).
Proof.
  intros H. split; [apply storm_bytes; exact H|]. intros a K NB. unfold storm. destruct (_ || _) eqn:Q; [|reflexivity]. exfalso.
  apply orb_true_iff in Q as [Q|Q].
  - apply NB. apply existsb_exists in Q as ([lo hi] & I & Q). cbn [fst snd] in Q. apply andb_true_iff in Q as [Q Q3].
    apply andb_true_iff in Q as [Q1 Q2]. apply Z.leb_le in Q1, Q3. apply Z.ltb_lt in Q2. exists lo, hi. auto.
  - apply K. apply Z.eqb_eq in Q. exact Q.
Qed.

Lemma step_bytes P L i s s' : bytes s -> step1 P L i s = Some s' -> bytes s'.
Proof.
  intros H E. destruct i; cbn [step1] in E; try discriminate; try (injection E as <-; exact H).
  - destruct (ea P s b o n); [|discriminate]. injection E as <-. exact H.
  - destruct (ea P s b o n); [|discriminate]. injection E as <-. intros zz. apply store_byte. exact H.
  - destruct (rg s c =? 0); injection E as <-; exact H.
  - destruct (rg s c =? 0); [injection E as <-; exact H|]. destruct (ea P s b o n); [|discriminate]. injection E as <-.
    intros zz. apply store_byte. exact H.
  - destruct (rg s c =? 0); [discriminate|]. injection E as <-. exact H.
  - destruct (rg s r =? L l); [|discriminate]. injection E as <-. exact H.
Qed.

Section Storm.
  Variable P : cpu.
  Variable L : string -> Z.
  Variable spr : string.
  Variable stacks : list (Z * Z).

  (** the code c, with a storm before every instruction *)
  Fixpoint srun (c : list instr) (s : mst) : outcome :=
    let s := St (rg s) (storm spr stacks s) in
    match c with
    | [] => Stuck
    | Go r :: _ => Goto (rg s r) s
    | Exit r :: _ => Exited (rg s r)
    | i :: t => match step1 P L i s with Some s' => srun t s' | None => Stuck end
    end.

  Lemma srun_irun c : forall s, bytes s -> irun P L (handler spr stacks (fun a => ~ Wheap a)) c s (srun c s) /\
    forall pc t, srun c s = Goto pc t -> bytes t.
  Proof.
    induction c as [|i c IH]; intros s H.
    - split; [|discriminate]. eapply r_int; [apply storm_handler; exact H|]. constructor.
    - pose proof (storm_handler spr stacks s H) as SH.
      assert (HS : bytes (St (rg s) (storm spr stacks s))) by (intros a; apply storm_bytes; exact H).
      remember (St (rg s) (storm spr stacks s)) as w eqn:Ew.
      assert (G : match i with Go _ | Exit _ => False | _ => True end ->
        irun P L (handler spr stacks (fun a => ~ Wheap a)) (i :: c) s (match step1 P L i w with Some s' => srun c s' | None => Stuck end) /\
        forall pc t, match step1 P L i w with Some s' => srun c s' | None => Stuck end = Goto pc t -> bytes t).
      { intros Hi. destruct (step1 P L i w) as [s'|] eqn:E.
        - destruct (IH s' (step_bytes _ _ _ _ _ HS E)) as [H1 H2]. split; [|exact H2].
          eapply r_int; [exact SH|]. rewrite <- Ew. eapply r_step; eauto.
        - split; [|discriminate]. eapply r_int; [exact SH|]. rewrite <- Ew. apply r_fault; auto. }
      destruct i; cbn [srun]; rewrite <- Ew; try exact (G Logic.I).
      + split; [eapply r_int; [exact SH|]; rewrite <- Ew; constructor|]. intros pc t [= _ <-]. exact HS.
      + split; [eapply r_int; [exact SH|]; rewrite <- Ew; constructor|]. discriminate.
  Qed.
End Storm.

Definition sswitch (A : port) (L : string -> Z) (stacks : list (Z * Z)) (k : how) (s : mst) : outcome :=
  match srun (cpu_of A) L (ab_sp (p_abi A)) stacks (code_of A k) s with
  | Goto pc u => if goes_on A L (tramp_of k) pc then srun (cpu_of A) L (ab_sp (p_abi A)) stacks (c_tramp (p_code A)) u else Goto pc u
  | o => o
  end.

Lemma sswitch_iswitch A L stacks k s : bytes s -> iswitch A L (signals A stacks Wheap) k s (sswitch A L stacks k s) /\
  forall pc t, sswitch A L stacks k s = Goto pc t -> bytes t.
Proof.
  intros H. destruct (srun_irun (cpu_of A) L (ab_sp (p_abi A)) stacks (code_of A k) s H) as [H1 H2].
  unfold sswitch. destruct (srun _ L _ stacks (code_of A k) s) as [pc u|e|] eqn:E.
  - pose proof (H2 _ _ eq_refl) as HU. destruct (srun_irun (cpu_of A) L (ab_sp (p_abi A)) stacks (c_tramp (p_code A)) u HU) as [H3 H4].
    destruct (goes_on A L (tramp_of k) pc) eqn:G.
    + split; [|exact H4]. exists (Goto pc u). split; [exact H1|]. rewrite G. exact H3.
    + split; [|intros pc' t [= _ <-]; exact HU]. exists (Goto pc u). split; [exact H1|]. rewrite G. reflexivity.
  - split; [|discriminate]. exists (Exited e). split; [exact H1|reflexivity].
  - split; [|discriminate]. exists Stuck. split; [exact H1|reflexivity].
Qed.

(** ** The states *)
(* code has filled [lo, hi) *)
Definition over (lo hi : Z) (m m' : Z -> Z) : Z -> Z := fun a => if (lo <=? a) && (a <? hi) then m a else m' a.

Section Example_.
  Variable A : port.
  Definition stk0 : list (Z * Z) := [(0x8000, 0xa000)].
  Definition stk01 : list (Z * Z) := [(0x8000, 0xa000); (0x4000, 0x6000)].
  Definition stk10 : list (Z * Z) := [(0x4000, 0x6000); (0x8000, 0xa000)].
  Definition make0 : outcome := srun (cpu_of A) wL (ab_sp (p_abi A)) stk0 (c_make (p_code A)) (w0 A []).
  Definition y0 : mst := st_of make0.
  Definition z1 : mst := St (wreg A (wsp1 A) (args1 A) []) (over 0x8000 0xa000 (wmem A) (mm y0)).
  Definition jump1 : outcome := sswitch A wL stk01 Jump z1.
  Definition y1 : mst := st_of jump1.
  Definition z2 : mst := St (wreg A (wsp2 A) (args2 A) []) (over 0x4000 0x6000 (wmem A) (mm y1)).
  Definition jump2 : outcome := sswitch A wL stk10 Jump z2.
  Definition y2 : mst := st_of jump2.
  Definition z3 : mst := St (wreg A (wsp1 A) (args3 A) []) (over 0x8000 0xa000 (mem3 A) (mm y2)).
  Definition ontop3 : outcome := sswitch A wL stk01 Ontop z3.
  Definition y3 : mst := st_of ontop3.

  Definition liveb (s : mst) : bool := match hidden A s with None => true | Some H => sp A s <=? H end.
  Definition roomyb (s : mst) (lo hi : Z) : bool := on_stackb A s lo hi && (lo <? handle A s) && liveb s.

  Definition swit : bool :=
    (0xa000 <=? space (cpu_of A)) && (mk_top A (w0 A []) =? 0x6000) &&
    (0x8000 <? sp A (w0 A []) - c_mkscr (p_code A)) && (sp A (w0 A []) + ab_up (p_abi A) <=? 0xa000) &&
    (0x4000 + c_frame (p_code A) <? 0x6000 - c_need (p_code A)) &&
    goes make0 && (arg_to A z1 =? rg y0 (ab_mkres (p_abi A))) && call_okb A z1 && roomyb z1 0x8000 0xa000 && (0x4000 <=? arg_to A z1) && (arg_to A z1 + c_size (p_code A) <=? 0x6000) &&
    goes jump1 && call_okb A z2 && roomyb z2 0x4000 0x6000 && (arg_to A z2 =? handle A z1) &&
    goes jump2 && call_okb A z3 && roomyb z3 0x8000 0xa000 && (arg_to A z3 =? handle A z2) &&
    (* the handlers did something on both stacks *)
    (mm (w0 A []) 0x8000 =? 7) && (mm y0 0x8000 =? 0xee) &&
    (mm z1 0x8000 =? 7) && (mm z1 0x4000 =? 7) && (mm y1 0x8000 =? 0xee) && (mm y1 0x4000 =? 0xee) &&
    (mm z2 0x4000 =? 7) && (mm y2 0x4000 =? 0xee) && (mm y2 0x8000 =? 0xee) && 
    (mm (w0 A []) heap_byte =? 7) && (mm y0 heap_byte =? 0xee).
End Example_.

Lemma swit_ports : forallb swit sig_ports = true.
Proof. vm_compute. reflexivity. Qed.

Lemma roomyb_ok A s lo hi : roomyb A s lo hi = true -> roomy A s lo hi.
Proof.
  intros H. unfold roomyb in H. apply andb_true_iff in H as [H H3]. apply andb_true_iff in H as [H1 H2].
  apply on_stackb_ok in H1. apply Z.ltb_lt in H2. split; [exact H1|]. split; [exact H2|].
  unfold live_result. unfold liveb in H3. destruct (hidden A s); [apply Z.leb_le; exact H3|exact Logic.I].
Qed.

Lemma mem3_bytes A a : 0 <= mem3 A a < 256.
Proof.
  unfold mem3. generalize a. clear a. induction (flat_map _ _) as [|[[b k] v] l IH]; intros a; simpl; [lia|]. apply store_byte. exact IH.
Qed.

Lemma over_bytes lo hi m m' a : (forall a, 0 <= m a < 256) -> (forall a, 0 <= m' a < 256) -> 0 <= over lo hi m m' a < 256.
Proof. intros H H'. unfold over. destruct (_ && _); auto. Qed.

Section States.
  Variable A : port.
  (** the machine before the creation, before the jump back and before resume_with *)
  Definition sg_M1 : mach := lk_M1 A.
  Definition sg_M2 : mach := put_code (put_sig (spoiled sg_M1 Wheap (y0 A) (z1 A)) 0 (mk_fc 0 1) (handle A (z1 A)) (z1 A) (y1 A) Wheap) 0 (z2 A).
  Definition sg_M3 : mach := put_code (put_sig sg_M2 0 (mk_fc 1 1) (handle A (z2 A)) (z2 A) (y2 A) Wheap) 0 (z3 A).
End States.

Example C57_hypotheses_met A : In A ports -> no_windows A -> exists new1 new2 new3,
  labels_ok A wL /\ reachable 1 lk_s /\
  (* C57_create (and C57_make, C57_first_jump) *)
  (s_tr lk_s = new1 ++ EvSwitch 0 0 (mk_fc 0 1) (mk_fc 1 0) SwCreate :: lk_t1 /\ sexec A wL 1 lk_t1 (sg_M1 A) /\
   make_ok A (w0 A []) /\ 0x8000 < sp A (w0 A []) - c_mkscr (p_code A) /\ sp A (w0 A []) + ab_up (p_abi A) <= 0xa000 /\
   0x4000 + c_frame (p_code A) < mk_top A (w0 A []) - c_need (p_code A) /\ mk_top A (w0 A []) <= 0x6000 /\
   (forall h a, suspended lk_t1 h -> owned A (sg_M1 A) h a -> ~ Wheap a) /\ (forall a, foot_make A (w0 A []) a -> ~ Wheap a) /\
   irun (cpu_of A) wL (signals A stk0 Wheap) (c_make (p_code A)) (w0 A []) (make0 A) /\
   wf (cpu_of A) (z1 A) /\ call_ok A wL (z1 A) /\ arg_to A (z1 A) = rg (y0 A) (ab_mkres (p_abi A)) /\ roomy A (z1 A) 0x8000 0xa000 /\
   (forall h a, suspended lk_t1 h -> owned A (sg_M1 A) h a -> mm (z1 A) a = mm (y0 A) a) /\
   (forall a, arg_to A (z1 A) <= a < arg_to A (z1 A) + c_size (p_code A) -> mm (z1 A) a = mm (y0 A) a) /\
   (forall a, foot_new A (z1 A) a -> ~ Wheap a) /\
   iswitch A wL (signals A stk01 Wheap) Jump (z1 A) (jump1 A)) /\
  (* C57_resume (and C57_jump) *)
  (s_tr lk_s = new2 ++ EvSwitch 0 1 (mk_fc 1 1) (mk_fc 0 1) SwJump :: lk_t2 /\ sexec A wL 1 lk_t2 (sg_M2 A) /\
   call_ok A wL (z2 A) /\ arg_to A (z2 A) = m_at (sg_M2 A) (mk_fc 0 1) /\ roomy A (z2 A) 0x4000 0x6000 /\
   (forall h a, suspended lk_t2 h -> owned A (sg_M2 A) h a -> ~ Wheap a) /\ (forall a, foot_susp A (z2 A) (z1 A) a -> ~ Wheap a) /\
   iswitch A wL (signals A stk10 Wheap) Jump (z2 A) (jump2 A)) /\
  (* C57_inject (and C57_ontop) *)
  (s_tr lk_s = new3 ++ EvSwitch 0 0 (mk_fc 0 2) (mk_fc 1 1) (SwOntop 9) :: lk_t3 /\ sexec A wL 1 lk_t3 (sg_M3 A) /\
   call_ok A wL (z3 A) /\ arg_to A (z3 A) = m_at (sg_M3 A) (mk_fc 1 1) /\ roomy A (z3 A) 0x8000 0xa000 /\
   (forall h a, suspended lk_t3 h -> owned A (sg_M3 A) h a -> ~ Wheap a) /\ (forall a, foot_susp A (z3 A) (z2 A) a -> ~ Wheap a) /\
   iswitch A wL (signals A stk01 Wheap) Ontop (z3 A) (ontop3 A)) /\
  (* the handlers do overwrite the stacks and the heap *)
  (mm (w0 A []) 0x8000 = 7 /\ mm (y0 A) 0x8000 = 0xee /\ mm (w0 A []) heap_byte = 7 /\ mm (y0 A) heap_byte = 0xee /\
   mm (z1 A) 0x4000 = 7 /\ mm (z1 A) 0x8000 = 7 /\ mm (y1 A) 0x4000 = 0xee /\ mm (y1 A) 0x8000 = 0xee).
Proof.
  intros IN NW. pose proof wit_ports as WP. rewrite forallb_forall in WP. specialize (WP A IN).
  pose proof swit_ports as W3. rewrite forallb_forall in W3. specialize (W3 A (sig_all A IN NW)).
  destruct (witness A [] [] [] WP IN) as (LAB & MK & _).
  unfold swit in W3. repeat (let X := fresh "X" in apply andb_true_iff in W3 as [W3 X]).
  pose proof (port_checked A IN) as CHK. pose proof (abi_nums A CHK) as NN. pose proof lk_reach as RE.
  rewrite ?Z.leb_le, ?Z.ltb_lt, ?Z.eqb_eq in *.
  apply roomyb_ok in X20, X15, X11.
  pose proof X20 as ((O1 & O2 & O3) & O4 & O5). pose proof X15 as ((Q1 & Q2 & Q3) & Q4 & Q5). pose proof X11 as ((S1 & S2 & S3) & S4 & S5).
  assert (R1 : exists new, s_tr lk_s = new ++ EvSwitch 0 0 (mk_fc 0 1) (mk_fc 1 0) SwCreate :: lk_t1) by (exists (firstn 6 (s_tr lk_s)); reflexivity).
  assert (R2 : exists new, s_tr lk_s = new ++ EvSwitch 0 1 (mk_fc 1 1) (mk_fc 0 1) SwJump :: lk_t2) by (exists (firstn 5 (s_tr lk_s)); reflexivity).
  assert (R3 : exists new, s_tr lk_s = new ++ EvSwitch 0 0 (mk_fc 0 2) (mk_fc 1 1) (SwOntop 9) :: lk_t3) by (exists (firstn 2 (s_tr lk_s)); reflexivity).
  destruct R1 as (new1 & R1), R2 as (new2 & R2), R3 as (new3 & R3). exists new1, new2, new3.
  pose proof MK as (W0 & _). assert (B0 : bytes (w0 A [])) by exact (proj1 W0).
  (* the interrupted calls *)
  destruct (srun_irun (cpu_of A) wL (ab_sp (p_abi A)) stk0 (c_make (p_code A)) (w0 A []) B0) as [I0 BY0].
  fold (make0 A) in I0, BY0. pose proof (goes_ok _ X23) as G0. fold (y0 A) in G0. specialize (BY0 _ _ G0).
  assert (B1 : bytes (z1 A)) by (intros a; apply over_bytes; [apply wmem_ok|exact BY0]).
  destruct (sswitch_iswitch A wL stk01 Jump (z1 A) B1) as [I1 BY1]. fold (jump1 A) in I1, BY1.
  pose proof (goes_ok _ X17) as G1. fold (y1 A) in G1. specialize (BY1 _ _ G1).
  assert (B2 : bytes (z2 A)) by (intros a; apply over_bytes; [apply wmem_ok|exact BY1]).
  destruct (sswitch_iswitch A wL stk10 Jump (z2 A) B2) as [I2 BY2]. fold (jump2 A) in I2, BY2.
  pose proof (goes_ok _ X13) as G2. fold (y2 A) in G2. specialize (BY2 _ _ G2).
  assert (B3 : bytes (z3 A)) by (intros a; apply over_bytes; [apply mem3_bytes|exact BY2]).
  destruct (sswitch_iswitch A wL stk01 Ontop (z3 A) B3) as [I3 _]. fold (ontop3 A) in I3.
  assert (W1 : wf (cpu_of A) (z1 A)) by (split; [exact B1|apply (wreg_ok A [] [] [] WP)]).
  assert (W2 : wf (cpu_of A) (z2 A)) by (split; [exact B2|apply (wreg_ok A [] [] [] WP)]).
  assert (W3' : wf (cpu_of A) (z3 A)) by (split; [exact B3|apply (wreg_ok A [] [] [] WP)]).
  pose proof (call_okb_ok A _ W1 X21) as C1; pose proof (call_okb_ok A _ W2 X16) as C2; pose proof (call_okb_ok A _ W3' X12) as C3.
  (* the byte elsewhere *)
  assert (F0 : forall a, foot_make A (w0 A []) a -> ~ Wheap a).
  { intros a [Ha|Ha] EW; unfold Wheap, heap_byte in EW; lia. }
  assert (F1 : forall a, foot_new A (z1 A) a -> ~ Wheap a).
  { intros a [Ha|Ha] EW; unfold Wheap, heap_byte, own_foot, own_len, handle in *; lia. }
  assert (FS : forall s s1 lo hi lo1 hi1, 0x4000 <= lo -> 0x4000 <= lo1 -> on_stack A s lo hi -> on_stack A s1 lo1 hi1 -> arg_to A s = handle A s1 ->
            forall a, foot_susp A s s1 a -> ~ Wheap a).
  { intros s s1 lo hi lo1 hi1 L1 L2 (U1 & U2 & _) (U4 & U5 & U6) AT a Ha EW. unfold Wheap, heap_byte, foot_susp in *.
    destruct Ha as [Ha|[Ha|Ha]]; [unfold own_foot, own_len, handle in *; lia|rewrite AT in Ha; unfold own_len, handle in *; lia|].
    destruct (hidden A s1) as [H|]; [lia|contradiction]. }
  assert (F2 : forall a, foot_susp A (z2 A) (z1 A) a -> ~ Wheap a).
  { apply (FS (z2 A) (z1 A) 0x4000 0x6000 0x8000 0xa000); [lia|lia|apply X15|apply X20|exact X14]. }
  assert (F3 : forall a, foot_susp A (z3 A) (z2 A) a -> ~ Wheap a).
  { apply (FS (z3 A) (z2 A) 0x8000 0xa000 0x4000 0x6000); [lia|lia|apply X11|apply X15|exact X10]. }
  (* what is suspended *)
  assert (T1 : forall h, ~ suspended lk_t1 h).
  { intros h ((? & ? & ? & ? & [Q|[]] & _) & _). discriminate. }
  assert (T2 : forall h, suspended lk_t2 h -> h = mk_fc 0 1).
  { intros h Hh. unfold lk_t2 in Hh. apply susp_switch in Hh as (Hh & _ & _). destruct Hh as [[-> _]|Hh]; [reflexivity|].
    destruct Hh as (? & ? & ? & ? & [Q|[]] & _). discriminate. }
  assert (T3' : forall h, suspended (EvSwitch 0 1 (mk_fc 1 1) (mk_fc 0 1) SwJump :: lk_t2) h -> h = mk_fc 1 1).
  { intros h Hh. apply susp_switch in Hh as (Hh & NC & NT). destruct Hh as [[-> _]|Hh]; [reflexivity|].
    assert (Hs : suspended lk_t2 h) by (split; assumption). apply T2 in Hs. contradiction. }
  assert (T3 : forall h, suspended lk_t3 h -> h = mk_fc 1 1).
  { intros h Hh. unfold lk_t3 in Hh. apply susp_quiet in Hh; [|reflexivity]. apply susp_quiet in Hh; [|reflexivity]. auto. }
  (* the runs *)
  assert (E1 : sexec A wL 1 lk_t1 (sg_M1 A)).
  { apply s_alloc; [|lia|unfold cpu_of in *; lia|].
    - apply s_start; cbn [lk_M0 cpu_at m_reg m_mem m_lo m_hi].
      + intros t. destruct W0. split; assumption.
      + intros c _. unfold cpu_of in *. lia.
      + intros c d H1 H2 N. exfalso. lia.
    - intros d _. unfold sdisj. cbn [lk_M0 m_lo m_hi]. lia. }
  destruct (C57_create A wL 1 lk_s new1 0 0 (mk_fc 0 1) (mk_fc 1 0) lk_t1 (sg_M1 A) Wheap (make0 A) IN NW LAB RE R1 E1) as (c1 & RM & _ & _ & _ & _ & _ & JU).
  { exact MK. }
  { exact X26. }
  { exact X25. }
  { change (0x4000 + c_frame (p_code A) < mk_top A (w0 A []) - c_need (p_code A)). rewrite X27. exact X24. }
  { change (mk_top A (w0 A []) <= 0x6000). rewrite X27. lia. }
  { intros h a Hh. exfalso. exact (T1 h Hh). }
  { exact F0. }
  { exact I0. }
  assert (EV : c1 = y0 A) by (rewrite G0 in RM; injection RM as _ RM; symmetry; exact RM). subst c1.
  assert (Z1 : forall a, 0x4000 <= a < 0x6000 -> mm (z1 A) a = mm (y0 A) a).
  { intros a Ha. cbn [z1 mm over]. unfold over. destruct (Z.leb_spec 0x8000 a); [lia|reflexivity]. }
  destruct (JU (z1 A) Wheap (jump1 A)) as (u1 & SW1 & _ & _ & _ & _ & _ & X1E).
  { exact W1. }
  { intros x a Hx. exfalso. exact (T1 x Hx). }
  { intros a Ha. apply Z1. rewrite <- X22 in Ha. lia. }
  { exact C1. }
  { exact X22. }
  { exact X20. }
  { intros h a Hh. exfalso. exact (T1 h Hh). }
  { exact F1. }
  { exact I1. }
  assert (EU : u1 = y1 A) by (rewrite G1 in SW1; injection SW1 as _ SW1; symmetry; exact SW1). subst u1.
  assert (E2 : sexec A wL 1 lk_t2 (sg_M2 A)).
  { unfold sg_M2. apply s_code; [exact X1E|lia|exact W2|]. intros h a Hh. apply T2 in Hh. subst h. unfold owned.
    cbn [put_sig m_at m_mem fc_eqb fc_ctx fc_ver Nat.eqb andb z2 mm]. intros Ha. unfold over.
    destruct (Z.leb_spec 0x4000 a), (Z.ltb_spec a 0x6000); cbn [andb]; try reflexivity. exfalso. lia. }
  assert (OW2 : forall h a, suspended lk_t2 h -> owned A (sg_M2 A) h a -> ~ Wheap a).
  { intros h a Hh. apply T2 in Hh. subst h. unfold owned. cbn [sg_M2 put_code put_sig m_at fc_eqb fc_ctx fc_ver Nat.eqb andb].
    intros Ha EW. unfold Wheap, heap_byte, own_len, handle in *. lia. }
  destruct (C57_resume A wL 1 lk_s new2 0 1 (mk_fc 1 1) (mk_fc 0 1) lk_t2 (sg_M2 A) Wheap (jump2 A) IN NW LAB RE R2 E2) as (u2 & (SW2 & _) & _ & _ & _ & X2E).
  { exact C2. }
  { exact X14. }
  { exact X15. }
  { exact OW2. }
  { exact F2. }
  { exact I2. }
  assert (EU : u2 = y2 A) by (rewrite G2 in SW2; injection SW2 as _ SW2; symmetry; exact SW2). subst u2.
  assert (E3 : sexec A wL 1 lk_t3 (sg_M3 A)).
  { unfold sg_M3, lk_t3. apply s_code; [|lia|exact W3'|].
    - apply s_event; [|exact Logic.I]. apply s_event; [|exact Logic.I]. exact X2E.
    - intros h a Hh. apply T3 in Hh. subst h. unfold owned. cbn [put_sig m_at m_mem fc_eqb fc_ctx fc_ver Nat.eqb andb z3 mm]. intros Ha. unfold over.
      destruct (Z.leb_spec 0x8000 a); [exfalso; unfold own_len, handle in *; lia|reflexivity]. }
  assert (OW3 : forall h a, suspended lk_t3 h -> owned A (sg_M3 A) h a -> ~ Wheap a).
  { intros h a Hh. apply T3 in Hh. subst h. unfold owned. cbn [sg_M3 put_code put_sig m_at fc_eqb fc_ctx fc_ver Nat.eqb andb].
    intros Ha EW. unfold Wheap, heap_byte, own_len, handle in *. lia. }
  split; [exact LAB|]. split; [exact RE|]. split; [|split; [|split]].
  - rewrite X27. do 5 (split; [assumption|]). split; [exact X24|]. split; [lia|]. split; [intros h a Hh; exfalso; exact (T1 h Hh)|].
    split; [exact F0|]. split; [exact I0|]. split; [exact W1|]. split; [exact C1|]. split; [exact X22|]. split; [exact X20|].
    split; [intros h a Hh; exfalso; exact (T1 h Hh)|]. split; [intros a Ha; apply Z1; lia|]. split; [exact F1|exact I1].
  - do 3 (split; [assumption|]). split; [exact X14|]. auto.
  - do 3 (split; [assumption|]). split; [exact X10|]. auto.
  - do 7 (split; [assumption|]). assumption.
Qed.
