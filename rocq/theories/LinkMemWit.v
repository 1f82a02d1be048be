(** * The hypotheses of C53 are met, on every port

    Thread 0 has the stack [0x8000, 0xa000). It constructs a fiber in the block [0x4000, 0x6100), with a
    record of 0x80 bytes: it is at 0x6000, and the stack is [0x4000, 0x5fc0). The fiber comes back,
    is resumed and ends. *)
From Coq Require Import ZArith List String Lia Bool.
From Verif Require Import ListUtil Fiber FiberSpec LinkHist P_Fiber3 Layout LayoutFacts P_Memory.
From Verif Require Import Word AsmMachine AsmSym AsmAbi AsmCheck AsmCode AsmCode2 AsmFacts AsmHist P_Asm AsmWit Link P_Link LinkMem P_LinkMem.
Import ListNotations.
Open Scope list_scope.
Open Scope Z_scope.

Definition q_ops : list (nat * label) :=
  [(0%nat, LUser (UCreate 7 [] true)); (0%nat, LTau); (0%nat, LUser (UResume 0)); (0%nat, LUser (UReturn (Some 1%nat)));
   (0%nat, LTau); (0%nat, LTau); (0%nat, LTau); (0%nat, LTau)].
Definition q_s : state := Eval vm_compute in match Fiber.run (init 1) q_ops with Next s => s | _ => init 0 end.
Lemma q_reach : reachable 1 q_s.
Proof. exists q_ops. vm_compute. reflexivity. Qed.

Definition q_rs (_ : nat) : Z := 0x80.
Definition q_off (_ : nat) : Z := 0.
Definition q_keep (_ : nat) (o : Z) : Prop := -16 <= o < 16.
Definition q_thr : preallocated := whole (mk_sctx 0x2000 0xa000).
Definition q_blk0 (_ : nat) : preallocated := q_thr.
Definition q_b : preallocated := whole (mk_sctx 0x2100 0x6100).
Definition q_blk1 (c : nat) : preallocated := if Nat.eqb c 1 then q_b else q_blk0 c.

Section Wit.
  Variable A : port.
  Let B := p_abi A.
  Let C := p_code A.
  Let P := ab_cpu B.

  Definition hid (x : Z) : list (place * Z) := match ab_hidden B with Some p => [(p, x)] | None => [] end.
  Definition stores (m : Z -> Z) (base : Z) (args : list (place * Z)) : Z -> Z :=
    fold_right (fun x m => let '(a, n, v) := x in store (cbig P) m a n v) m (flat_map (fun x => pmem (fst x) base (snd x)) args).
  (** a call with stack pointer spv and arguments args; memory is m except in [lo, hi) *)
  Definition call_st (m : Z -> Z) (lo hi spv : Z) (args : list (place * Z)) : mst :=
    St (wreg A spv args []) (fun a => if (lo <=? a) && (a <? hi) then stores (fun _ => 7) spv args a else m a).

  Definition sp_t : Z := 0x9000 - ab_bias B.
  Definition sp_f : Z := 0x5800 - ab_bias B.
  Definition q_h : Z := (0x5fc0 + c_mkoff C) / c_mkal C * c_mkal C - c_size C.
  (* the record has been written *)
  Definition mem0 : Z -> Z :=
    store (cbig P) (store (cbig P) (stores (fun _ => 7) (0x9800 - ab_bias B) [(ab_ret B, 0x777); (ab_mksp B, 0x5fc0); (ab_mkfn B, 0x1234)])
      0x6000 (cwb P) 0x2100) (0x6000 + cwb P) (cwb P) 0x6100.
  Definition c0 : mst := St (wreg A (0x9800 - ab_bias B) [(ab_ret B, 0x777); (ab_mksp B, 0x5fc0); (ab_mkfn B, 0x1234)] []) mem0.
  Definition r0 : mst := st_of (run P wL (c_make C) c0).
  Definition c1 : mst := call_st (mm r0) 0x8000 0xa000 sp_t ([(ab_ret B, 0x778); (ab_to B, q_h); (ab_data B, 0x6000)] ++ hid 0x9100).
  Definition r1 : mst := st_of (switch A wL Jump c1).
  Definition c2 : mst := call_st (mm r1) 0x4000 0x5fc0 sp_f ([(ab_ret B, 0x779); (ab_to B, sp_t - c_frame C); (ab_data B, 0)] ++ hid 0x5900).
  Definition r2 : mst := st_of (switch A wL Jump c2).
  Definition c3 : mst := call_st (mm r2) 0x8000 0xa000 sp_t ([(ab_ret B, 0x77a); (ab_to B, sp_f - c_frame C); (ab_data B, 0)] ++ hid 0x9100).
  Definition r3 : mst := st_of (switch A wL Jump c3).
  Definition c4 : mst := call_st (mm r3) 0x4000 0x5fc0 sp_f ([(ab_ret B, 0x77b); (ab_to B, sp_t - c_frame C); (ab_data B, 0x6000); (ab_fn B, 0x4321)] ++ hid 0x5900).

  Definition q_wit : bool :=
    forallb (fun x => 0 <=? snd x) (cwidth P) && (0 <=? cwb P) && (0x300 <? space P) &&
    (0xa000 <? space P) && (2 * cwb P <=? 16) &&
    (mk_top A c0 =? 0x5fc0) && (0x8000 <=? sp A c0 - c_mkscr C) && (sp A c0 + ab_up B <=? 0xa000) &&
    (sc_size (sctx_in A q_off mem0 1 0x6000) =? 0x2100) && (sc_sp (sctx_in A q_off mem0 1 0x6000) =? 0x6100) &&
    (0x4000 + 0x80 + 64 + 255 + c_need C <=? 0x6100) && (lo_storage (lay A q_rs 1 q_b) =? 0x6000) && (lo_top (lay A q_rs 1 q_b) =? 0x5fc0) && (lo_bottom (lay A q_rs 1 q_b) =? 0x4000) &&
    (rg r0 (ab_mkres B) =? q_h) && (0x4000 <=? q_h) && (q_h + c_size C <=? 0x5fc0) &&
    call_okb A c1 && on_stackb A c1 0x8000 0xa000 && (arg_to A c1 =? q_h) && (arg_data A c1 =? 0x6000) &&
    call_okb A c2 && on_stackb A c2 0x4000 0x5fc0 && (arg_to A c2 =? handle A c1) &&
    call_okb A c3 && on_stackb A c3 0x8000 0xa000 && (arg_to A c3 =? handle A c2) &&
    call_okb A c4 && on_stackb A c4 0x4000 0x5fc0 && (arg_to A c4 =? handle A c3) && (arg_data A c4 =? 0x6000).
End Wit.

Lemma q_wit_ports : forallb q_wit ports = true.
Proof. vm_compute. reflexivity. Qed.

Definition q_t1 : list event := [EvAlloc 1 7].
Definition q_t2 : list event := EvSwitch 0 0 (mk_fc 0 1) (mk_fc 1 0) SwCreate :: q_t1.
Definition q_t3 : list event := EvCtor (OnCtx 0) (OFib 0) :: EvResumed 0 (Some (mk_fc 1 1)) :: EvSwitch 0 1 (mk_fc 1 1) (mk_fc 0 1) SwJump :: q_t2.
Definition q_t4 : list event := EvDone 1 (Some (mk_fc 0 2)) :: EvDtor (OnCtx 1) (OFib 1) :: EvCtor (OnCtx 1) (OFib 1) :: EvEnter 1 (Some (mk_fc 0 2)) ::
  EvSwitch 0 0 (mk_fc 0 2) (mk_fc 1 1) SwJump :: q_t3.
Definition q_t5 : list event := EvRecord 1 :: EvSwitch 0 1 (mk_fc 1 2) (mk_fc 0 2) SwExit :: q_t4.

Section Mach.
  Variable A : port.
  Definition q_M0 : mach := Mach (mm (c0 A)) (fun _ => rg (c0 A)) (fun _ => 0x8000) (fun _ => 0xa000) (fun _ => 0) (fun _ => c0 A) (fun _ => clean).
  Definition q_M1 : mach := put_stack q_M0 1 (lo_bottom (lay A q_rs 1 q_b)) (lo_top (lay A q_rs 1 q_b)).
  Definition q_Ma : mach := put_susp (put_cpu (soiled q_M1 (r0 A) (c1 A)) 0 (r1 A)) (mk_fc 0 1) (handle A (c1 A)) (c1 A).
  Definition q_M2 : mach := put_code q_Ma 0 (c2 A).
  Definition q_Mb : mach := put_susp (put_cpu q_M2 0 (r2 A)) (mk_fc 1 1) (handle A (c2 A)) (c2 A).
  Definition q_M3 : mach := put_code q_Mb 0 (c3 A).
  Definition q_Mc : mach := put_susp (put_cpu q_M3 0 (r3 A)) (mk_fc 0 2) (handle A (c3 A)) (c3 A).
  Definition q_M4 : mach := put_code q_Mc 0 (c4 A).
End Mach.

Notation q_lexec A := (lexec A wL 1 q_rs q_off q_keep).

Lemma stores_ok A m b l a : (forall x, 0 <= m x < 256) -> 0 <= stores A m b l a < 256.
Proof.
  intros H. unfold stores. revert a. induction (flat_map _ _) as [|[[x k] v] r IH]; intros a; simpl; [apply H|]. apply store_byte. exact IH.
Qed.

Example C53_hypotheses_met A : In A ports ->
  labels_ok A wL /\ keep_ok A q_rs q_off q_keep /\ reachable 1 q_s /\
  (* C53_create *)
  (s_tr q_s = firstn 13 (s_tr q_s) ++ q_t2 /\ q_lexec A q_t1 (q_M1 A) q_blk1 /\
   rec_at A q_rs 1 (q_blk1 1%nat) = 0x6000 /\ mk_top A (c0 A) = 0x6000 - 64 /\
   0x8000 <= sp A (c0 A) - c_mkscr (p_code A) /\ sp A (c0 A) + ab_up (p_abi A) <= 0xa000 /\
   sctx_in A q_off (m_mem (q_M1 A)) 1 0x6000 = pa_sctx (q_blk1 1%nat)) /\
  (* C53_exit_releases_own_stack *)
  (s_tr q_s = firstn 4 (s_tr q_s) ++ EvSwitch 0 1 (mk_fc 1 2) (mk_fc 0 2) SwExit :: q_t4 /\ q_lexec A q_t4 (q_M4 A) q_blk1 /\
   cpu_at (q_M4 A) 0 = c4 A /\
   call_ok A wL (c4 A) /\ arg_to A (c4 A) = m_at (q_M4 A) (mk_fc 0 2) /\ on_stack A (c4 A) 0x4000 0x5fc0 /\ arg_data A (c4 A) = 0x6000) /\
  (* C53_free *)
  (has_ontop A -> s_tr q_s = firstn 2 (s_tr q_s) ++ EvFree 1 7 0 :: q_t5 /\ exists M5, q_lexec A q_t5 M5 q_blk1).
Proof.
  intros IN. pose proof q_wit_ports as WP. rewrite forallb_forall in WP. specialize (WP A IN). unfold q_wit in WP.
  do 30 (let X := fresh "X" in apply andb_true_iff in WP as [WP X]).
  rewrite ?Z.leb_le, ?Z.ltb_lt, ?Z.eqb_eq in *. rename WP into X30.
  change (ab_cpu (p_abi A)) with (cpu_of A) in *.
  assert (LAB : labels_ok A wL).
  { intros l. unfold wL. change (ab_cpu (p_abi A)) with (cpu_of A). destruct (String.eqb l "trampoline"); [lia|]. destruct (String.eqb l "finish"); lia. }
  assert (KO : keep_ok A q_rs q_off q_keep).
  { intros c. unfold q_rs, q_off, q_keep. change (ab_cpu (p_abi A)) with (cpu_of A). repeat split; intros; lia. }
  pose proof wit_ports as WP0. rewrite forallb_forall in WP0. specialize (WP0 A IN).
  assert (WR : forall spv args r, 0 <= wreg A spv args [] r < 256 ^ (rw (cpu_of A) r)) by (intros; apply (wreg_ok A [] [] [] WP0)).
  assert (WC : forall m lo hi spv args, (forall a, 0 <= m a < 256) -> wf (cpu_of A) (call_st A m lo hi spv args)).
  { intros m lo hi spv args Hm. split; [|apply WR]. intros a. cbn [call_st mm]. destruct (_ && _); [apply stores_ok; lia|apply Hm]. }
  assert (W0 : wf (cpu_of A) (c0 A)).
  { split; [|apply WR]. intros a. cbn [c0 mm]. unfold mem0. apply store_byte. intros y. apply store_byte. intros z. apply stores_ok. lia. }
  pose proof q_reach as RE.
  assert (R1 : s_tr q_s = firstn 13 (s_tr q_s) ++ EvSwitch 0 0 (mk_fc 0 1) (mk_fc 1 0) SwCreate :: q_t1) by reflexivity.
  assert (R2 : s_tr q_s = firstn 12 (s_tr q_s) ++ EvSwitch 0 1 (mk_fc 1 1) (mk_fc 0 1) SwJump :: q_t2) by reflexivity.
  assert (R3 : s_tr q_s = firstn 9 (s_tr q_s) ++ EvSwitch 0 0 (mk_fc 0 2) (mk_fc 1 1) SwJump :: q_t3) by reflexivity.
  assert (R4 : s_tr q_s = firstn 4 (s_tr q_s) ++ EvSwitch 0 1 (mk_fc 1 2) (mk_fc 0 2) SwExit :: q_t4) by reflexivity.
  assert (BO : block_ok A q_rs 1 q_b).
  { unfold block_ok, q_b, whole, blk_lo, blk_hi, q_rs. cbn [pa_sctx sc_sp sc_size pa_sp]. change (ab_cpu (p_abi A)) with (cpu_of A). lia. }
  assert (REC : rec_at A q_rs 1 (q_blk1 1%nat) = 0x6000) by exact X18.
  assert (SC : sctx_in A q_off (m_mem (q_M1 A)) 1 0x6000 = pa_sctx (q_blk1 1%nat)).
  { change (m_mem (q_M1 A)) with (mem0 A). destruct (sctx_in A q_off (mem0 A) 1 0x6000) as [z1 z2]. cbn in X21, X20. subst. reflexivity. }
  (* after the allocation *)
  assert (E1 : q_lexec A q_t1 (q_M1 A) q_blk1).
  { apply (l_alloc A wL 1 q_rs q_off q_keep [] (q_M0 A) q_blk0 1 7 q_b); [|exact BO|].
    - apply l_start; cbn [q_M0 m_lo m_hi].
      + intros t. destruct W0. split; assumption.
      + intros c _. unfold q_blk0, q_thr, whole, blk_lo, blk_hi. cbn [pa_sctx sc_sp sc_size]. change (ab_cpu (p_abi A)) with (cpu_of A). lia.
      + intros c d H1 H2 N. exfalso. lia.
    - intros d _. unfold bdisj, q_b, q_blk0, q_thr, whole, blk_lo, blk_hi. cbn [pa_sctx sc_sp sc_size]. lia. }
  assert (ETA : cpu_at (q_M1 A) 0 = c0 A) by reflexivity.
  assert (NS1 : forall h, ~ suspended q_t1 h).
  { intros h ((t & f & to & k & [Q|[]] & _) & _). discriminate. }
  assert (NR1 : forall c, ~ has_record q_t1 c).
  { intros c ((t & f & m & to & [Q|[]] & _) & _). discriminate. }
  (* construction *)
  destruct (C53_create A wL 1 q_rs q_off q_keep q_s _ 0 0 (mk_fc 0 1) (mk_fc 1 0) q_t1 (q_M1 A) q_blk1 IN LAB KO RE R1 E1) as (k1 & RM & _ & _ & _ & _ & JU).
  { cbn [fc_ctx]. rewrite REC, ETA. exact X24. }
  { rewrite ETA. exact X23. }
  { rewrite ETA. exact X22. }
  { cbn [fc_ctx]. rewrite REC. exact SC. }
  cbn [fc_ctx] in JU. rewrite ETA in RM, JU. rewrite REC in JU.
  assert (EV : k1 = r0 A) by (unfold r0; change (ab_cpu (p_abi A)) with (cpu_of A); rewrite RM; reflexivity). subst k1.
  assert (B0 : forall a, 0 <= mm (r0 A) a < 256).
  { assert (MK : make_ok A (c0 A)).
    { destruct (create_facts A wL 1 q_rs q_off q_keep IN LAB KO q_t1 (q_M1 A) q_blk1 0 0 (mk_fc 0 1) (mk_fc 1 0)) as (_ & _ & _ & _ & MK & _).
      - apply (good_app 1 (firstn 13 (s_tr q_s))). rewrite <- R1. apply good_reach. exact RE.
      - apply (lexec_inv A wL 1 q_rs q_off q_keep IN LAB KO); [exact E1|]. apply (good_app 1 (firstn 14 (s_tr q_s))). exact (eq_rect _ (good 1) (good_reach _ _ RE) _ eq_refl).
      - rewrite ETA. cbn [fc_ctx]. change (q_blk1 1%nat) with q_b. rewrite X17. exact X24.
      - rewrite ETA. exact X23.
      - rewrite ETA. exact X22.
      - exact MK. }
    destruct (C27_make_returns A wL (c0 A) IN LAB MK) as (k2 & RM2 & _ & _ & _ & Wk). rewrite RM in RM2. injection RM2 as <-. apply Wk. }
  assert (OUT1 : forall a, ~ (0x8000 <= a < 0xa000) -> mm (c1 A) a = mm (r0 A) a).
  { intros a Ha. unfold c1. cbn [call_st mm]. destruct (_ && _) eqn:Q; [|reflexivity]. rewrite andb_true_iff, Z.leb_le, Z.ltb_lt in Q. lia. }
  assert (CS1 : call_ok A wL (c1 A)) by (apply call_okb_ok; [apply WC; exact B0|exact X12]).
  destruct (JU (c1 A)) as (u1 & M1' & SW1 & _ & _ & _ & _ & _ & _).
  { apply WC. exact B0. }
  { intros h a Q. exfalso. apply (NS1 _ Q). }
  { intros a Ha. apply OUT1. lia. }
  { intros e a [Q| ->] K; [exfalso; apply (NR1 _ Q)|]. rewrite REC in K. unfold q_keep in K. apply OUT1. lia. }
  { exact CS1. }
  { rewrite X15. exact X10. }
  { exact X9. }
  { apply on_stackb_ok. exact X11. }
  assert (EU : u1 = r1 A) by (unfold r1; rewrite SW1; reflexivity). subst u1.
  assert (Ea : q_lexec A q_t2 (q_Ma A) q_blk1).
  { eapply (l_create A wL 1 q_rs q_off q_keep q_t1 (q_M1 A) q_blk1 0 0 (mk_fc 0 1) (mk_fc 1 0) _ (r0 A) (c1 A) _ (r1 A) E1); try (rewrite ?ETA; cbn [fc_ctx]; rewrite ?REC).
    - lia.
    - exact SC.
    - change (q_blk1 1%nat) with q_b. rewrite X17. exact X24.
    - exact X23.
    - exact X22.
    - exact RM.
    - apply WC. exact B0.
    - intros h a Q. exfalso. apply (NS1 _ Q).
    - intros a Ha. apply OUT1. rewrite X15 in Ha. lia.
    - intros e a [Q| ->] K; [exfalso; apply (NR1 _ Q)|]. rewrite REC in K. unfold q_keep in K. apply OUT1. lia.
    - exact CS1.
    - rewrite X15. exact X10.
    - exact X9.
    - apply on_stackb_ok. exact X11.
    - exact SW1. }
  (* memory is bytes in every such state *)
  assert (BY : forall new old M, s_tr q_s = new ++ old -> q_lexec A old M q_blk1 -> forall a, 0 <= m_mem M a < 256).
  { intros new old M Q XX. assert (GG : good 1 old) by (apply (good_app 1 new); rewrite <- Q; apply good_reach; exact RE).
    apply (v_byte A wL 1 old M). apply exec_minv; auto. apply (q_exec _ _ _ _ _ _ _ _ (lexec_inv A wL 1 q_rs q_off q_keep IN LAB KO _ _ _ XX GG)). }
  (* code on the stack of context k *)
  assert (CODE : forall new old M m lo hi spv args, s_tr q_s = new ++ old -> q_lexec A old M q_blk1 ->
    m_lo M (running old 0) = lo -> m_hi M (running old 0) = hi -> m_mem M = m ->
    q_lexec A old (put_code M 0 (call_st A m lo hi spv args)) q_blk1).
  { intros new old M m lo hi spv args Q XX El Eh Em.
    apply (C53_code_on_own_stack A wL 1 q_rs q_off q_keep q_s new old M q_blk1 0 _ IN LAB KO RE Q XX); [lia| |].
    - apply WC. rewrite <- Em. exact (BY new old M Q XX).
    - intros a c _ _ Ha. rewrite El, Eh in Ha. cbn [call_st mm]. destruct (_ && _) eqn:Q2; [|rewrite Em; reflexivity].
      rewrite andb_true_iff, Z.leb_le, Z.ltb_lt in Q2. lia. }
  assert (R2' : s_tr q_s = firstn 13 (s_tr q_s) ++ q_t2) by reflexivity.
  assert (E2 : q_lexec A q_t2 (q_M2 A) q_blk1).
  { apply (CODE (firstn 13 (s_tr q_s)) q_t2 (q_Ma A)); [reflexivity|exact Ea|exact X16|exact X17|reflexivity]. }
  assert (LO2 : m_lo (q_M2 A) 1 = 0x4000) by exact X16. assert (HI2 : m_hi (q_M2 A) 1 = 0x5fc0) by exact X17.
  assert (EX2 : exec A wL 1 q_t2 (q_M2 A)) by (eapply (C53_refines A wL 1 q_rs q_off q_keep q_s (firstn 13 (s_tr q_s)) q_t2); eauto).
  assert (CS2 : call_ok A wL (c2 A)) by (apply call_okb_ok; [apply WC; exact (BY (firstn 13 (s_tr q_s)) q_t2 (q_Ma A) eq_refl Ea)|exact X8]).
  assert (EQ2 : cpu_at (q_M2 A) 0 = c2 A) by reflexivity.
  destruct (C52_resume A wL 1 q_s _ 0 1 (mk_fc 1 1) (mk_fc 0 1) q_t2 (q_M2 A) IN LAB RE R2 EX2) as (u2 & (SW2 & _) & _).
  { rewrite EQ2. exact CS2. }
  { rewrite EQ2. exact X6. }
  { rewrite EQ2, LO2, HI2. apply on_stackb_ok. exact X7. }
  rewrite EQ2 in SW2. assert (EU : u2 = r2 A) by (unfold r2; rewrite SW2; reflexivity). subst u2.
  assert (Eb : q_lexec A q_t3 (q_Mb A) q_blk1).
  { unfold q_t3. apply l_event; [|exact Logic.I]. apply l_event; [|exact Logic.I].
    eapply (l_switch A wL 1 q_rs q_off q_keep q_t2 (q_M2 A) q_blk1 0 1 (mk_fc 1 1) (mk_fc 0 1) SwJump); try (rewrite EQ2); try discriminate.
    - exact E2.
    - lia.
    - exact CS2.
    - exact X6.
    - rewrite LO2, HI2. apply on_stackb_ok. exact X7.
    - exact SW2. }
  assert (E3 : q_lexec A q_t3 (q_M3 A) q_blk1).
  { apply (CODE (firstn 10 (s_tr q_s)) q_t3 (q_Mb A)); [reflexivity|exact Eb|reflexivity|reflexivity|reflexivity]. }
  assert (EX3 : exec A wL 1 q_t3 (q_M3 A)) by (eapply (C53_refines A wL 1 q_rs q_off q_keep q_s (firstn 10 (s_tr q_s)) q_t3); eauto).
  assert (CS3 : call_ok A wL (c3 A)) by (apply call_okb_ok; [apply WC; exact (BY (firstn 10 (s_tr q_s)) q_t3 (q_Mb A) eq_refl Eb)|exact X5]).
  assert (EQ3 : cpu_at (q_M3 A) 0 = c3 A) by reflexivity.
  destruct (C52_resume A wL 1 q_s _ 0 0 (mk_fc 0 2) (mk_fc 1 1) q_t3 (q_M3 A) IN LAB RE R3 EX3) as (u3 & (SW3 & _) & _).
  { rewrite EQ3. exact CS3. }
  { rewrite EQ3. exact X3. }
  { rewrite EQ3. apply on_stackb_ok. exact X4. }
  rewrite EQ3 in SW3. assert (EU : u3 = r3 A) by (unfold r3; rewrite SW3; reflexivity). subst u3.
  assert (Ec : q_lexec A q_t4 (q_Mc A) q_blk1).
  { unfold q_t4. do 4 (apply l_event; [|exact Logic.I]).
    eapply (l_switch A wL 1 q_rs q_off q_keep q_t3 (q_M3 A) q_blk1 0 0 (mk_fc 0 2) (mk_fc 1 1) SwJump); try (rewrite EQ3); try discriminate.
    - exact E3.
    - lia.
    - exact CS3.
    - exact X3.
    - apply on_stackb_ok. exact X4.
    - exact SW3. }
  assert (E4 : q_lexec A q_t4 (q_M4 A) q_blk1).
  { apply (CODE (firstn 5 (s_tr q_s)) q_t4 (q_Mc A)); [reflexivity|exact Ec|exact X16|exact X17|reflexivity]. }
  assert (CS4 : call_ok A wL (c4 A)) by (apply call_okb_ok; [apply WC; exact (BY (firstn 5 (s_tr q_s)) q_t4 (q_Mc A) eq_refl Ec)|exact X2]).
  assert (EQ4 : cpu_at (q_M4 A) 0 = c4 A) by reflexivity.
  split; [exact LAB|]. split; [exact KO|]. split; [exact RE|]. split; [|split].
  - split; [exact R1|]. split; [exact E1|]. split; [exact REC|]. split; [exact X24|]. split; [exact X23|]. split; [exact X22|exact SC].
  - split; [exact R4|]. split; [exact E4|]. split; [exact EQ4|]. split; [exact CS4|]. split; [exact X0|]. split; [|exact X].
    apply on_stackb_ok. exact X1.
  - intros HO. split; [reflexivity|].
    destruct (C53_exit_releases_own_stack A wL 1 q_rs q_off q_keep q_s _ 0 1 (mk_fc 1 2) (mk_fc 0 2) q_t4 (q_M4 A) q_blk1 IN HO LAB KO RE R4 E4) as (u & M5 & _ & _ & _ & _ & _ & _ & _ & _ & X5').
    + rewrite EQ4. exact CS4.
    + rewrite EQ4. exact X0.
    + rewrite EQ4. change (m_lo (q_M4 A) 1) with (lo_bottom (lay A q_rs 1 q_b)). change (m_hi (q_M4 A) 1) with (lo_top (lay A q_rs 1 q_b)).
      rewrite X16, X17. apply on_stackb_ok. exact X1.
    + rewrite EQ4, REC. exact X.
    + exists M5. unfold q_t5. apply l_event; [exact X5'|exact Logic.I].
Qed.
