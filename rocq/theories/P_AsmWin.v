(** * C43: the thread information block on Windows

    The Windows ports keep the fields of the thread information block that
    describe the stack (base, limit, deallocation stack), the fiber-local data
    and, on i386, the list of exception handlers, per context. *)
From Coq Require Import ZArith List String Lia Bool.
From Verif Require Import Word AsmMachine AsmSym AsmAbi AsmCheck AsmCode AsmCode2 AsmFacts AsmHist P_Asm AsmWit P_AsmRef.
Import ListNotations.
Open Scope Z_scope.

(** the fields, by offset in the block, and where make_fcontext gets the size *)
Record tib := Tib {
  t_base : string; t_limit : string; t_dealloc : string;   (* the stack is [limit, base) *)
  t_other : list string;                                   (* fiber data, exception list *)
  t_size : place }.

Definition tib64 (p : place) : tib := Tib "tib08" "tib10" "tib1478" ["tib20"%string] p.

Definition windows : list (port * tib) :=
  [(port_x64_ms true false, tib64 (PReg "rdx")); (port_x64_ms true true, tib64 (PReg "rdx"));
   (port_x64_ms false false, tib64 (PReg "rdx")); (port_x64_ms false true, tib64 (PReg "rdx"));
   (port_arm64_pe false, tib64 (PReg "x1"));
   (port_x86_ms true, Tib "tib04" "tib08" "tibe0c" ["tib10"; "tib00"]%string (PMem "esp" 8 4));
   (port_x86_ms false, Tib "tib04" "tib08" "tibe0c" ["tib10"; "tib00"]%string (PMem "esp" 8 4));
   (port_arm_pe false, Tib "tib04" "tib08" "tibe0c" [] (PReg "a2"))].

Definition win_okb (x : port * tib) : bool :=
  let A := fst x in let w := snd x in
  place_ok A (t_size w) &&
  forallb (fun r => str_in r (ab_saved (p_abi A))) (t_base w :: t_limit w :: t_dealloc w :: t_other w) &&
  match fresh_s A with
  | Some (T, _) =>
      sval_eqb (get T (t_base w)) (RVar (vroot (ab_mksp (p_abi A))), 0) &&
      sval_eqb (get T (t_limit w)) (RVar (RSub (vroot (ab_mksp (p_abi A))) 0 (vroot (t_size w)) 0), 0) &&
      sval_eqb (get T (t_dealloc w)) (RVar (RSub (vroot (ab_mksp (p_abi A))) 0 (vroot (t_size w)) 0), 0)
  | None => false
  end.

Lemma windows_checked : forallb win_okb windows = true.
Proof. vm_compute. reflexivity. Qed.

Lemma windows_ports A w : In (A, w) windows -> In A ports.
Proof.
  intros H. unfold windows in H. simpl in H. unfold ports.
  repeat (destruct H as [H|H]; [injection H as <- _; simpl; auto 60|]). destruct H.
Qed.

(** A new context starts with the bounds of its own stack, [top - size, top), for
    the top and size that were given to make_fcontext. *)
Theorem C43_fresh_context_has_its_stack_bounds A w L s0 s pc t :
  In (A, w) windows -> labels_ok A L -> call_ok A L s ->
  context A L (mm s) (arg_to A s) (Made s0) -> apart A s (arg_to A s) (Made s0) ->
  switch A L Jump s = Goto pc t ->
  let size := pl (cpu_of A) s0 (t_size w) in
  size <= mk_top A s0 ->
  rg t (t_base w) = mk_top A s0 /\ rg t (t_limit w) = mk_top A s0 - size /\
  rg t (t_dealloc w) = mk_top A s0 - size.
Proof.
  intros I LAB CS CX AP SW size SZ. pose proof (windows_ports A w I) as IN.
  pose proof (port_checked A IN) as CHK.
  pose proof windows_checked as WC. rewrite forallb_forall in WC. specialize (WC _ I).
  destruct (context_facts A L LAB CHK _ _ _ CX) as (M0 & HD & t0 & T0 & f0 & E0 & SM0 & MEM).
  rewrite HD in MEM, AP.
  destruct (jump_fresh A L LAB CHK s0 t0 s T0 f0 M0 E0 SM0 CS HD MEM AP)
    as (t' & T & FS & SM & SW' & Wt & _).
  rewrite SW in SW'. injection SW' as -> <-.
  unfold win_okb in WC. cbn [fst snd] in WC. rewrite FS in WC.
  apply andb_true_iff in WC as [WC W1]. apply andb_true_iff in WC as [PO _].
  apply andb_true_iff in W1 as [W1 W3]. apply andb_true_iff in W1 as [W1 W2].
  apply sval_eqb_eq in W1, W2, W3.
  pose proof (make_in A CHK s0 M0) as MI.
  pose proof (proj1 (vroot_ev A L CHK V0 s0 _ MI (p_mksp A CHK))) as ET.
  pose proof (vroot_ev A L CHK V0 s0 _ MI PO) as [ES EW].
  fold (cpu_of A) in *. fold (mk_top A s0) in ET.
  assert (B : 0 <= size < space (cpu_of A)).
  { unfold size. rewrite <- ES. unfold space.
    pose proof (ev_range (cpu_of A) L V0 s0 (env0 A L LAB CHK s0 (proj1 M0)) (vroot (t_size w))) as R.
    rewrite EW in R. exact R. }
  assert (TB : mk_top A s0 < space (cpu_of A)) by (destruct M0 as (_ & _ & _ & M2 & _); apply M2).
  assert (LIM : ev (cpu_of A) L V0 s0 (RSub (vroot (ab_mksp (p_abi A))) 0 (vroot (t_size w)) 0) = mk_top A s0 - size).
  { cbn [ev]. rewrite ET. rewrite ES. fold size. rewrite !Z.add_0_r.
    rewrite (Z.mod_small (mk_top A s0)) by lia. rewrite (Z.mod_small size) by lia. apply Z.mod_small. lia. }
  rewrite !(proj1 SM), W1, W2, W3, !evs0. cbn [ev]. unfold V1.
  split; [exact ET|]. split; exact LIM.
Qed.

(** the field for the data of the running Windows fiber, where a port has it *)
Definition fiber_data : list (port * string) :=
  [(port_x64_ms true false, "tib20"); (port_x64_ms true true, "tib20");
   (port_x64_ms false false, "tib20"); (port_x64_ms false true, "tib20");
   (port_arm64_pe false, "tib20"); (port_x86_ms true, "tib10"); (port_x86_ms false, "tib10")]%string.
Definition fd_okb (x : port * string) : bool :=
  match fresh_s (fst x) with Some (T, _) => sval_eqb (get T (snd x)) (RCst, 0) | None => false end.
Lemma fd_checked : forallb fd_okb fiber_data = true.
Proof. vm_compute. reflexivity. Qed.
Lemma fd_ports A r : In (A, r) fiber_data -> In A ports.
Proof.
  intros H. unfold fiber_data in H. simpl in H. unfold ports.
  repeat (destruct H as [H|H]; [injection H as <- _; simpl; auto 60|]). destruct H.
Qed.

(** A new context starts without fiber data: it does not inherit its creator's or
    its first resumer's. *)
Theorem C43_fresh_context_has_no_fiber_data A L s0 s pc t r :
  In (A, r) fiber_data -> labels_ok A L -> call_ok A L s ->
  context A L (mm s) (arg_to A s) (Made s0) -> apart A s (arg_to A s) (Made s0) ->
  switch A L Jump s = Goto pc t -> rg t r = 0.
Proof.
  intros I LAB CS CX AP SW. pose proof (fd_ports A r I) as IN.
  pose proof (port_checked A IN) as CHK.
  pose proof fd_checked as WC. rewrite forallb_forall in WC. specialize (WC _ I).
  destruct (context_facts A L LAB CHK _ _ _ CX) as (M0 & HD & t0 & T0 & f0 & E0 & SM0 & MEM).
  rewrite HD in MEM, AP.
  destruct (jump_fresh A L LAB CHK s0 t0 s T0 f0 M0 E0 SM0 CS HD MEM AP)
    as (t' & T & FS & SM & SW' & Wt & _).
  rewrite SW in SW'. injection SW' as -> <-.
  unfold fd_okb in WC. cbn [fst snd] in WC. rewrite FS in WC. apply sval_eqb_eq in WC.
  rewrite (proj1 SM), WC, evs0. reflexivity.
Qed.

(** A resumed context gets its own values back, whatever the resumer's are. *)
Theorem C43_resumed_context_has_its_tib A w L s1 s2 pc t r :
  In (A, w) windows -> labels_ok A L -> call_ok A L s2 ->
  context A L (mm s2) (arg_to A s2) (Susp s1) -> apart A s2 (arg_to A s2) (Susp s1) ->
  switch A L Jump s2 = Goto pc t ->
  In r (t_base w :: t_limit w :: t_dealloc w :: t_other w) -> rg t r = rg s1 r.
Proof.
  intros I LAB CS CX AP SW R. pose proof (windows_ports A w I) as IN.
  pose proof windows_checked as WC. rewrite forallb_forall in WC. specialize (WC _ I).
  unfold win_okb in WC. cbn [fst snd] in WC. apply andb_true_iff in WC as [WC _].
  apply andb_true_iff in WC as [_ WC]. rewrite forallb_forall in WC.
  destruct (C26_jump_resumes_suspended_call A L s1 s2 IN LAB CS CX AP) as (t' & (SW' & _ & SV) & _).
  rewrite SW in SW'. injection SW' as _ <-. apply SV. apply str_in_ok. apply WC. exact R.
Qed.

(** On i386 a new context starts with a list of exception handlers of its own: one
    record inside its context data, marked as the last one, whose handler is the
    last one in the list of the creator ("lastseh": the result of the loop of
    make_i386_ms_pe_clang_gas.S:100-116). *)
Theorem C43_i386_fresh_exception_list cw L s0 s pc t :
  let A := port_x86_ms cw in
  labels_ok A L -> call_ok A L s ->
  context A L (mm s) (arg_to A s) (Made s0) -> apart A s (arg_to A s) (Made s0) ->
  switch A L Jump s = Goto pc t ->
  let e := rg t "tib00" in
  arg_to A s <= e /\ e + 8 <= arg_to A s + c_size (p_code A) /\
  load false (mm t) e 4 = 0xffffffff /\ load false (mm t) (e + 4) 4 = rg s0 "lastseh".
Proof.
  intros A LAB CS CX AP SW e.
  assert (IN : In A ports) by (unfold A, ports; destruct cw; simpl; auto 60).
  pose proof (port_checked A IN) as CHK.
  destruct (context_facts A L LAB CHK _ _ _ CX) as (M0 & HD & t0 & T0 & f0 & E0 & SM0 & MEM).
  rewrite HD in MEM, AP.
  destruct (jump_fresh A L LAB CHK s0 t0 s T0 f0 M0 E0 SM0 CS HD MEM AP)
    as (t' & T & FS & SM & SW' & Wt & _).
  rewrite SW in SW'. injection SW' as -> <-.
  destruct (fresh_tgt A L CHK s0 s CS HD) as [TE TW].
  destruct (top_range A L CHK s0 M0) as (T1 & T2 & _ & T4).
  assert (Q : option_map (fun x => (get (fst x) "tib00"%string,
                slook (known_fresh A) (sl (fst x)) (tgt A) 0x38 4, slook (known_fresh A) (sl (fst x)) (tgt A) 0x3c 4))
                (fresh_s A) = Some ((tgt A, 0x38), Some (RCst, 0xffffffff), Some (RVar (RReg "lastseh"), 0)))
    by (unfold A; destruct cw; vm_compute; reflexivity).
  rewrite FS in Q. injection Q as Q1 Q2 Q3.
  assert (TOP : mk_top A s0 < space (cpu_of A)) by (destruct M0 as (_ & _ & _ & M2 & _); apply M2).
  change (c_size (p_code A)) with 0x40 in *.
  assert (SPC : space (ab_cpu (p_abi A)) = 2 ^ 32) by reflexivity.
  assert (E : e = arg_to A s + 0x38).
  { unfold e. rewrite (proj1 SM), Q1. unfold evs. cbn [fst snd Z.eqb]. rewrite TE, HD, SPC.
    change (space (cpu_of A)) with (2 ^ 32) in TOP. apply Z.mod_small. lia. }
  rewrite E. split; [lia|]. split; [lia|].
  assert (OK : env_ok (ab_cpu (p_abi A)) L (V1 A L s0) s) by (apply fresh_env; auto).
  assert (RG : regions_ok (ab_cpu (p_abi A)) (reg_fresh A) L (V1 A L s0) s) by (eapply fresh_regions; eauto).
  assert (KN : known_ok (ab_cpu (p_abi A)) (known_fresh A) L (V1 A L s0) s) by (eapply fresh_known; eauto).
  assert (LD : forall o v, 0 <= o -> o + 4 <= 0x40 -> slook (known_fresh A) (sl T) (tgt A) o 4 = Some v ->
             load false (mm t) (arg_to A s + o) 4 = evs (ab_cpu (p_abi A)) L (V1 A L s0) s v).
  { intros o v O1 O2 SL. rewrite HD, <- TE.
    eapply (sim_load (ab_cpu (p_abi A)) (reg_fresh A)); eauto; [lia|].
    eapply in_region_intro; [unfold reg_fresh; right; left; reflexivity|lia|change (c_size (p_code A)) with 0x40; lia]. }
  split.
  - rewrite (LD 0x38 _ ltac:(lia) ltac:(lia) Q2). reflexivity.
  - replace (arg_to A s + 0x38 + 4) with (arg_to A s + 0x3c) by lia.
    rewrite (LD 0x3c _ ltac:(lia) ltac:(lia) Q3). rewrite evs0. reflexivity.
Qed.

(** every Windows port has such executions *)
Lemma win_okb_wit : forallb (fun x => okb (fst x) [] [] []) windows = true.
Proof. vm_compute. reflexivity. Qed.

Example windows_hypotheses_met A w : In (A, w) windows ->
  first_entry A (fun _ s0 _ _ => True) /\ resumption A Jump (fun _ _ _ _ => True).
Proof.
  intros I. pose proof win_okb_wit as H. rewrite forallb_forall in H. specialize (H _ I). cbn [fst] in H.
  split; [apply (entered A [] []); auto|].
  pose proof H as H'. unfold okb in H. apply andb_true_iff in H as [H A2]. apply andb_true_iff in H as [W A1].
  destruct (witness0 A _ _ _ W A1 A2) as (L & _ & _ & _ & C2 & CX & AP & SW).
  exists wL, (w1 A [] []), (w2 A [] [] []), (pc_of (switch A wL Jump (w2 A [] [] []))), (v2 A [] [] []).
  auto 10.
Qed.

(** ... and one in which the size is not larger than the top: 0x1000 of 0x6000 *)
Example windows_size_met :
  first_entry (port_x64_ms true false)
    (fun _ s0 _ t => pl cpu_x64 s0 (PReg "rdx") = 0x1000 /\ rg t "tib10" = 0x5000 /\ rg t "tib08" = 0x6000).
Proof. apply (entered _ [("rdx"%string, 0x1000)] []); vm_compute; auto. Qed.
