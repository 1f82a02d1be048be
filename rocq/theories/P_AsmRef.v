(** * What the assembler ports do not do

    Counterexamples, and proofs that the deviation always happens, for the places
    where the code of src/asm does not do what the calling convention of the
    platform or the property demands.  The theorems of P_Asm.v hold for these
    ports, too, because their [abi] records leave out what is refuted here. *)
From Coq Require Import ZArith List String Lia Bool.
From Verif Require Import Word AsmMachine AsmSym AsmAbi AsmCheck AsmCode AsmCode2 AsmFacts AsmHist P_Asm AsmWit.
Import ListNotations.
Open Scope Z_scope.

(** In some execution, a jump (or ontop) from [s2] to the context suspended in
    [s1] arrives in state [t], and [Q] holds. *)
Definition resumption (A : port) (k : how) (Q : (string -> Z) -> mst -> mst -> mst -> Prop) : Prop :=
  exists L s1 s2 pc t,
    labels_ok A L /\ call_ok A L s2 /\ context A L (mm s2) (arg_to A s2) (Susp s1) /\
    apart A s2 (arg_to A s2) (Susp s1) /\ switch A L k s2 = Goto pc t /\ Q L s1 s2 t.

(** In some execution, the first jump, from [s], to the context made in [s0]
    arrives in state [t], and [Q] holds. *)
Definition first_entry (A : port) (Q : (string -> Z) -> mst -> mst -> mst -> Prop) : Prop :=
  exists L s0 s pc t,
    labels_ok A L /\ call_ok A L s /\ context A L (mm s) (arg_to A s) (Made s0) /\
    apart A s (arg_to A s) (Made s0) /\ switch A L Jump s = Goto pc t /\ Q L s0 s t.

Definition okb (A : port) x0 x1 x2 : bool :=
  wit A x0 x1 x2 && apartb A (w1 A x0 x1) (arg_to A (w1 A x0 x1)) (Made (w0 A x0)) &&
  apartb A (w2 A x0 x1 x2) (arg_to A (w2 A x0 x1 x2)) (Susp (w1 A x0 x1)).

Lemma resumed A k x0 x1 x2 (Q : (string -> Z) -> mst -> mst -> mst -> Prop) :
  okb A x0 x1 x2 && goes (switch A wL k (w2 A x0 x1 x2)) = true ->
  Q wL (w1 A x0 x1) (w2 A x0 x1 x2) (st_of (switch A wL k (w2 A x0 x1 x2))) -> resumption A k Q.
Proof.
  intros H HQ. apply andb_true_iff in H as [H G]. apply andb_true_iff in H as [H A2].
  apply andb_true_iff in H as [W A1].
  destruct (witness0 A x0 x1 x2 W A1 A2) as (L & _ & _ & _ & C2 & CX & AP & _).
  exists wL, (w1 A x0 x1), (w2 A x0 x1 x2), (pc_of (switch A wL k (w2 A x0 x1 x2))),
    (st_of (switch A wL k (w2 A x0 x1 x2))).
  split; [exact L|]. split; [exact C2|]. split; [exact CX|]. split; [exact AP|].
  split; [apply goes_ok; exact G|exact HQ].
Qed.

Lemma entered A x0 x1 (Q : (string -> Z) -> mst -> mst -> mst -> Prop) :
  okb A x0 x1 [] = true -> Q wL (w0 A x0) (w1 A x0 x1) (v1 A x0 x1) -> first_entry A Q.
Proof.
  intros H HQ. apply andb_true_iff in H as [H A2]. apply andb_true_iff in H as [W A1].
  destruct (witness0 A x0 x1 [] W A1 A2) as (L & _ & _ & (C1 & CX & AP & SW) & _).
  exists wL, (w0 A x0), (w1 A x0 x1), (pc_of (switch A wL Jump (w1 A x0 x1))), (v1 A x0 x1). auto 10.
Qed.

(** ** C26: registers that a resumed call does not find as it left them *)

(** MIPS n64: gp (register 28) is callee-saved, but jump and ontop do not save it
    (make_mips64 and finish use its slot, jump_mips64_n64_elf_gas.S:59-69 does
    not). *)
Theorem C26_mips64_gp_refuted big hard :
  resumption (port_mips64 big hard) Jump (fun _ s1 _ t => rg t "gp" <> rg s1 "gp").
Proof.
  apply (resumed _ _ [] [("gp"%string, 11)] [("gp"%string, 22)]);
    destruct big, hard; vm_compute; congruence.
Qed.

(** PowerPC 64, ELFv2: f14-f31 are callee-saved, but neither jump nor ontop
    touches a floating-point register. *)
Theorem C26_ppc64_fpr_refuted big :
  resumption (port_ppc64 big) Jump (fun _ s1 _ t => rg t "f14" <> rg s1 "f14").
Proof.
  apply (resumed _ _ [] [("f14"%string, 11)] [("f14"%string, 22)]); destruct big; vm_compute; congruence.
Qed.

(** Microsoft x64 with BOOST_USE_TSX: xmm6-xmm15 are callee-saved, but the option
    removes the instructions that save them together with those for the control
    words (jump_x86_64_ms_pe_clang_gas.S:103-118). *)
Theorem C26_x64_ms_tsx_refuted masm :
  resumption (port_x64_ms false masm) Jump (fun _ s1 _ t => rg t "xmm6" <> rg s1 "xmm6").
Proof.
  apply (resumed _ _ [] [("xmm6"%string, 11)] [("xmm6"%string, 22)]); destruct masm; vm_compute; congruence.
Qed.

(** Windows on arm: d8-d15 are callee-saved, but are not saved. *)
Theorem C26_arm_pe_fp_refuted :
  resumption (port_arm_pe false) Jump (fun _ s1 _ t => rg t "d8" <> rg s1 "d8").
Proof. apply (resumed _ _ [] [("d8"%string, 11)] [("d8"%string, 22)]); vm_compute; congruence. Qed.

(** ** C27: make and the first entry *)

Section Entry.
  Variable A : port.
  Variable off : Z.
  Hypothesis IN : In A ports.
  Hypothesis OFF : match fresh_s A with Some (T, _) => ent_off A T | None => off - 1 end = off.

  Lemma entry_sp L s0 s pc t :
    labels_ok A L -> call_ok A L s -> context A L (mm s) (arg_to A s) (Made s0) ->
    apart A s (arg_to A s) (Made s0) -> switch A L Jump s = Goto pc t ->
    exists top, top mod c_mkal (p_code A) = 0 /\ sp A t = top - c_size (p_code A) + off.
  Proof.
    intros LAB CS CX AP SW. pose proof (port_checked A IN) as CHK.
    destruct (context_facts A L LAB CHK _ _ _ CX) as (M0 & HD & t0 & T0 & f0 & E0 & SM0 & MEM).
    rewrite HD in MEM, AP.
    destruct (jump_fresh A L LAB CHK s0 t0 s T0 f0 M0 E0 SM0 CS HD MEM AP)
      as (t' & T & FS & _ & SW' & _ & _ & _ & SPT & _).
    rewrite SW in SW'. injection SW' as _ <-. rewrite FS in OFF.
    destruct (top_range A L CHK s0 M0) as (_ & _ & AL & _).
    exists (aligned_top A L s0). split; [exact AL|]. rewrite SPT, OFF. reflexivity.
  Qed.
End Entry.

(** Darwin/i386 demands that esp + 4 is a multiple of 16 at function entry;
    context-functions are always entered 8 bytes off (the frame was copied from
    ELF, where the hidden pointer takes 4 bytes more, but leal 0x1c and the push
    of the trampoline were not adjusted). *)
Theorem C27_x86_macho_alignment_refuted cw L s0 s pc t :
  let A := port_x86_macho cw in
  labels_ok A L -> call_ok A L s -> context A L (mm s) (arg_to A s) (Made s0) ->
  apart A s (arg_to A s) (Made s0) -> switch A L Jump s = Goto pc t ->
  (sp A t + 4) mod 16 = 8.
Proof.
  intros A LAB CS CX AP SW.
  assert (IN : In A ports) by (unfold A, ports; destruct cw; simpl; auto 50).
  assert (OFF : match fresh_s A with Some (T, _) => ent_off A T | None => 0x18 - 1 end = 0x18)
    by (destruct cw; vm_compute; reflexivity).
  destruct (entry_sp A 0x18 IN OFF L s0 s pc t LAB CS CX AP SW) as (top & AL & E).
  change (c_size (p_code A)) with 0x34 in E. change (c_mkal (p_code A)) with 16 in AL. rewrite E.
  replace (top - 0x34 + 0x18 + 4) with (8 + (top + -32)) by lia.
  rewrite Z.add_mod, (Z.add_mod top) by lia. rewrite AL. reflexivity.
Qed.

(** Darwin/ppc32 demands that r1 is a multiple of 16; it always is 4 modulo 16
    (the frame is 244 bytes). *)
Theorem C27_ppc32_macho_alignment_refuted L s0 s pc t :
  let A := port_ppc32_macho in
  labels_ok A L -> call_ok A L s -> context A L (mm s) (arg_to A s) (Made s0) ->
  apart A s (arg_to A s) (Made s0) -> switch A L Jump s = Goto pc t ->
  sp A t mod 16 = 4.
Proof.
  intros A LAB CS CX AP SW.
  assert (IN : In A ports) by (unfold A, ports; simpl; auto 50).
  assert (OFF : match fresh_s A with Some (T, _) => ent_off A T | None => 244 - 1 end = 244)
    by (vm_compute; reflexivity).
  destruct (entry_sp A 244 IN OFF L s0 s pc t LAB CS CX AP SW) as (top & AL & E).
  change (c_size (p_code A)) with 336 in E. change (c_mkal (p_code A)) with 16 in AL. rewrite E.
  replace (top - 336 + 244) with (4 + (top + -96)) by lia.
  rewrite Z.add_mod, (Z.add_mod top) by lia. rewrite AL. reflexivity.
Qed.

(** both have executions *)
Example alignment_hypotheses_met :
  first_entry (port_x86_macho true) (fun _ _ _ _ => True) /\ first_entry (port_x86_macho false) (fun _ _ _ _ => True) /\
  first_entry port_ppc32_macho (fun _ _ _ _ => True).
Proof. split; [|split]; apply (entered _ [] []); vm_compute; auto. Qed.

(** x86_64 with BOOST_CONTEXT_TLS_STACK_PROTECTOR: make_fcontext stores the stack
    guard into the frame of its caller (8(%rsp), the word above the return
    address), ... *)
Theorem C27_x64_guard_refuted :
  let A := port_x64_guard in
  exists L s t a, labels_ok A L /\ make_ok A s /\
    run (cpu_of A) L (c_make (p_code A)) s = Goto (ret_addr A s) t /\
    sp A s + 8 <= a < sp A s + 16 /\ mm t a <> mm s a.
Proof.
  cbv zeta. set (x := [("fs28"%string, 0x1122334455667788)]).
  assert (OK : okb port_x64_guard x [] [] = true) by (vm_compute; reflexivity).
  apply andb_true_iff in OK as [OK A2]. apply andb_true_iff in OK as [W A1].
  destruct (witness0 _ _ _ _ W A1 A2) as (L & M & R & _).
  exists wL, (w0 port_x64_guard x), (v0 port_x64_guard x), (sp port_x64_guard (w0 port_x64_guard x) + 8).
  split; [exact L|]. split; [exact M|]. split; [exact R|]. split; [lia|]. vm_compute. congruence.
Qed.

(** ... and a new context does not get its creator's stack guard but whatever was
    on its stack. *)
Theorem C30_x64_guard_refuted :
  first_entry port_x64_guard (fun _ s0 _ t => rg t "fs28" <> rg s0 "fs28").
Proof.
  apply (entered _ [("fs28"%string, 0x1122334455667788)] []); [vm_compute; reflexivity|].
  vm_compute. congruence.
Qed.

(** ** C28: ontop *)

(** Windows on arm64: 0xd0 bytes are pushed, but 0xc0 are popped, so the function
    runs, and then the resumed call returns, with a stack pointer that is 16 too
    low. *)
Theorem C28_arm64_pe_refuted :
  let A := port_arm64_pe true in
  resumption A Ontop (fun _ s1 s2 t => sp A t = sp A s1 - 16).
Proof. apply (resumed _ _ [] [] []); vm_compute; reflexivity. Qed.

(** Windows on arm: the register with the handle of the caller is used as scratch
    register for the thread information block before the handle is stored, so the
    function gets a wrong handle; and stack base and deallocation stack are
    exchanged. *)
Theorem C28_arm_pe_refuted :
  let A := port_arm_pe true in
  resumption A Ontop (fun _ s1 s2 t =>
    fst (pair_at A t (ab_ont (p_abi A))) <> handle A s2 /\
    rg t "tib04" = rg s1 "tibe0c" /\ rg t "tibe0c" = rg s1 "tib04" /\ rg s1 "tib04" <> rg s1 "tibe0c").
Proof.
  apply (resumed _ _ [] [("tib04"%string, 0xa000); ("tibe0c"%string, 0x8000)] []); vm_compute;
    repeat split; congruence.
Qed.

(** ** C30: control words *)

Definition tsx_ports : list port :=
  [port_x64_elf false; port_x64_macho false; port_x64_ms false false; port_x64_ms false true;
   port_x64_cet false; port_x86 false false; port_x86 false true; port_x86_macho false; port_x86_ms false].

(** With BOOST_USE_TSX the control words are not switched: a resumed context goes
    on with those of the context that resumed it. *)
Theorem C30_tsx_refuted A :
  In A tsx_ports ->
  resumption A Jump (fun _ s1 s2 t =>
    (rg t "mxcsr" <> rg s1 "mxcsr" /\ rg t "mxcsr" = rg s2 "mxcsr") /\
    (rg t "x87cw" <> rg s1 "x87cw" /\ rg t "x87cw" = rg s2 "x87cw")).
Proof.
  intros I. unfold tsx_ports in I. simpl in I.
  repeat (destruct I as [<-|I];
    [apply (resumed _ _ [] [("mxcsr"%string, 0x1f80); ("x87cw"%string, 0x37f)]
                           [("mxcsr"%string, 0x9fc0); ("x87cw"%string, 0x27f)]); vm_compute; repeat split; congruence|]).
  destruct I.
Qed.

(** ** C40: after the context-function returned *)

(** mips64: [finish] takes gp from memory below the stack pointer, which the
    context-function may have used; then the call of _exit goes astray.  [u] is a
    state in which a context-function that was entered in [t] may return. *)
Theorem C40_mips64_refuted big hard :
  let A := port_mips64 big hard in
  first_entry A (fun L s0 s t => exists u,
    wf (cpu_of A) u /\ sp A u = sp A t + ab_pop0 (p_abi A) /\
    64 <= sp A u /\ sp A u + 64 <= space (cpu_of A) /\
    (forall a, sp A u + ab_home (p_abi A) <= a < arg_to A s + c_size (p_code A) -> mm u a = mm t a) /\
    run (cpu_of A) L (c_finish (p_code A)) u = Stuck).
Proof.
  cbv zeta. set (A := port_mips64 big hard).
  assert (OK : okb A [] [] [] = true) by (unfold A; destruct big, hard; vm_compute; reflexivity).
  apply (entered A [] []); [exact OK|].
  set (t := v1 A [] []).
  assert (Wt : wf (cpu_of A) t).
  { apply andb_true_iff in OK as [OK A2]. apply andb_true_iff in OK as [W A1].
    destruct (witness0 _ _ _ _ W A1 A2) as (_ & _ & _ & ((W1 & _) & _ & _ & SW) & _).
    exact (switch_wf A [] [] [] W Jump _ _ _ W1 SW). }
  exists (St (rg t) (fun a => if a <? sp A t then 9 else mm t a)).
  assert (SPE : sp A t = 0x6000) by (unfold t, A; destruct big, hard; vm_compute; reflexivity).
  assert (SPU : forall m, sp A (St (rg t) m) = 0x6000) by (intros m; exact SPE).
  rewrite !SPU, SPE.
  split.
  { destruct Wt as [B1 B2]. split; [|exact B2]. intros a. cbn [mm]. destruct (a <? _); [lia|apply B1]. }
  split; [reflexivity|]. split; [lia|].
  split; [unfold A; destruct big, hard; vm_compute; congruence|].
  split.
  { intros a Ha. cbn [mm]. replace (a <? 0x6000) with false; [reflexivity|].
    symmetry. apply Z.ltb_ge. change (ab_home (p_abi A)) with 0 in Ha. lia. }
  unfold t, A. destruct big, hard; vm_compute; reflexivity.
Qed.

(** x86_64 with shadow stacks: if the context-function returns, control comes back
    to "jmp *%rbp" and from there, since rbp holds the address of "jmp
    trampoline", to the trampoline, which enters the context-function again.  [u]
    is any state in which the context-function, entered in [t], returns as the
    calling convention demands. *)
Theorem C40_x64_cet_refuted cw L s0 s pc t u :
  let A := port_x64_cet cw in
  labels_ok A L -> call_ok A L s -> context A L (mm s) (arg_to A s) (Made s0) ->
  apart A s (arg_to A s) (Made s0) -> switch A L Jump s = Goto pc t ->
  wf (cpu_of A) u -> sp A u = sp A t + ab_pop0 (p_abi A) ->
  (forall r, In r (ab_saved (p_abi A)) -> rg u r = rg t r) ->
  pc = mk_fn A s0 /\ ret_addr A t = L "finish"%string /\
  run (cpu_of A) L (c_finish (p_code A)) u = Goto (L "jmp trampoline"%string) u /\
  exists t', run (cpu_of A) L (c_tramp (p_code A)) u = Goto (mk_fn A s0) t' /\
             sp A t' = sp A t /\ ret_addr A t' = L "finish"%string.
Proof.
  intros A LAB CS CX AP SW W SPU SV.
  assert (IN : In A ports) by (unfold A, ports; destruct cw; simpl; auto 50).
  pose proof (port_checked A IN) as CHK.
  destruct (context_facts A L LAB CHK _ _ _ CX) as (M0 & HD & t0 & T0 & f0 & E0 & SM0 & MEM).
  rewrite HD in MEM, AP.
  destruct (jump_fresh A L LAB CHK s0 t0 s T0 f0 M0 E0 SM0 CS HD MEM AP)
    as (t' & T & FS & SM & SW' & Wt & _ & RET & SPT & OFF & _).
  rewrite SW in SW'. injection SW' as -> <-. split; [reflexivity|]. split; [exact RET|].
  assert (RBX : rg t "rbx" = mk_fn A s0).
  { rewrite (proj1 SM).
    assert (G : get T "rbx" = (RVar (RReg "rdx"), 0)).
    { assert (Q : option_map (fun x => get (fst x) "rbx"%string) (fresh_s A) = Some (RVar (RReg "rdx"), 0))
        by (unfold A; destruct cw; vm_compute; reflexivity).
      rewrite FS in Q. injection Q as Q. exact Q. }
    rewrite G. rewrite evs0. reflexivity. }
  assert (RBP : rg t "rbp" = L "jmp trampoline"%string).
  { rewrite (proj1 SM).
    assert (G : get T "rbp" = (RLab "jmp trampoline", 0)).
    { assert (Q : option_map (fun x => get (fst x) "rbp"%string) (fresh_s A) = Some (RLab "jmp trampoline"%string, 0))
        by (unfold A; destruct cw; vm_compute; reflexivity).
      rewrite FS in Q. injection Q as Q. exact Q. }
    rewrite G. rewrite evs0. reflexivity. }
  assert (UX : rg u "rbx" = mk_fn A s0) by (rewrite SV; [exact RBX|simpl; auto]).
  assert (UP : rg u "rbp" = L "jmp trampoline"%string) by (rewrite SV; [exact RBP|simpl; auto]).
  split.
  { change (c_finish (p_code A)) with finish_x64_cet. unfold finish_x64_cet. cbn [run]. rewrite UP. reflexivity. }
  change (c_tramp (p_code A)) with tramp_x64_cet. change (cpu_of A) with cpu_x64 in *.
  change (ab_pop0 (p_abi A)) with 8 in SPU.
  assert (R : 0 <= sp A t < 256 ^ 8) by exact (proj2 Wt "rsp"%string).
  assert (R' : 0 <= sp A u < 256 ^ 8) by exact (proj2 W "rsp"%string).
  assert (LF : 0 <= L "finish"%string < 256 ^ 8) by exact (LAB "finish"%string).
  assert (US : rg u "rsp" = sp A t + 8) by exact SPU.
  assert (SPC : space cpu_x64 = 256 ^ 8) by reflexivity.
  unfold tramp_x64_cet. cbn [run step1 set_reg rg mm ea].
  unfold ea. cbn [rg set_reg String.eqb Ascii.eqb Bool.eqb].
  change (rw cpu_x64 "rsp") with 8. change (rw cpu_x64 "tmp") with 8. rewrite SPC, US.
  replace (sp A t + 8 + -8) with (sp A t) by lia. rewrite Z.add_0_r.
  rewrite !(Z.mod_small (sp A t)) by lia.
  rewrite (Z.mod_small (L "finish"%string)) by lia.
  replace (sp A t + 8 <=? 256 ^ 8) with true by (symmetry; apply Z.leb_le; unfold sp in *; lia).
  change (8 <? 16) with true. cbn [andb orb].
  eexists. split; [cbn [rg]; rewrite <- UX; reflexivity|]. split; [reflexivity|].
  unfold ret_addr. cbn [pl ab_ret p_abi A port_x64_cet abi_x64 ab_cpu].
  change (ab_sp (abi_x64 cw)) with "rsp"%string. cbn [rg mm String.eqb Ascii.eqb Bool.eqb].
  rewrite SPC, Z.add_0_r, Z.mod_small by lia. rewrite load_store_same by lia. apply Z.mod_small. exact LF.
Qed.

Example cet_hypotheses_met cw : first_entry (port_x64_cet cw) (fun _ _ _ _ => True).
Proof. apply (entered _ [] []); destruct cw; vm_compute; auto. Qed.
