(** * PowerPC ports with function descriptors (ppc64 ELFv1, XCOFF) and ppc64 Mach-O

    What the theorems of P_Asm.v, which cover the first three, do not say: the TOC
    pointer r2, and where these ports deviate. *)
From Coq Require Import ZArith List String Lia Bool.
From Verif Require Import Word AsmMachine AsmSym AsmAbi AsmCheck AsmCode AsmCode2 AsmFacts AsmHist P_Asm AsmWit P_AsmRef.
Import ListNotations.
Open Scope Z_scope.

Definition desc_ports : list port := [port_ppc64d false; port_ppc64d true; port_ppc32_xcoff].
Lemma desc_in A : In A desc_ports -> In A ports.
Proof. unfold desc_ports, ports. intros [<-|[<-|[<-|[]]]]; simpl; auto 60. Qed.

(** A resumed context has its own TOC pointer, whoever resumes it. *)
Theorem C26_toc_pointer A L s1 s2 pc t :
  In A desc_ports -> labels_ok A L -> call_ok A L s2 ->
  context A L (mm s2) (arg_to A s2) (Susp s1) -> apart A s2 (arg_to A s2) (Susp s1) ->
  switch A L Jump s2 = Goto pc t -> rg t "r2" = rg s1 "r2".
Proof.
  intros I LAB CS CX AP SW. pose proof (port_checked A (desc_in A I)) as CHK.
  destruct (context_facts A L LAB CHK _ _ _ CX) as (CS1 & HD & HL).
  apply (jump_reg A L LAB CHK s2 s1 CS CS1 HD HL AP "r2" pc t); [|exact SW].
  destruct I as [<-|[<-|[<-|[]]]]; left; reflexivity.
Qed.

(** A context-function is entered at the entry point of its descriptor, with the
    TOC pointer of its descriptor. *)
Theorem C27_toc_pointer A L s0 s pc t :
  In A desc_ports -> labels_ok A L -> call_ok A L s ->
  context A L (mm s) (arg_to A s) (Made s0) -> apart A s (arg_to A s) (Made s0) ->
  switch A L Jump s = Goto pc t -> pc = rg s0 "r5.pc" /\ rg t "r2" = rg s0 "r5.toc".
Proof.
  intros I LAB CS CX AP SW. pose proof (port_checked A (desc_in A I)) as CHK.
  destruct (context_facts A L LAB CHK _ _ _ CX) as (M0 & HD & t0 & T0 & f0 & E0 & SM0 & MEM).
  rewrite HD in MEM, AP.
  destruct (jump_fresh A L LAB CHK s0 t0 s T0 f0 M0 E0 SM0 CS HD MEM AP)
    as (t' & T & FS & SM & SW' & _).
  rewrite SW in SW'. injection SW' as -> <-. rewrite (proj1 SM).
  destruct I as [<-|[<-|[<-|[]]]]; (split; [reflexivity|]);
    revert FS; clear; intros FS; vm_compute in FS; injection FS as <-; reflexivity.
Qed.

(** and so is a function run on top of a context *)
Theorem C28_toc_pointer A L s1 s2 pc t :
  In A desc_ports -> labels_ok A L -> call_ok A L s2 ->
  context A L (mm s2) (arg_to A s2) (Susp s1) -> apart A s2 (arg_to A s2) (Susp s1) ->
  switch A L Ontop s2 = Goto pc t -> pc = rg s2 "r6.pc" /\ rg t "r2" = rg s2 "r6.toc".
Proof.
  intros I LAB CS CX AP SW. pose proof (desc_in A I) as IN. pose proof (port_checked A IN) as CHK.
  destruct (context_facts A L LAB CHK _ _ _ CX) as (CS1 & HD & HL).
  assert (HO : has_ontop A) by (destruct I as [<-|[<-|[<-|[]]]]; discriminate).
  destruct (C28_ontop_enters_function_on_target A L s1 s2 IN HO LAB CS CX AP) as (t' & SW' & _).
  split.
  { rewrite SW in SW'. injection SW' as -> _. destruct I as [<-|[<-|[<-|[]]]]; reflexivity. }
  assert (E : exists T f, ontop_s A = Some (T, f) /\ get T "r2" = (RReg "r6.toc", 0)).
  { revert I. clear. intros I. destruct I as [<-|[<-|[<-|[]]]]; (eexists; eexists; split;
      [vm_compute; reflexivity|vm_compute; reflexivity]). }
  destruct E as (T & f & E & G).
  rewrite (ontop_val A L LAB CHK s2 s1 CS CS1 HD HL AP T f t pc "r2" _ E G SW).
  rewrite evs0. reflexivity.
Qed.

(** the hypotheses are met *)
Example toc_hypotheses_met A :
  In A desc_ports ->
  resumption A Jump (fun _ s1 s2 t => rg t "r2" = 0x1111 /\ rg s2 "r2" = 0x2222) /\
  first_entry A (fun _ _ s t => rg t "r2" = 0x3333 /\ rg s "r2" = 0x2222) /\
  resumption A Ontop (fun _ _ s2 t => rg t "r2" = 0x4444 /\ rg s2 "r2" = 0x2222).
Proof.
  intros I. destruct I as [<-|[<-|[<-|[]]]]; (split; [|split]).
  all: try (apply (resumed _ _ [] [("r2"%string, 0x1111)] [("r2"%string, 0x2222); ("r6.toc"%string, 0x4444)]);
            vm_compute; auto; fail).
  all: apply (entered _ [("r5.toc"%string, 0x3333)] [("r2"%string, 0x2222)]); vm_compute; auto.
Qed.

(** ** Deviations *)

(** f14-f31 are callee-saved, but the 64-bit ports touch no floating-point
    register. *)
Theorem C26_ppc64_descriptor_fpr_refuted xcoff :
  resumption (port_ppc64d xcoff) Jump (fun _ s1 _ t => rg t "f14" <> rg s1 "f14").
Proof.
  apply (resumed _ _ [] [("f14"%string, 11)] [("f14"%string, 22)]); destruct xcoff; vm_compute; congruence.
Qed.

(** A function may write its arguments and return address to the 112 bytes (AIX,
    32 bits: 56) above the stack pointer with which it was called: a linkage area
    of 48 (24) bytes and a parameter save area of 64 (32).  A context-function is
    always entered with only 64 (32) bytes between its stack pointer and the
    aligned top of its stack, so this area reaches 48 (24) bytes beyond: into
    what the fiber layer put there, or beyond the stack. *)
Theorem C27_ppc64_descriptor_area_refuted xcoff L s0 s pc t :
  let A := port_ppc64d xcoff in
  labels_ok A L -> call_ok A L s -> context A L (mm s) (arg_to A s) (Made s0) ->
  apart A s (arg_to A s) (Made s0) -> switch A L Jump s = Goto pc t ->
  exists top, top mod 16 = 0 /\ sp A t + 64 = top /\ sp A t + 112 = top + 48.
Proof.
  intros A LAB CS CX AP SW.
  assert (IN : In A ports) by (unfold A, ports; destruct xcoff; simpl; auto 60).
  assert (OFF : match fresh_s A with Some (T, _) => ent_off A T | None => 184 - 1 end = 184)
    by (destruct xcoff; vm_compute; reflexivity).
  destruct (entry_sp A 184 IN OFF L s0 s pc t LAB CS CX AP SW) as (top & AL & E).
  change (c_size (p_code A)) with 248 in E. exists top. split; [exact AL|]. rewrite E. lia.
Qed.

Theorem C27_ppc32_xcoff_area_refuted L s0 s pc t :
  let A := port_ppc32_xcoff in
  labels_ok A L -> call_ok A L s -> context A L (mm s) (arg_to A s) (Made s0) ->
  apart A s (arg_to A s) (Made s0) -> switch A L Jump s = Goto pc t ->
  exists top, top mod 16 = 0 /\ sp A t + 32 = top /\ sp A t + 56 = top + 24.
Proof.
  intros A LAB CS CX AP SW.
  assert (IN : In A ports) by (unfold A, ports; simpl; auto 60).
  assert (OFF : match fresh_s A with Some (T, _) => ent_off A T | None => 256 - 1 end = 256)
    by (vm_compute; reflexivity).
  destruct (entry_sp A 256 IN OFF L s0 s pc t LAB CS CX AP SW) as (top & AL & E).
  change (c_size (p_code A)) with 288 in E. exists top. split; [exact AL|]. rewrite E. lia.
Qed.

(** XCOFF, 32 bits: fpscr is switched, but make_fcontext does not put the value of
    the creator into the context data; a new context gets what was on its stack
    (and a zero in the first half, which "std 0, 244" reaches). *)
Theorem C30_ppc32_xcoff_refuted :
  first_entry port_ppc32_xcoff (fun _ s0 s t =>
    rg s0 "fpscr" = 0 /\ rg s "fpscr" = 0 /\ rg t "fpscr" <> 0).
Proof.
  apply (entered _ [("fpscr"%string, 0)] [("fpscr"%string, 0)]); [vm_compute; reflexivity|].
  vm_compute. repeat split; congruence.
Qed.

(** ** Mach-O, 64 bits *)

(** make_ppc64_sysv_macho_gas.S:73-112.  "clrrwi" clears the upper half of the
    register, too, and "stw" stores only the lower half of the address of the
    context-function. *)
Definition make_ppc64_macho : list instr :=
  [Mov "r6" "lr"; And "r3" "r3" 0xfffffff0; Add "r3" "r3" (-240);   (* 74-82 *)
   Sto 4 "r5" "r3" 176; Li "r0" 0; Sto 8 "r0" "r3" 184;             (* 85-89 *)
   Add "r0" "r3" 224; Mov "r4" "r0"; Sto 8 "r4" "r3" 152;           (* 92-94 *)
   Mov "r0" "lr"; La "lr" "l1"; Mov "r4" "lr"; Need "r4" "l1"; La "r4" "finish"; Mov "lr" "r0";   (* 97-105 *)
   Sto 8 "r4" "r3" 168; Mov "lr" "r6"; Go "lr"].                    (* 108-113 *)

(** jump_ppc64_sysv_macho_gas.S:75-162 *)
Definition jump_ppc64_macho : list instr :=
  [Add "r1" "r1" (-184)] ++ AsmCode.saves 8 "r1" (ppc64_gp ++ [("r3", 152)]) ++   (* 76-96 *)
  [Mov "r0" "cr"; Sto 8 "r0" "r1" 160; Mov "r0" "lr"; Sto 8 "r0" "r1" 168; Sto 8 "r0" "r1" 176;   (* 99-105 *)
   Mov "r6" "r1"; Mov "r1" "r4"] ++                                 (* 108-111 *)
  AsmCode.loads 8 "r1" (ppc64_gp ++ [("r3", 152)]) ++                       (* 113-131 *)
  [Ld 8 "r0" "r1" 160; Mov "cr" "r0"; Ld 8 "r0" "r1" 168; Mov "lr" "r0";   (* 134-138 *)
   Ld 8 "r12" "r1" 176; Mov "ctr" "r12"; Add "r1" "r1" 184] ++      (* 141-146 *)
  transfer_ppc 8.                                                   (* 149-166 *)

(** ontop_ppc64_sysv_macho_gas.S:74-152 *)
Definition ontop_ppc64_macho : list instr :=
  [Add "r1" "r1" (-184)] ++ AsmCode.saves 8 "r1" (ppc64_gp ++ [("r3", 152)]) ++   (* 76-96 *)
  [Mov "r0" "cr"; Sto 8 "r0" "r1" 160; Mov "r0" "lr"; Sto 8 "r0" "r1" 168; Sto 8 "r0" "r1" 176;   (* 99-105 *)
   Mov "r7" "r1"; Mov "r1" "r4"] ++                                 (* 108-111 *)
  AsmCode.loads 8 "r1" (ppc64_gp ++ [("r4", 152)]) ++                       (* 113-131 *)
  [Ld 8 "r0" "r1" 160; Mov "cr" "r0"; Ld 8 "r0" "r1" 168; Mov "lr" "r0";   (* 134-138 *)
   Add "r1" "r1" 184; Sto 8 "r7" "r4" 0; Sto 8 "r5" "r4" 8;         (* 142-146 *)
   Mov "ctr" "r6"; Go "ctr"].                                       (* 149-152 *)

(** make_ppc64_sysv_macho_gas.S:115-126; "stwu" stores a word *)
Definition finish_ppc64_macho : list instr :=
  [Mov "r0" "lr"; Sto 4 "r0" "r1" 8; Mov "r1'" "r1"; Add "r1" "r1" (-32); Sto 4 "r1'" "r1" 0;
   Li "r3" 0; Exit "r3"].

(** as [abi_ppc64d], but function pointers are addresses *)
Definition abi_ppc64_macho : abi := {|
  ab_cpu := cpu_64 true; ab_sp := "r1";
  ab_saved := names ppc64_gp ++ ["cr"%string]; ab_ctl := [];
  ab_ret := PReg "lr"; ab_pop := 0; ab_pop0 := 0; ab_up := 0; ab_wr := 0; ab_home := 64;
  ab_to := PReg "r4"; ab_data := PReg "r5"; ab_fn := PReg "r6";
  ab_hidden := Some (PReg "r3"); ab_hidret := Some "r3"%string; ab_res := (PReg "r3", PReg "r4");
  ab_ent := (PReg "r3", PReg "r4"); ab_ont := (PReg "r4", PReg "r5");
  ab_mksp := PReg "r3"; ab_mkfn := PReg "r5"; ab_mkres := "r3"%string;
  ab_jmp := []; ab_align := 16; ab_bias := 0 |}.

Definition port_ppc64_macho : port := {|
  p_name := "ppc64 sysv macho"; p_abi := abi_ppc64_macho;
  p_code := {| c_jump := jump_ppc64_macho; c_ontop := ontop_ppc64_macho; c_make := make_ppc64_macho;
               c_tramp := []; c_finish := finish_ppc64_macho;
               c_frame := 184; c_hid := 152; c_size := 240; c_mkoff := 0; c_mkal := 16;
               c_mkscr := 0; c_fin := []; c_tail := None; c_spslot := None |} |}.


Lemma macho_base x : 0 <= x < 2 ^ 64 -> Z.land x 0xfffffff0 = x mod 2 ^ 32 / 16 * 16.
Proof.
  intros R. change 0xfffffff0 with (Z.land (Z.ones 32) (Z.lnot (Z.ones 4) mod 2 ^ 64)) at 1.
  rewrite Z.land_assoc, Z.land_ones by lia.
  apply Z.bits_inj'. intros n Hn. rewrite Z.land_spec.
  change (Z.lnot (Z.ones 4) mod 2 ^ 64) with (Z.ldiff (Z.ones 64) (Z.ones 4)).
  rewrite Z.ldiff_spec, (Z.testbit_ones_nonneg 64), (Z.testbit_ones_nonneg 4) by lia.
  change (x mod 2 ^ 32 / 16 * 16) with (x mod 2 ^ 32 / 2 ^ 4 * 2 ^ 4).
  rewrite <- Z.shiftr_div_pow2, <- Z.shiftl_mul_pow2 by lia.
  rewrite Z.shiftl_spec by lia.
  destruct (Z.ltb_spec n 4).
  - rewrite (Z.testbit_neg_r _ (n - 4)) by lia. destruct (n <? 4) eqn:Q; [|apply Z.ltb_ge in Q; lia]. cbn [negb]. rewrite !andb_false_r. reflexivity.
  - rewrite Z.shiftr_spec by lia. replace (n - 4 + 4) with n by lia.
    destruct (Z.ltb_spec n 64); cbn [andb negb]; rewrite ?andb_true_r; [destruct (n <? 4) eqn:Q; [apply Z.ltb_lt in Q; lia|reflexivity]|].
    rewrite andb_false_r. symmetry. apply Z.mod_pow2_bits_high. lia.
Qed.
Section M.
  Variable L : string -> Z.
  Variable s : mst.
  Let A := port_ppc64_macho.
  Let h := rg s "r3" mod 2 ^ 32 / 16 * 16 - 240.
  Lemma macho_make pc t : wf (cpu_of A) s -> 0 <= h ->
    run (cpu_of A) L (c_make (p_code A)) s = Goto pc t ->
    rg t "r3" = h /\
    mm t = store true (store true (store true (store true (mm s) (h + 176) 4 (rg s "r5")) (h + 184) 8 0)
                        (h + 152) 8 (h + 224)) (h + 168) 8 (L "finish"%string mod 2 ^ 64).
  Proof.
    intros W H E. pose proof (proj2 W "r3"%string) as R. change (256 ^ rw (cpu_of A) "r3") with (2 ^ 64) in R.
    assert (HH : h < 2 ^ 32).
    { unfold h. pose proof (Z.mod_pos_bound (rg s "r3") (2 ^ 32) ltac:(lia)).
      pose proof (Z.mul_div_le (rg s "r3" mod 2 ^ 32) 16 ltac:(lia)). lia. }
    change (c_make (p_code A)) with make_ppc64_macho in E. unfold make_ppc64_macho in E.
    change (cpu_of A) with (cpu_64 true) in *.
    assert (SP : space (cpu_64 true) = 2 ^ 64) by reflexivity.
    assert (RW : forall r, rw (cpu_64 true) r = 8) by reflexivity.
    cbn [run step1] in E. unfold ea in E. rewrite SP in E.
    unfold set_reg in E. cbn [rg mm] in E. cbn [String.eqb Ascii.eqb Bool.eqb] in E. rewrite !RW in E.
    change (256 ^ 8) with (2 ^ 64) in E.
    change (0xfffffff0 mod 2 ^ 64) with 0xfffffff0 in E. rewrite (macho_base (rg s "r3")) in E by exact R.
    set (b := rg s "r3" mod 2 ^ 32 / 16 * 16) in *.
    assert (E1 : (b mod 2 ^ 64 + -240) mod 2 ^ 64 mod 2 ^ 64 = h).
    { unfold h in *. rewrite (Z.mod_small b) by lia. rewrite !Z.mod_small; rewrite ?Z.mod_small; lia. }
    rewrite !E1 in E.
    assert (HM : forall k, 0 <= k < 256 -> (h + k) mod 2 ^ 64 = h + k) by (intros k K; apply Z.mod_small; lia).
    assert (HL : forall k j, k < 512 -> j < 512 -> (h + k + j <=? 2 ^ 64) = true) by (intros k j K J; apply Z.leb_le; lia).
    change (8 <? 16) with true in E. change (4 <? 16) with true in E.
    do 12 (cbn [orb andb mm rg String.eqb Ascii.eqb Bool.eqb] in E;
           rewrite ?HM in E by lia; rewrite ?HL in E by lia).
    match type of E with (match (if ?c then _ else _) with _ => _ end) = _ => destruct c end; [|discriminate].
    do 12 (cbn [orb andb mm rg String.eqb Ascii.eqb Bool.eqb] in E;
           rewrite ?HM in E by lia; rewrite ?HL in E by lia).
    injection E as _ <-. cbn [rg mm]. split; [reflexivity|].
    rewrite ?HM by lia. change (0 mod 2 ^ 64 mod 2 ^ 64) with 0. reflexivity.
  Qed.
End M.

(** The address of the context-function goes astray: make stores its lower half
    where jump loads a whole word, so the upper half of what jump will branch to
    is the lower half of the address of the function, and the lower half is what
    was in memory before. *)
Theorem C27_ppc64_macho_fn_refuted L s pc t :
  let A := port_ppc64_macho in
  wf (cpu_of A) s -> 256 <= mk_top A s < 2 ^ 32 ->
  run (cpu_of A) L (c_make (p_code A)) s = Goto pc t ->
  load true (mm t) (rg t "r3" + 176) 8 =
  mk_fn A s mod 2 ^ 32 * 2 ^ 32 + load true (mm s) (rg t "r3" + 180) 4.
Proof.
  intros A W R E.
  change (mk_top A s) with (rg s "r3") in R. change (mk_fn A s) with (rg s "r5").
  set (h := rg s "r3" mod 2 ^ 32 / 16 * 16 - 240).
  assert (H : 0 <= h).
  { unfold h. rewrite (Z.mod_small (rg s "r3")) by lia.
    pose proof (Z.mul_div_le (rg s "r3") 16 ltac:(lia)).
    pose proof (Z.mod_pos_bound (rg s "r3") 16 ltac:(lia)).
    pose proof (Z.div_mod (rg s "r3") 16 ltac:(lia)). lia. }
  destruct (macho_make L s pc t W H E) as [E3 EM]. fold h in E3, EM. rewrite E3.
  assert (SPLIT : forall m a, load true m a 8 = load true m a 4 * 2 ^ 32 + load true m (a + 4) 4).
  { intros m a. unfold load. change (Z.to_nat 8) with 8%nat. change (Z.to_nat 4) with 4%nat. cbn [load_be].
    change (Z.of_nat 7) with 7. change (Z.of_nat 6) with 6. change (Z.of_nat 5) with 5. change (Z.of_nat 4) with 4.
    change (Z.of_nat 3) with 3. change (Z.of_nat 2) with 2. change (Z.of_nat 1) with 1. change (Z.of_nat 0) with 0.
    replace (a + 4 + 1) with (a + 5) by lia.
    replace (a + 1 + 1) with (a + 2) by lia. replace (a + 2 + 1) with (a + 3) by lia. replace (a + 3 + 1) with (a + 4) by lia.
    replace (a + 4 + 1) with (a + 5) by lia.
    replace (a + 5 + 1) with (a + 6) by lia. replace (a + 6 + 1) with (a + 7) by lia. lia. }
  rewrite SPLIT. replace (h + 176 + 4) with (h + 180) by lia. rewrite EM.
  assert (OUT : forall m a v n b, b + n <= h + 176 \/ h + 184 <= b -> (a = h + 176 \/ a = h + 180) ->
     load true (store true m b n v) a 4 = load true m a 4).
  { intros m a v n b Q1 Q2. apply load_ext. intros x X. unfold store.
    destruct (b <=? x) eqn:X1, (x <? b + n) eqn:X2; try reflexivity.
    apply Z.leb_le in X1. apply Z.ltb_lt in X2. lia. }
  f_equal; rewrite !OUT by lia.
  - rewrite load_store_same by lia. reflexivity.
  - apply load_ext. intros x X. unfold store. destruct (x <? h + 176 + 4) eqn:Q; [apply Z.ltb_lt in Q; lia|].
    rewrite andb_false_r. reflexivity.
Qed.

(** so a jump to a new context does not enter the context-function *)
Theorem C27_ppc64_macho_refuted :
  let A := port_ppc64_macho in
  exists L s0 s pc t,
    labels_ok A L /\ call_ok A L s /\ context A L (mm s) (arg_to A s) (Made s0) /\
    apart A s (arg_to A s) (Made s0) /\ switch A L Jump s = Goto pc t /\ pc <> mk_fn A s0.
Proof.
  cbv zeta. set (A := port_ppc64_macho).
  assert (OK : okb A [] [] [] = true) by (vm_compute; reflexivity).
  apply andb_true_iff in OK as [H A2]. apply andb_true_iff in H as [W A1].
  destruct (witness0 A [] [] [] W A1 A2) as (L & _ & _ & (C1 & CX & AP & SW) & _).
  exists wL, (w0 A []), (w1 A [] []), (pc_of (switch A wL Jump (w1 A [] []))), (v1 A [] []).
  split; [exact L|]. split; [exact C1|]. split; [exact CX|]. split; [exact AP|]. split; [exact SW|].
  vm_compute. congruence.
Qed.

(** and a stack above 4 GB is not used at all: the context data are elsewhere *)
Theorem C27_ppc64_macho_stack_refuted L s pc t :
  let A := port_ppc64_macho in
  wf (cpu_of A) s -> 240 <= mk_top A s mod 2 ^ 32 / 16 * 16 ->
  run (cpu_of A) L (c_make (p_code A)) s = Goto pc t ->
  0 <= rg t "r3" < 2 ^ 32.
Proof.
  intros A W R E. change (mk_top A s) with (rg s "r3") in R.
  destruct (macho_make L s pc t W ltac:(lia) E) as [-> _].
  pose proof (Z.mod_pos_bound (rg s "r3") (2 ^ 32) ltac:(lia)).
  pose proof (Z.mul_div_le (rg s "r3" mod 2 ^ 32) 16 ltac:(lia)). lia.
Qed.

Example ppc64_macho_hypotheses_met :
  let A := port_ppc64_macho in
  exists s pc t, wf (cpu_of A) s /\ 256 <= mk_top A s < 2 ^ 32 /\
    run (cpu_of A) wL (c_make (p_code A)) s = Goto pc t.
Proof.
  cbv zeta. assert (OK : okb port_ppc64_macho [] [] [] = true) by (vm_compute; reflexivity).
  apply andb_true_iff in OK as [H A2]. apply andb_true_iff in H as [W A1].
  destruct (witness0 _ [] [] [] W A1 A2) as (_ & M & R & _).
  exists (w0 port_ppc64_macho []), (ret_addr port_ppc64_macho (w0 port_ppc64_macho [])), (v0 port_ppc64_macho []).
  split; [exact (proj1 M)|]. split; [vm_compute; split; congruence|exact R].
Qed.

(** ontop: the register that should hold the first argument of fn (the handle)
    holds the place of the result of the resumed call, which the stores are made
    through; and the place that fn is told to return its result in is that of
    the caller, not of the resumed call. *)
Theorem C28_ppc64_macho_refuted :
  let A := port_ppc64_macho in
  resumption A Ontop (fun _ s1 s2 t =>
    fst (pair_at A t (ab_ont (p_abi A))) <> handle A s2 /\
    Some (fst (pair_at A t (ab_ont (p_abi A)))) = hidden A s1 /\
    hidden A t = hidden A s2 /\ hidden A t <> hidden A s1).
Proof.
  apply (resumed _ _ [] [("r3"%string, 0x9100)] [("r3"%string, 0x9200)]); vm_compute; repeat split; congruence.
Qed.
