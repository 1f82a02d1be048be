(** * x86_64 with 32-bit pointers (x32)

    With _ILP32, jump_fcontext and ontop_fcontext of x86_64 pack the two 32-bit
    pointers of transfer_t into one register; nothing else differs.  So the
    theorems for x86_64 carry over. *)
From Coq Require Import ZArith List String Lia Bool.
From Verif Require Import Word AsmMachine AsmSym AsmAbi AsmCheck AsmCode AsmCode2 AsmFacts AsmHist P_Asm AsmWit P_AsmRef.
Import ListNotations.
Open Scope list_scope.
Open Scope Z_scope.

(** ** The code *)

(** the common part of jump_x86_64_sysv_elf_gas.S:50-122 and of
    ontop_x86_64_sysv_elf_gas.S:46-113 *)
Definition jump_head (cw : bool) : list instr :=
  [Add "rsp" "rsp" (-0x40)] ++ cw_save cw "rsp" ++ AsmCode.saves 8 "rsp" x64_elf_regs ++
  [Mov "rax" "rsp"; Mov "rsp" "rdi"; Ld 8 "r8" "rsp" 0x40] ++
  cw_load cw "rsp" ++ AsmCode.loads 8 "rsp" x64_elf_regs ++ [Add "rsp" "rsp" 0x48].
Definition ontop_head (cw : bool) : list instr :=
  [Mov "r8" "rdx"; Add "rsp" "rsp" (-0x40)] ++ cw_save cw "rsp" ++ AsmCode.saves 8 "rsp" x64_elf_regs ++
  [Mov "rax" "rsp"; Mov "rsp" "rdi"] ++
  cw_load cw "rsp" ++ AsmCode.loads 8 "rsp" x64_elf_regs ++ [Add "rsp" "rsp" 0x40].

(** jump_x86_64_sysv_elf_gas.S:125-142 and ontop_x86_64_sysv_elf_gas.S:116-135:
    with _ILP32 and without *)
Definition tail_x32 : list instr := [Sal "rsi" 32; Or "rax" "rsi"; Mov "rdi" "rax"; Go "r8"].
Definition tail_x64 : list instr := [Mov "rdx" "rsi"; Mov "rdi" "rax"; Go "r8"].

Lemma jump_parts cw : jump_x64_elf cw false = jump_head cw ++ tail_x64.
Proof. destruct cw; reflexivity. Qed.
Lemma ontop_parts cw : ontop_x64_elf cw false = ontop_head cw ++ tail_x64.
Proof. destruct cw; reflexivity. Qed.

(** make_fcontext, trampoline and finish do not depend on _ILP32.  In the calling
    convention, transfer_t is passed in rdi and returned in rax (the two places
    that [abi_x64] names are not used below); pointers in registers are
    zero-extended. *)
Definition port_x32 (cw : bool) : port := {|
  p_name := if cw then "x32 sysv elf" else "x32 sysv elf, BOOST_USE_TSX"; p_abi := abi_x64 cw;
  p_code := {| c_jump := jump_head cw ++ tail_x32; c_ontop := ontop_head cw ++ tail_x32; c_make := make_x64_elf false;
               c_tramp := tramp_x64; c_finish := finish_x64;
               c_frame := 0x40; c_hid := 0; c_size := 0x48; c_mkoff := 0; c_mkal := 16;
               c_mkscr := 0; c_fin := []; c_tail := None; c_spslot := None |} |}.

(** a transfer_t in a register: the handle is in the lower half, data in the
    upper one (a little-endian struct of two 4-byte pointers) *)
Definition unpack (v : Z) : Z * Z := (v mod 2 ^ 32, v / 2 ^ 32).

(** ** The same run *)

Definition straight (i : instr) : bool := match i with Go _ | Exit _ => false | _ => true end.

Fixpoint steps P L (c : list instr) (s : mst) : option mst :=
  match c with [] => Some s | i :: t => match step1 P L i s with Some u => steps P L t u | None => None end end.

Lemma run_app P L p q s : forallb straight p = true ->
  run P L (p ++ q) s = match steps P L p s with Some u => run P L q u | None => Stuck end.
Proof.
  revert s. induction p as [|i p IH]; intros s H; [reflexivity|].
  cbn [forallb] in H. apply andb_true_iff in H as [H1 H2].
  cbn [app steps]. destruct i; try discriminate; cbn [run];
    (destruct (step1 _ _ _ _); [apply IH; exact H2|reflexivity]).
Qed.

Definition head (cw : bool) (k : how) : list instr := match k with Jump => jump_head cw | Ontop => ontop_head cw end.

Lemma head_straight cw k : forallb straight (head cw k) = true.
Proof. destruct cw, k; reflexivity. Qed.

(** registers that the packing may change *)
Definition packed : list string := ["rax"; "rdx"; "rdi"; "rsi"]%string.

Definition same_but (t t' : mst) : Prop :=
  mm t' = mm t /\ (forall r, ~ In r packed -> rg t' r = rg t r).

Section Twin.
  Variables (cw : bool) (L : string -> Z).
  Let A := port_x64_elf cw.
  Let A' := port_x32 cw.
  Let P := cpu_x64.


  Lemma tail_twin u : exists t t',
    run P L tail_x64 u = Goto (rg u "r8") t /\ run P L tail_x32 u = Goto (rg u "r8") t' /\
    same_but t t' /\ rg t' "rax" = rg t' "rdi" /\
    rg t' "rdi" = Z.lor (rg u "rax") ((rg u "rsi" * 2 ^ 32) mod 2 ^ 64) mod 2 ^ 64 /\
    rg t "rax" = rg u "rax" /\ rg t "rsi" = rg u "rsi" /\
    rg t "rdi" = rg u "rax" mod 2 ^ 64 /\ rg t "rdx" = rg u "rsi" mod 2 ^ 64.
  Proof.
    unfold tail_x64, tail_x32. cbn [run step1]. unfold set_reg. cbn [rg mm String.eqb Ascii.eqb Bool.eqb].
    change (rw P "rdi") with 8. change (rw P "rax") with 8. change (rw P "rsi") with 8. change (rw P "rdx") with 8.
    change (256 ^ 8) with (2 ^ 64).
    eexists. eexists. split; [reflexivity|]. split; [reflexivity|]. cbn [rg mm String.eqb Ascii.eqb Bool.eqb].
    split.
    { split; [reflexivity|]. intros r N. cbn [rg]. unfold packed in N. cbn [In] in N.
      destruct (String.eqb_spec r "rdi"); [subst; intuition|]. destruct (String.eqb_spec r "rax"); [subst; intuition|].
      destruct (String.eqb_spec r "rsi"); [subst; intuition|]. destruct (String.eqb_spec r "rdx"); [subst; intuition|].
      reflexivity. }
    rewrite Z.mod_mod by lia. repeat split; reflexivity.
  Qed.

  (** one instruction that does not mention the registers of the packing *)
  Lemma tramp_twin t t' pc t1 : same_but t t' -> run P L tramp_x64 t = Goto pc t1 ->
    exists t1', run P L tramp_x64 t' = Goto pc t1' /\ same_but t1 t1' /\
      (forall r, In r packed -> rg t1 r = rg t r /\ rg t1' r = rg t' r).
  Proof.
    intros [M R]. unfold tramp_x64. cbn [run step1]. unfold ea, set_reg. cbn [rg mm String.eqb Ascii.eqb Bool.eqb].
    assert (NB : forall r, In r ["rsp"; "rbp"; "rbx"]%string -> rg t' r = rg t r).
    { intros r I. apply R. unfold packed. simpl in I |- *. intuition (subst; discriminate). }
    rewrite (NB "rsp"%string), (NB "rbp"%string), M by (simpl; auto).
    destruct (_ && _); [|discriminate]. cbn [rg String.eqb Ascii.eqb Bool.eqb].
    rewrite (NB "rbx"%string) by (simpl; auto). intros E. injection E as <- <-.
    eexists. split; [reflexivity|]. split.
    - split; [reflexivity|]. intros r N. cbn [rg]. rewrite (R r N). reflexivity.
    - intros r I. cbn [rg]. unfold packed in I. simpl in I.
      destruct I as [<-|[<-|[<-|[<-|[]]]]]; split; reflexivity.
  Qed.

  (** The two variants run in lockstep; they differ in the four registers only. *)
  Lemma twin k s pc t : switch A L k s = Goto pc t ->
    exists t' a d, switch A' L k s = Goto pc t' /\ same_but t t' /\
      rg t' "rax" = rg t' "rdi" /\ rg t' "rdi" = Z.lor a ((d * 2 ^ 32) mod 2 ^ 64) mod 2 ^ 64 /\
      rg t "rax" = a /\ rg t "rsi" = d /\ rg t "rdi" = a mod 2 ^ 64 /\ rg t "rdx" = d mod 2 ^ 64.
  Proof.
    intros SW. unfold switch in *. change (ab_cpu (p_abi A)) with P in SW. change (ab_cpu (p_abi A')) with P.
    change (c_tramp (p_code A)) with tramp_x64 in SW. change (c_tramp (p_code A')) with tramp_x64.
    destruct k.
    - change (c_jump (p_code A)) with (jump_x64_elf cw false) in SW. rewrite jump_parts in SW.
      change (c_jump (p_code A')) with (jump_head cw ++ tail_x32).
      rewrite run_app in SW |- * by exact (head_straight cw Jump).
      destruct (steps P L (jump_head cw) s) as [u|]; [|discriminate].
      destruct (tail_twin u) as (t0 & t0' & E1 & E2 & SB & D1 & D2 & D3 & D4 & D5 & D6).
      rewrite E1 in SW. rewrite E2. cbn [tramp_x64] in SW |- *. unfold tramp_x64 in SW |- *.
      destruct (rg u "r8" =? L "trampoline"%string).
      + destruct (tramp_twin t0 t0' pc t SB SW) as (t1' & F1 & F2 & F3).
        exists t1', (rg u "rax"), (rg u "rsi"). split; [exact F1|]. split; [exact F2|].
        assert (F : forall r, In r packed -> rg t r = rg t0 r /\ rg t1' r = rg t0' r) by exact F3.
        rewrite (proj1 (F "rax"%string ltac:(simpl; auto))), (proj1 (F "rsi"%string ltac:(simpl; auto))),
          (proj1 (F "rdi"%string ltac:(simpl; auto))), (proj1 (F "rdx"%string ltac:(simpl; auto))),
          (proj2 (F "rax"%string ltac:(simpl; auto))), (proj2 (F "rdi"%string ltac:(simpl; auto))).
        auto 10.
      + injection SW as <- <-. exists t0', (rg u "rax"), (rg u "rsi"). auto 10.
    - change (c_ontop (p_code A)) with (ontop_x64_elf cw false) in SW. rewrite ontop_parts in SW.
      change (c_ontop (p_code A')) with (ontop_head cw ++ tail_x32).
      rewrite run_app in SW |- * by exact (head_straight cw Ontop).
      destruct (steps P L (ontop_head cw) s) as [u|]; [|discriminate].
      destruct (tail_twin u) as (t0 & t0' & E1 & E2 & SB & D1 & D2 & D3 & D4 & D5 & D6).
      rewrite E1 in SW. injection SW as <- <-. exists t0', (rg u "rax"), (rg u "rsi"). auto 10.
  Qed.

  (** If the x32 variant runs to the end, so does the other one. *)
  Lemma twin_back k s pc t' : switch A' L k s = Goto pc t' ->
    exists t, switch A L k s = Goto pc t /\ mm t = mm t'.
  Proof.
    intros SW. unfold switch in *. change (ab_cpu (p_abi A)) with P. change (ab_cpu (p_abi A')) with P in SW.
    change (c_tramp (p_code A)) with tramp_x64. change (c_tramp (p_code A')) with tramp_x64 in SW.
    destruct k.
    - change (c_jump (p_code A)) with (jump_x64_elf cw false). rewrite jump_parts.
      change (c_jump (p_code A')) with (jump_head cw ++ tail_x32) in SW.
      rewrite run_app in SW |- * by exact (head_straight cw Jump).
      destruct (steps P L (jump_head cw) s) as [u|]; [|discriminate].
      destruct (tail_twin u) as (t0 & t0' & E1 & E2 & SB & _).
      rewrite E1. rewrite E2 in SW. cbn [tramp_x64] in SW |- *. unfold tramp_x64 in SW |- *.
      destruct (rg u "r8" =? L "trampoline"%string).
      + assert (SB' : same_but t0' t0) by (destruct SB as [M R]; split; [auto|intros r N; symmetry; auto]).
        destruct (tramp_twin t0' t0 pc t' SB' SW) as (t1 & F1 & [F2 _] & _). exists t1. auto.
      + injection SW as <- <-. exists t0. split; [reflexivity|]. symmetry. exact (proj1 SB).
    - change (c_ontop (p_code A)) with (ontop_x64_elf cw false). rewrite ontop_parts.
      change (c_ontop (p_code A')) with (ontop_head cw ++ tail_x32) in SW.
      rewrite run_app in SW |- * by exact (head_straight cw Ontop).
      destruct (steps P L (ontop_head cw) s) as [u|]; [|discriminate].
      destruct (tail_twin u) as (t0 & t0' & E1 & E2 & SB & _).
      rewrite E1. rewrite E2 in SW. injection SW as <- <-. exists t0. split; [reflexivity|]. symmetry. exact (proj1 SB).
  Qed.

  Lemma context_twin m h o : context A' L m h o -> context A L m h o.
  Proof.
    intros C. induction C as [s pc t m M R MEM|s k o pc t m CS C IH AP K SW MEM].
    - exact (ctx_made A L s pc t m M R MEM).
    - destruct (twin_back k s pc t SW) as (t1 & SW1 & M1).
      apply (ctx_susp A L s k o pc t1 m CS IH AP K SW1). intros a Ha. rewrite M1. exact (MEM a Ha).
  Qed.
End Twin.

Lemma unpack_lor a d : 0 <= a < 2 ^ 32 -> 0 <= d ->
  unpack (Z.lor a ((d * 2 ^ 32) mod 2 ^ 64) mod 2 ^ 64) = (a, d mod 2 ^ 32).
Proof.
  intros A D.
  assert (E : (d * 2 ^ 32) mod 2 ^ 64 = d mod 2 ^ 32 * 2 ^ 32).
  { change (2 ^ 64) with (2 ^ 32 * 2 ^ 32). rewrite Z.mul_mod_distr_r by lia. reflexivity. }
  rewrite E. pose proof (Z.mod_pos_bound d (2 ^ 32) ltac:(lia)) as B.
  assert (F : Z.lor a (d mod 2 ^ 32 * 2 ^ 32) = a + d mod 2 ^ 32 * 2 ^ 32).
  { rewrite <- Z.shiftl_mul_pow2 by lia.
    rewrite (Z.add_nocarry_lxor a), Z.lxor_lor; [reflexivity| |];
      (apply Z.bits_inj'; intros n Hn; rewrite Z.land_spec, Z.bits_0, Z.shiftl_spec by lia;
       destruct (Z.ltb_spec n 32);
       [rewrite (Z.testbit_neg_r _ (n - 32)) by lia; apply andb_false_r|
        rewrite <- (Z.mod_small a (2 ^ 32)) by lia; rewrite Z.mod_pow2_bits_high by lia; reflexivity]). }
  rewrite F. unfold unpack. rewrite (Z.mod_small (a + _) (2 ^ 64)) by lia.
  rewrite Z.add_mod, Z.mod_mul, Z.add_0_r by lia. rewrite Z.mod_mod, Z.mod_small by lia.
  rewrite Z.div_add, (Z.div_small a), Z.add_0_l by lia. reflexivity.
Qed.

(** ** The theorems *)

(** The stack of the caller is below 4 GB, as all memory is under x32. *)
Theorem C26_x32_jump_resumes_suspended_call cw L s1 s2 :
  let A := port_x32 cw in
  labels_ok A L -> call_ok A L s2 -> sp A s2 < 2 ^ 32 ->
  context A L (mm s2) (arg_to A s2) (Susp s1) -> apart A s2 (arg_to A s2) (Susp s1) ->
  exists t,
    returned A s1 (switch A L Jump s2) t /\
    unpack (rg t "rax") = (handle A s2, arg_data A s2 mod 2 ^ 32) /\
    (forall a, ~ (handle A s2 <= a < sp A s2) -> mm t a = mm s2 a).
Proof.
  intros A LAB CS LOW CX AP. apply context_twin in CX.
  destruct (C26_jump_resumes_suspended_call (port_x64_elf cw) L s1 s2
    ltac:(destruct cw; simpl; auto) LAB CS CX AP) as (t & (SW & SP & SV) & RES & _ & U & _).
  destruct (twin cw L Jump s2 _ _ SW) as (t' & a & d & SW' & (M & R) & E1 & E2 & E3 & E4 & E5 & E6).
  exists t'.
  assert (SP' : rg t' "rsp" = rg t "rsp") by (apply R; unfold packed; simpl; intuition discriminate).
  assert (AR : rg t "rax" = handle A s2 /\ rg t "rdx" = arg_data A s2) by (injection RES as X Y; auto).
  destruct AR as [AX DX].
  pose proof CS as ((_ & W) & FR & _). change (c_frame _) with 0x40 in FR.
  pose proof (W "rsi"%string) as WS. change (256 ^ rw _ "rsi") with (2 ^ 64) in WS.
  split; [|split].
  - split; [exact SW'|]. split; [etransitivity; [exact SP'|exact SP]|].
    intros r I. rewrite R; [exact (SV r I)|].
    unfold packed. intros J. clear -I J. destruct cw; simpl in I, J; intuition (subst; discriminate).
  - rewrite E1, E2. rewrite E3 in AX. rewrite E6 in DX. subst a.
    change (arg_data A s2) with (rg s2 "rsi") in DX |- *.
    assert (HA : 0 <= handle A s2 < 2 ^ 32) by (unfold handle; change (c_frame _) with 0x40; unfold sp in *; lia).
    assert (ED : (d * 2 ^ 32) mod 2 ^ 64 = (rg s2 "rsi" * 2 ^ 32) mod 2 ^ 64).
    { rewrite <- DX. rewrite Z.mul_mod_idemp_l by lia. reflexivity. }
    rewrite ED, AX. apply unpack_lor; [exact HA|lia].
  - intros a0 Ha. rewrite M. apply U; [|intros H X; discriminate]. cbn. rewrite Z.add_0_r. exact Ha.
Qed.

Theorem C27_x32_first_jump_enters_function cw L s0 s :
  let A := port_x32 cw in
  labels_ok A L -> call_ok A L s -> sp A s < 2 ^ 32 ->
  context A L (mm s) (arg_to A s) (Made s0) -> apart A s (arg_to A s) (Made s0) ->
  exists t,
    switch A L Jump s = Goto (mk_fn A s0) t /\
    unpack (rg t "rdi") = (handle A s, arg_data A s mod 2 ^ 32) /\
    ret_addr A t = L "finish"%string /\ (sp A t + 8) mod 16 = 0 /\
    mk_top A s0 - c_need (p_code A) <= sp A t /\ sp A t + 8 <= mk_top A s0 /\
    (forall r, In r (ab_ctl (p_abi A)) -> rg t r = rg s0 r) /\
    (forall a, ~ (handle A s <= a < sp A s) ->
               ~ (arg_to A s <= a < arg_to A s + c_size (p_code A)) -> mm t a = mm s a).
Proof.
  intros A LAB CS LOW CX AP. apply context_twin in CX.
  destruct (C27_first_jump_enters_function (port_x64_elf cw) L s0 s
    ltac:(destruct cw; simpl; auto) LAB CS CX AP) as (t & SW & ENT & RET & AL & B1 & B2 & CTL & U & Wt).
  destruct (twin cw L Jump s _ _ SW) as (t' & a & d & SW' & (M & R) & E1 & E2 & E3 & E4 & E5 & E6).
  exists t'.
  assert (SP' : sp A t' = sp A t) by (apply R; unfold packed; simpl; intuition discriminate).
  assert (AR : rg t "rdi" = handle A s /\ rg t "rsi" = arg_data A s) by (injection ENT as X Y; auto).
  destruct AR as [AX DX].
  pose proof CS as ((_ & W) & FR & _). change (c_frame _) with 0x40 in FR.
  pose proof (W "rsi"%string) as WS. change (256 ^ rw _ "rsi") with (2 ^ 64) in WS.
  pose proof (proj2 Wt "rax"%string) as WA. change (256 ^ rw _ "rax") with (2 ^ 64) in WA.
  split; [exact SW'|]. split.
  { rewrite E2. rewrite E5, Z.mod_small in AX by lia. rewrite E4 in DX. subst a d. rewrite AX, DX.
    apply unpack_lor; [unfold handle; change (c_frame _) with 0x40; unfold sp in *; lia|].
    change (arg_data A s) with (rg s "rsi"). lia. }
  split.
  { unfold ret_addr, pl. cbn [ab_ret p_abi A port_x32 abi_x64]. rewrite M.
    change (rg t' "rsp") with (sp A t'). rewrite SP'. exact RET. }
  rewrite !SP'. split; [exact AL|]. split; [exact (proj1 B1)|]. split.
  { change (ab_pop0 _) with 8 in B2. change (ab_home _) with 0 in B2. change (sp A t) with (sp (port_x64_elf cw) t).
    change (mk_top A s0) with (mk_top (port_x64_elf cw) s0). lia. }
  split.
  - intros r I. rewrite R; [exact (CTL r I)|].
    unfold packed. intros J. clear -I J. destruct cw; simpl in I, J; intuition (subst; discriminate).
  - intros a0 Ha Hb. rewrite M. apply U; [|exact Hb]. cbn. rewrite Z.add_0_r. exact Ha.
Qed.

Theorem C28_x32_ontop_enters_function_on_target cw L s1 s2 :
  let A := port_x32 cw in
  labels_ok A L -> call_ok A L s2 -> sp A s2 < 2 ^ 32 ->
  context A L (mm s2) (arg_to A s2) (Susp s1) -> apart A s2 (arg_to A s2) (Susp s1) ->
  exists t,
    switch A L Ontop s2 = Goto (arg_fn A s2) t /\
    unpack (rg t "rdi") = (handle A s2, arg_data A s2 mod 2 ^ 32) /\
    sp A t = sp A s1 /\ (forall r, In r (ab_saved (p_abi A)) -> rg t r = rg s1 r) /\
    ret_addr A t = ret_addr A s1 /\
    (forall a, ~ (handle A s2 <= a < sp A s2) ->
               ~ (arg_to A s2 <= a < arg_to A s2 + own_len A) -> mm t a = mm s2 a).
Proof.
  intros A LAB CS LOW CX AP. apply context_twin in CX.
  destruct (C28_ontop_enters_function_on_target (port_x64_elf cw) L s1 s2
    ltac:(destruct cw; simpl; auto) ltac:(destruct cw; discriminate) LAB CS CX AP)
    as (t & SW & _ & ENT & SP & SV & RET & _ & U & Wt).
  destruct (twin cw L Ontop s2 _ _ SW) as (t' & a & d & SW' & (M & R) & E1 & E2 & E3 & E4 & E5 & E6).
  exists t'.
  assert (SP' : sp A t' = sp A t) by (apply R; unfold packed; simpl; intuition discriminate).
  assert (AR : rg t "rdi" = handle A s2 /\ rg t "rsi" = arg_data A s2) by (injection ENT as X Y; auto).
  destruct AR as [AX DX].
  pose proof CS as ((_ & W) & FR & _). change (c_frame _) with 0x40 in FR.
  pose proof (W "rsi"%string) as WS. change (256 ^ rw _ "rsi") with (2 ^ 64) in WS.
  pose proof (proj2 Wt "rax"%string) as WA. change (256 ^ rw _ "rax") with (2 ^ 64) in WA.
  split; [exact SW'|]. split.
  { rewrite E2. rewrite E5, Z.mod_small in AX by lia. rewrite E4 in DX. subst a d. rewrite AX, DX.
    apply unpack_lor; [unfold handle; change (c_frame _) with 0x40; unfold sp in *; lia|].
    change (arg_data A s2) with (rg s2 "rsi"). lia. }
  split; [rewrite SP'; exact SP|]. split.
  { intros r I. rewrite R; [exact (SV r I)|].
    unfold packed. intros J. clear -I J. destruct cw; simpl in I, J; intuition (subst; discriminate). }
  split.
  { unfold ret_addr at 1, pl. cbn [ab_ret p_abi A port_x32 abi_x64]. rewrite M.
    change (rg t' "rsp") with (sp A t'). rewrite SP'. exact RET. }
  intros a0 Ha Hb. rewrite M. apply U; [|exact Hb|intros H X; discriminate]. cbn. rewrite Z.add_0_r. exact Ha.
Qed.

(** The hypotheses are met: data 0xdada and 0xdbdb arrive. *)
Example x32_hypotheses_met cw :
  let A := port_x32 cw in
  resumption A Jump (fun _ s1 s2 t => sp A s2 < 2 ^ 32 /\ unpack (rg t "rax") = (handle A s2, 0xdbdb)) /\
  first_entry A (fun _ _ s t => sp A s < 2 ^ 32 /\ unpack (rg t "rdi") = (handle A s, 0xdada)) /\
  resumption A Ontop (fun _ _ s2 t => sp A s2 < 2 ^ 32 /\ unpack (rg t "rdi") = (handle A s2, 0xdbdb)).
Proof.
  cbv zeta. split; [|split].
  - apply (resumed _ _ [] [] []); destruct cw; vm_compute; auto.
  - apply (entered _ [] []); destruct cw; vm_compute; auto.
  - apply (resumed _ _ [] [] []); destruct cw; vm_compute; auto.
Qed.

(** The packing is needed: without it (the code for 64-bit pointers), the data
    would not arrive. *)
Example x64_code_does_not_pack :
  resumption (port_x64_elf true) Jump (fun _ s1 s2 t => unpack (rg t "rax") <> (handle (port_x64_elf true) s2, 0xdbdb)).
Proof. apply (resumed _ _ [] [] []); vm_compute; congruence. Qed.
