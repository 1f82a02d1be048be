(** * The ports: further systems and processors

    Same conventions as in AsmCode.v.  Fields of the thread information block
    (Windows) and of the thread-local storage area (Darwin/arm) that belong to a
    context are registers here, i.e. those blocks overlap no stack. *)
From Coq Require Import ZArith List String.
From Verif Require Import AsmMachine AsmAbi AsmCode.
Import ListNotations.
Open Scope Z_scope.
Open Scope string_scope.

(** ** x86_64, System V ELF, with shadow stacks (__CET__) *)

(** Simplification: the shadow stack itself is not modelled; the pointer to it is
    the register "ssp", [rdsspq] reads it, and [rstorssp], [saveprevssp] and
    [incsspq] (jump L91-100, ontop L89-93, make L98-116) are left out; the address of the new shadow
    stack, which the creator of the stack has put at -8(%rdi), is the register
    "newssp" (make L54-56).  An 8-byte slot for the shadow stack
    pointer is below the other context data. *)
Definition x64_cet_regs : list (string * Z) :=
  [("r12", 0x10); ("r13", 0x18); ("r14", 0x20); ("r15", 0x28); ("rbx", 0x30); ("rbp", 0x38)].

(** jump_x86_64_sysv_elf_gas.S:50-142 *)
Definition jump_x64_cet (cw : bool) : list instr :=
  [Add "rsp" "rsp" (-0x40)] ++ cw_save cw "rsp" ++ saves 8 "rsp" x64_cet_regs ++  (* 52-69 *)
  [Add "rsp" "rsp" (-8); Mov "rcx" "ssp"; Sto 8 "rcx" "rsp" 0;    (* 73-76 *)
   Mov "rax" "rsp"; Mov "rsp" "rdi";                              (* 80-83 *)
   Ld 8 "rcx" "rsp" 0; Add "rsp" "rsp" 8; Li "rcx" 1; Ld 8 "r8" "rsp" 0x40] ++  (* 87-88, 98, 103 *)
  cw_load cw "rsp" ++ loads 8 "rsp" x64_cet_regs ++               (* 105-120 *)
  [Add "rsp" "rsp" 0x48; Mov "rdx" "rsi"; Mov "rdi" "rax"; Go "r8"].  (* 122-142 *)

(** ontop_x86_64_sysv_elf_gas.S:46-135 *)
Definition ontop_x64_cet (cw : bool) : list instr :=
  [Mov "r8" "rdx"; Add "rsp" "rsp" (-0x40)] ++ cw_save cw "rsp" ++ saves 8 "rsp" x64_cet_regs ++  (* 49-68 *)
  [Add "rsp" "rsp" (-8); Mov "rcx" "ssp"; Sto 8 "rcx" "rsp" 0;    (* 72-75 *)
   Mov "rax" "rsp"; Mov "rsp" "rdi"; Ld 8 "rcx" "rsp" 0; Add "rsp" "rsp" 8] ++  (* 79-87 *)
  cw_load cw "rsp" ++ loads 8 "rsp" x64_cet_regs ++               (* 96-111 *)
  [Add "rsp" "rsp" 0x40; Mov "rdx" "rsi"; Mov "rdi" "rax"; Go "r8"].  (* 113-135 *)

(** make_x86_64_sysv_elf_gas.S:50-133; "call 1f; jmp trampoline; 1: pop
    0x38(%rax)" (104-109) pushes the address of the instruction "jmp trampoline"
    and pops it into the slot of rbp, where line 93 had put [finish] *)
Definition make_x64_cet : list instr :=
  [Mov "r9" "newssp";                                             (* 54-56 *)
   Mov "rax" "rdi"; And "rax" "rax" (-16); Add "rax" "rax" (-0x48);  (* 59-66 *)
   Sto 8 "rdx" "rax" 0x30; Sto 4 "mxcsr" "rax" 0; Sto 2 "x87cw" "rax" 4;   (* 70-75 *)
   La "rcx" "trampoline"; Sto 8 "rcx" "rax" 0x40;                 (* 84-87 *)
   La "rcx" "exit"; Sto 8 "rcx" "rax" 0x38;                       (* 90-93 *)
   Mov "r8" "ssp";                                                (* 98 *)
   La "tmp" "jmp trampoline"; Add "rsp" "rsp" (-8); Sto 8 "tmp" "rsp" 0;   (* 104 *)
   Ld 8 "tmp" "rsp" 0; Add "rsp" "rsp" 8; Sto 8 "tmp" "rax" 0x38; (* 109 *)
   Mov "r9" "ssp"; Add "rax" "rax" (-8); Sto 8 "r9" "rax" 0;      (* 111, 127-129 *)
   Ld 8 "rip" "rsp" 0; Add "rsp" "rsp" 8; Go "rip"].              (* 133 *)

(** make_x86_64_sysv_elf_gas.S:135-149; "call 2f; jmp *%rbp; 2:" pushes the
    address of "jmp *%rbp", which is therefore where a context-function returns
    to: this instruction has the name [finish] in this port.  The code that the
    source labels finish (151-157) is [exit] here; nothing refers to it, see
    [C40_x64_cet_refuted]. *)
Definition tramp_x64_cet : list instr :=
  [La "tmp" "finish"; Add "rsp" "rsp" (-8); Sto 8 "tmp" "rsp" 0; Go "rbx"].
Definition finish_x64_cet : list instr := [Go "rbp"].

Definition port_x64_cet (cw : bool) : port := {|
  p_name := if cw then "x86_64 sysv elf, shadow stack" else "x86_64 sysv elf, shadow stack, BOOST_USE_TSX";
  p_abi := abi_x64 cw;
  p_code := {| c_jump := jump_x64_cet cw; c_ontop := ontop_x64_cet cw; c_make := make_x64_cet;
               c_tramp := tramp_x64_cet; c_finish := finish_x64_cet;
               c_frame := 0x48; c_hid := 0; c_size := 0x50; c_mkoff := 0; c_mkal := 16;
               c_mkscr := 8; c_fin := []; c_tail := None; c_spslot := None |} |}.

(** ** i386, Mach-O *)

(** Darwin i386: as System V, but an 8-byte struct is returned in eax:edx, so
    there is no hidden pointer.  esp + 4 should be a multiple of 16 at function
    entry, but the port enters context-functions with a multiple of 8 only (see
    [C27_x86_macho_alignment_refuted]), so the convention here is 8. *)
Definition abi_x86_macho (cw : bool) : abi := {|
  ab_cpu := cpu_x86; ab_sp := "esp";
  ab_saved := ["edi"; "esi"; "ebx"; "ebp"] ++ (if cw then ["mxcsr"; "x87cw"] else []);
  ab_ctl := if cw then ["mxcsr"; "x87cw"] else [];
  ab_ret := PMem "esp" 0 4; ab_pop := 4; ab_pop0 := 4; ab_up := 0x10; ab_wr := 0; ab_home := 8;
  ab_to := PMem "esp" 4 4; ab_data := PMem "esp" 8 4; ab_fn := PMem "esp" 12 4;
  ab_hidden := None; ab_hidret := None;
  ab_res := (PReg "eax", PReg "edx");
  ab_ent := (PMem "esp" 4 4, PMem "esp" 8 4); ab_ont := (PMem "esp" 4 4, PMem "esp" 8 4);
  ab_mksp := PMem "esp" 4 4; ab_mkfn := PMem "esp" 12 4; ab_mkres := "eax";
  ab_jmp := []; ab_align := 8; ab_bias := 4 |}.

Definition x86_macho_regs : list (string * Z) :=
  [("edi", 8); ("esi", 0xc); ("ebx", 0x10); ("ebp", 0x14)].

(** jump_i386_sysv_macho_gas.S:31-75 *)
Definition jump_x86_macho (cw : bool) : list instr :=
  [Add "esp" "esp" (-0x18)] ++ cw_save cw "esp" ++                (* 32-37 *)
  saves 4 "esp" x86_macho_regs ++                                 (* 39-42 *)
  [Mov "ecx" "esp"; Ld 4 "eax" "esp" 0x1c; Ld 4 "edx" "esp" 0x20; (* 45-51 *)
   Mov "esp" "eax"; Mov "eax" "ecx"; Ld 4 "ecx" "esp" 0x18] ++    (* 54-60 *)
  cw_load cw "esp" ++                                             (* 62-65 *)
  loads 4 "esp" x86_macho_regs ++                                 (* 67-70 *)
  [Add "esp" "esp" 0x1c; Go "ecx"].                               (* 72-75 *)

(** ontop_i386_sysv_macho_gas.S:31-82 *)
Definition ontop_x86_macho (cw : bool) : list instr :=
  [Add "esp" "esp" (-0x18)] ++ cw_save cw "esp" ++                (* 32-37 *)
  saves 4 "esp" x86_macho_regs ++                                 (* 39-42 *)
  [Mov "ecx" "esp"; Ld 4 "eax" "esp" 0x1c; Sto 4 "ecx" "eax" 0x1c;   (* 45-51 *)
   Ld 4 "ecx" "esp" 0x20; Sto 4 "ecx" "eax" 0x20;                 (* 54-57 *)
   Ld 4 "ecx" "esp" 0x24; Mov "esp" "eax"; Mov "eax" "ecx"] ++    (* 60-66 *)
  cw_load cw "esp" ++                                             (* 69-72 *)
  loads 4 "esp" x86_macho_regs ++                                 (* 74-77 *)
  [Add "esp" "esp" 0x18; Go "ecx"].                               (* 79-82 *)

(** make_i386_sysv_macho_gas.S:31-75 *)
Definition make_x86_macho : list instr :=
  [Ld 4 "eax" "esp" 4; Add "eax" "eax" (-8); And "eax" "eax" (-16); Add "eax" "eax" (-0x34);  (* 33-43 *)
   Ld 4 "ecx" "esp" 0xc; Sto 4 "ecx" "eax" 0x10;                  (* 47-48 *)
   Sto 4 "mxcsr" "eax" 0; Sto 2 "x87cw" "eax" 4;                  (* 51-53 *)
   La "tmp" "1"; Add "esp" "esp" (-4); Sto 4 "tmp" "esp" 0; Ld 4 "ecx" "esp" 0; Add "esp" "esp" 4;  (* 56-58 *)
   Need "ecx" "1"; La "ecx" "trampoline"; Sto 4 "ecx" "eax" 0x18;                 (* 60-63 *)
   La "tmp" "2"; Add "esp" "esp" (-4); Sto 4 "tmp" "esp" 0; Ld 4 "ecx" "esp" 0; Add "esp" "esp" 4;  (* 66-68 *)
   Need "ecx" "2"; La "ecx" "finish"; Sto 4 "ecx" "eax" 0x14;                     (* 70-73 *)
   Ld 4 "eip" "esp" 0; Add "esp" "esp" 4; Go "eip"].              (* 75 *)

(** make_i386_sysv_macho_gas.S:77-83 and 85-91 *)
Definition tramp_x86_macho : list instr :=
  [Sto 4 "eax" "esp" 0; Sto 4 "edx" "esp" 4; Add "esp" "esp" (-4); Sto 4 "ebp" "esp" 0; Go "ebx"].
Definition finish_x86_macho : list instr :=
  [Li "eax" 0; Sto 4 "eax" "esp" 0; Ld 4 "status" "esp" 0; Exit "status"].

Definition port_x86_macho (cw : bool) : port := {|
  p_name := if cw then "i386 sysv macho" else "i386 sysv macho, BOOST_USE_TSX"; p_abi := abi_x86_macho cw;
  p_code := {| c_jump := jump_x86_macho cw; c_ontop := ontop_x86_macho cw; c_make := make_x86_macho;
               c_tramp := tramp_x86_macho; c_finish := finish_x86_macho;
               c_frame := 0x18; c_hid := 0; c_size := 0x34; c_mkoff := -8; c_mkal := 16;
               c_mkscr := 4; c_fin := []; c_tail := None; c_spslot := None |} |}.

(** ** i386, Microsoft *)

(** fiber storage (0x10), deallocation stack (0xe0c), stack limit (0x08), stack
    base (0x04) and SEH list (0x00) of the thread information block *)
Definition x86_ms_tib : list (string * Z) :=
  [("tib10", 8); ("tibe0c", 0xc); ("tib08", 0x10); ("tib04", 0x14); ("tib00", 0x18)].
Definition x86_ms_regs : list (string * Z) :=
  [("edi", 0x1c); ("esi", 0x20); ("ebx", 0x24); ("ebp", 0x28)].

(** Microsoft cdecl: edi, esi, ebx, ebp and the control words preserved; an
    8-byte struct is returned in eax:edx and passed on the stack; the stack is
    word aligned *)
Definition abi_x86_ms (cw : bool) : abi := {|
  ab_cpu := cpu_x86; ab_sp := "esp";
  ab_saved := names x86_ms_regs ++ names x86_ms_tib ++ (if cw then ["mxcsr"; "x87cw"] else []);
  ab_ctl := if cw then ["mxcsr"; "x87cw"] else [];
  ab_ret := PMem "esp" 0 4; ab_pop := 4; ab_pop0 := 4; ab_up := 0x10; ab_wr := 0; ab_home := 8;
  ab_to := PMem "esp" 4 4; ab_data := PMem "esp" 8 4; ab_fn := PMem "esp" 12 4;
  ab_hidden := None; ab_hidret := None;
  ab_res := (PReg "eax", PReg "edx");
  ab_ent := (PMem "esp" 4 4, PMem "esp" 8 4); ab_ont := (PMem "esp" 4 4, PMem "esp" 8 4);
  ab_mksp := PMem "esp" 4 4; ab_mkfn := PMem "esp" 12 4; ab_mkres := "eax";
  ab_jmp := []; ab_align := 4; ab_bias := 0 |}.

(** edx is the address of the block (fs:0x18) *)
Definition x86_tib_save : list instr :=
  La "edx" "TIB" ::
  flat_map (fun x => [Need "edx" "TIB"; Mov "eax" (fst x); Sto 4 "eax" "esp" (snd x)]) x86_ms_tib.
(** [r] is the scratch register: ecx in jump, eax in ontop *)
Definition x86_tib_load (r : string) : list instr :=
  La "edx" "TIB" ::
  flat_map (fun x => [Ld 4 r "esp" (snd x); Need "edx" "TIB"; Mov (fst x) r]) x86_ms_tib.

(** jump_i386_ms_pe_clang_gas.S:37-120 (jump_i386_ms_pe_gas.asm and
    jump_i386_ms_pe_masm.asm are the same instructions in another syntax) *)
Definition jump_x86_ms (cw : bool) : list instr :=
  [Add "esp" "esp" (-0x2c)] ++ cw_save cw "esp" ++                (* 39-46 *)
  x86_tib_save ++                                                 (* 49-64 *)
  saves 4 "esp" x86_ms_regs ++                                    (* 66-69 *)
  [Mov "eax" "esp"; Ld 4 "ecx" "esp" 0x30; Mov "esp" "ecx"] ++    (* 72-78 *)
  cw_load cw "esp" ++                                             (* 80-85 *)
  x86_tib_load "ecx" ++                                           (* 88-103 *)
  [Ld 4 "ecx" "esp" 0x2c] ++                                      (* 105 *)
  loads 4 "esp" x86_ms_regs ++                                    (* 107-110 *)
  [Add "esp" "esp" 0x30; Ld 4 "edx" "eax" 0x34; Go "ecx"].        (* 113-120 *)

(** ontop_i386_ms_pe_clang_gas.S:37-128 *)
Definition ontop_x86_ms (cw : bool) : list instr :=
  [Add "esp" "esp" (-0x2c)] ++ cw_save cw "esp" ++                (* 39-46 *)
  x86_tib_save ++                                                 (* 49-64 *)
  saves 4 "esp" x86_ms_regs ++                                    (* 66-69 *)
  [Mov "ecx" "esp"; Ld 4 "eax" "esp" 0x30; Sto 4 "ecx" "eax" 0x30;   (* 72-78 *)
   Ld 4 "ecx" "esp" 0x34; Sto 4 "ecx" "eax" 0x34;                 (* 81-84 *)
   Ld 4 "ecx" "esp" 0x38; Mov "esp" "eax"] ++                     (* 87-90 *)
  cw_load cw "esp" ++                                             (* 92-97 *)
  x86_tib_load "eax" ++                                           (* 100-115 *)
  loads 4 "esp" x86_ms_regs ++                                    (* 117-120 *)
  [Add "esp" "esp" 0x2c; Go "ecx"].                               (* 123-128 *)

(** make_i386_ms_pe_clang_gas.S:37-129.  Simplification: the loop that walks the
    chain of exception handlers (100-116) only reads; its result, the handler
    found at the end of the chain, is the content of the register "lastseh". *)
Definition make_x86_ms : list instr :=
  [Ld 4 "eax" "esp" 4; Add "eax" "eax" (-8); And "eax" "eax" (-16); Add "eax" "eax" (-0x40);  (* 39-52 *)
   Sto 4 "mxcsr" "eax" 0; Sto 2 "x87cw" "eax" 4;                  (* 55-57 *)
   Ld 4 "ecx" "esp" 4; Sto 4 "ecx" "eax" 0x14;                    (* 60-62 *)
   Ld 4 "edx" "esp" 8; Sub "ecx" "ecx" "edx";                     (* 64-68 *)
   Sto 4 "ecx" "eax" 0x10; Sto 4 "ecx" "eax" 0xc;                 (* 70-72 *)
   Li "ecx" 0; Sto 4 "ecx" "eax" 8;                               (* 74-75 *)
   Ld 4 "ecx" "esp" 0xc; Sto 4 "ecx" "eax" 0x24;                  (* 79-80 *)
   La "ecx" "trampoline"; Sto 4 "ecx" "eax" 0x2c;                 (* 83-86 *)
   La "ecx" "finish"; Sto 4 "ecx" "eax" 0x28;                     (* 89-92 *)
   Mov "ecx" "lastseh"; Sto 4 "ecx" "eax" 0x3c;                   (* 100-118 *)
   Li "ecx" 0xffffffff; Sto 4 "ecx" "eax" 0x38;                         (* 120-122 *)
   Add "ecx" "eax" 0x38; Sto 4 "ecx" "eax" 0x18;                  (* 124-126 *)
   Ld 4 "eip" "esp" 0; Add "esp" "esp" 4; Go "eip"].              (* 129 *)

(** make_i386_ms_pe_clang_gas.S:131-139 and 141-148 *)
Definition tramp_x86_ms : list instr :=
  [Sto 4 "eax" "esp" 0; Sto 4 "edx" "esp" 4; Add "esp" "esp" (-4); Sto 4 "ebp" "esp" 0; Go "ebx"].
Definition finish_x86_ms : list instr :=
  [Li "eax" 0; Sto 4 "eax" "esp" 0; Ld 4 "status" "esp" 0; Exit "status"].

Definition port_x86_ms (cw : bool) : port := {|
  p_name := if cw then "i386 ms pe" else "i386 ms pe, BOOST_USE_TSX"; p_abi := abi_x86_ms cw;
  p_code := {| c_jump := jump_x86_ms cw; c_ontop := ontop_x86_ms cw; c_make := make_x86_ms;
               c_tramp := tramp_x86_ms; c_finish := finish_x86_ms;
               c_frame := 0x2c; c_hid := 0; c_size := 0x40; c_mkoff := -8; c_mkal := 16;
               c_mkscr := 0; c_fin := []; c_tail := None; c_spslot := None |} |}.

(** ** arm, Mach-O *)

(** as AAPCS, but sp is only a multiple of 4 (iOS); the SjLj handler
    (TLS[__PTK_LIBC_DYLD_Unwind_SjLj_Key], the register "sjlj") belongs to the
    context.  The first context-data a new context gets for it is whatever is
    in its stack (make does not set it), so it is not in [ab_ctl]. *)
Definition abi_arm_macho (vfp : bool) : abi := {|
  ab_cpu := cpu_arm; ab_sp := "sp";
  ab_saved := names (arm_gp 0) ++ (if vfp then names arm_fp else []) ++ ["sjlj"]; ab_ctl := [];
  ab_ret := PReg "lr"; ab_pop := 0; ab_pop0 := 0; ab_up := 0; ab_wr := 0; ab_home := 0;
  ab_to := PReg "a2"; ab_data := PReg "a3"; ab_fn := PReg "a4";
  ab_hidden := Some (PReg "a1"); ab_hidret := None; ab_res := (PReg "a1", PReg "a2");
  ab_ent := (PReg "a1", PReg "a2"); ab_ont := (PReg "a2", PReg "a3");
  ab_mksp := PReg "a1"; ab_mkfn := PReg "a3"; ab_mkres := "a1";
  ab_jmp := []; ab_align := 4; ab_bias := 0 |}.

(** jump_arm_aapcs_macho_gas.S:45-96; v2 is the TLS base (52-53) *)
Definition jump_arm_macho (vfp : bool) : list instr :=
  [Add "sp" "sp" (-4); Sto 4 "lr" "sp" 0; Add "sp" "sp" (-40)] ++ (* 47, 49 *)
  saves 4 "sp" ([("a1", 0)] ++ arm_gp 4 ++ [("lr", 36)]) ++       (* 49 *)
  [La "v2" "TLS"; Need "v2" "TLS"; Mov "v1" "sjlj";                                (* 52-56 *)
   Add "sp" "sp" (-4); Sto 4 "v1" "sp" 0; Add "sp" "sp" (-64)] ++ (* 58-61 *)
  (if vfp then saves 8 "sp" arm_fp else []) ++                    (* 62-65 *)
  [Mov "a1" "sp"; Mov "sp" "a2"] ++                               (* 68-71 *)
  (if vfp then loads 8 "sp" arm_fp else []) ++                    (* 73-76 *)
  [Add "sp" "sp" 64; Ld 4 "v1" "sp" 0; Add "sp" "sp" 4;           (* 78-81 *)
   Need "v2" "TLS"; Mov "sjlj" "v1"] ++                                            (* 83 *)
  loads 4 "sp" ([("a4", 0)] ++ arm_gp 4 ++ [("lr", 36)]) ++       (* 86 *)
  [Add "sp" "sp" 40;
   Sto 4 "a1" "a4" 0; Sto 4 "a3" "a4" 4; Mov "a2" "a3";           (* 89-93 *)
   Ld 4 "pc" "sp" 0; Add "sp" "sp" 4; Go "pc"].                   (* 96 *)

(** ontop_arm_aapcs_macho_gas.S:45-101 *)
Definition ontop_arm_macho (vfp : bool) : list instr :=
  [Add "sp" "sp" (-4); Sto 4 "lr" "sp" 0; Add "sp" "sp" (-40)] ++ (* 47, 49 *)
  saves 4 "sp" ([("a1", 0)] ++ arm_gp 4 ++ [("lr", 36)]) ++       (* 49 *)
  [La "v2" "TLS"; Need "v2" "TLS"; Mov "v1" "sjlj";                                (* 52-56 *)
   Add "sp" "sp" (-4); Sto 4 "v1" "sp" 0; Add "sp" "sp" (-64)] ++ (* 58-61 *)
  (if vfp then saves 8 "sp" arm_fp else []) ++                    (* 62-65 *)
  [Mov "a1" "sp"; Mov "sp" "a2"] ++                               (* 68-71 *)
  (if vfp then loads 8 "sp" arm_fp else []) ++                    (* 73-76 *)
  [Add "sp" "sp" 64; Ld 4 "v1" "sp" 0; Add "sp" "sp" 4;           (* 78-81 *)
   Need "v2" "TLS"; Mov "sjlj" "v1"; Mov "a2" "a1"] ++                             (* 83-86 *)
  loads 4 "sp" ([("a1", 0)] ++ arm_gp 4 ++ [("lr", 36)]) ++       (* 89 *)
  [Add "sp" "sp" 40;
   Sto 4 "a2" "a1" 0; Sto 4 "a3" "a1" 4; Add "sp" "sp" 4; Go "a4"].   (* 92-101 *)

(** make_arm_aapcs_macho_gas.S:45-66; finish (68-72) is that of ELF *)
Definition make_arm_macho : list instr :=
  [And "a1" "a1" (-16); Add "a1" "a1" (-124); Sto 4 "a3" "a1" 108;    (* 47-53 *)
   Add "a2" "a1" 112; Mov "a3" "a2"; Sto 4 "a3" "a1" 68;          (* 56-58 *)
   La "a2" "finish"; Sto 4 "a2" "a1" 104; Go "lr"].               (* 61-66 *)

Definition port_arm_macho (vfp : bool) : port := {|
  p_name := if vfp then "arm aapcs macho" else "arm aapcs macho, soft float"; p_abi := abi_arm_macho vfp;
  p_code := {| c_jump := jump_arm_macho vfp; c_ontop := ontop_arm_macho vfp; c_make := make_arm_macho;
               c_tramp := []; c_finish := finish_arm;
               c_frame := 112; c_hid := 68; c_size := 124; c_mkoff := 0; c_mkal := 16;
               c_mkscr := 0; c_fin := []; c_tail := None; c_spslot := None |} |}.

(** ** arm, Windows *)

(** stack base (0x04), stack limit (0x08), deallocation stack (0xe0c) *)
Definition arm_pe_tib : list string := ["tib04"; "tib08"; "tibe0c"].

(** d8-d15 are left out: the port does not preserve them (see
    [C26_arm_pe_fp_refuted]) *)
Definition abi_arm_pe : abi := {|
  ab_cpu := cpu_arm; ab_sp := "sp";
  ab_saved := names (arm_gp 0) ++ arm_pe_tib; ab_ctl := [];
  ab_ret := PReg "lr"; ab_pop := 0; ab_pop0 := 0; ab_up := 0; ab_wr := 0; ab_home := 0;
  ab_to := PReg "a2"; ab_data := PReg "a3"; ab_fn := PReg "a4";
  ab_hidden := Some (PReg "a1"); ab_hidret := None; ab_res := (PReg "a1", PReg "a2");
  ab_ent := (PReg "a1", PReg "a2"); ab_ont := (PReg "a2", PReg "a3");
  ab_mksp := PReg "a1"; ab_mkfn := PReg "a3"; ab_mkres := "a1";
  ab_jmp := []; ab_align := 8; ab_bias := 0 |}.

Definition arm_push (r : string) : list instr := [Add "sp" "sp" (-4); Sto 4 r "sp" 0].
Definition arm_pop (r : string) : list instr := [Ld 4 r "sp" 0; Add "sp" "sp" 4].

(** jump_arm_aapcs_pe_armasm.asm:31-78; v1 is the address of the TIB (39).
    Simplification: the scratch register is called a5 in the source, which is no
    register name of the AAPCS; it is taken to be a register that holds nothing
    the caller relies on. *)
Definition jump_arm_pe : list instr :=
  arm_push "lr" ++ [Add "sp" "sp" (-40)] ++                       (* 33, 35 *)
  saves 4 "sp" ([("a1", 0)] ++ arm_gp 4 ++ [("lr", 36)]) ++       (* 35 *)
  [La "v1" "TIB"] ++                                              (* 39 *)
  flat_map (fun r => Need "v1" "TIB" :: Mov "a5" r :: arm_push "a5") ["tib04"; "tib08"; "tibe0c"] ++   (* 42-49 *)
  [Mov "a1" "sp"; Mov "sp" "a2"] ++                               (* 52-55 *)
  flat_map (fun r => (arm_pop "a5" ++ [Need "v1" "TIB"; Mov r "a5"])%list) ["tibe0c"; "tib08"; "tib04"] ++    (* 58-65 *)
  loads 4 "sp" ([("a4", 0)] ++ arm_gp 4 ++ [("lr", 36)]) ++       (* 68 *)
  [Add "sp" "sp" 40;
   Sto 4 "a1" "a4" 0; Sto 4 "a3" "a4" 4; Mov "a2" "a3"] ++        (* 71-75 *)
  arm_pop "pc" ++ [Go "pc"].                                      (* 78 *)

(** ontop_arm_aapcs_pe_armasm.asm:31-83.  It uses a1 as the scratch register
    (58-65) although a1 holds the handle of the caller, and restores stack base
    and deallocation stack in the wrong order; see [C28_arm_pe_refuted]. *)
Definition ontop_arm_pe : list instr :=
  arm_push "lr" ++ [Add "sp" "sp" (-40)] ++                       (* 33, 35 *)
  saves 4 "sp" ([("a1", 0)] ++ arm_gp 4 ++ [("lr", 36)]) ++       (* 35 *)
  [La "v1" "TIB"] ++                                              (* 39 *)
  flat_map (fun r => Need "v1" "TIB" :: Mov "a1" r :: arm_push "a1") ["tib04"; "tib08"; "tibe0c"] ++   (* 42-49 *)
  [Mov "a1" "sp"; Mov "sp" "a2"] ++                               (* 52-55 *)
  flat_map (fun r => (arm_pop "a1" ++ [Need "v1" "TIB"; Mov r "a1"])%list) ["tib04"; "tib08"; "tibe0c"] ++    (* 58-65 *)
  [Mov "a2" "a1"] ++                                              (* 68 *)
  loads 4 "sp" ([("a1", 0)] ++ arm_gp 4 ++ [("lr", 36)]) ++       (* 71 *)
  [Add "sp" "sp" 40;
   Sto 4 "a2" "a1" 0; Sto 4 "a3" "a1" 4; Add "sp" "sp" 4; Go "a4"].   (* 74-83 *)

(** make_arm_aapcs_pe_armasm.asm:33-68; finish (70-74) is that of ELF *)
Definition make_arm_pe : list instr :=
  [Mov "a4" "a1"; And "a1" "a1" (-16); Add "a1" "a1" (-0x48);     (* 36-42 *)
   Sto 4 "a4" "a1" 8; Sub "a4" "a4" "a2"; Sto 4 "a4" "a1" 4; Sto 4 "a4" "a1" 0;  (* 45-52 *)
   Sto 4 "a3" "a1" 0x34;                                          (* 55 *)
   Add "a2" "a1" 0x38; Mov "a3" "a2"; Sto 4 "a3" "a1" 0xc;        (* 58-60 *)
   La "a2" "finish"; Sto 4 "a2" "a1" 0x30; Go "lr"].              (* 63-68 *)

(** [ontop]: with the code of ontop_fcontext or without it *)
Definition port_arm_pe (ontop : bool) : port := {|
  p_name := "arm aapcs pe"; p_abi := abi_arm_pe;
  p_code := {| c_jump := jump_arm_pe; c_ontop := if ontop then ontop_arm_pe else []; c_make := make_arm_pe;
               c_tramp := []; c_finish := finish_arm;
               c_frame := 56; c_hid := 0xc; c_size := 0x48; c_mkoff := 0; c_mkal := 16;
               c_mkscr := 0; c_fin := []; c_tail := None; c_spslot := None |} |}.

(** ** arm64, Windows *)

(** stack base (0x08), stack limit (0x10), deallocation stack (0x1478), fiber
    data (0x20); x18 points to the block *)
Definition arm64_pe_tib : list (string * Z) :=
  [("tib08", 0xa0); ("tib10", 0xa8); ("tib1478", 0xb0); ("tib20", 0xb8)].

Definition abi_arm64_pe : abi := {|
  ab_cpu := cpu_64 false; ab_sp := "sp";
  ab_saved := names arm64_gp ++ names arm64_fp ++ names arm64_pe_tib; ab_ctl := [];
  ab_ret := PReg "x30"; ab_pop := 0; ab_pop0 := 0; ab_up := 0; ab_wr := 0; ab_home := 0;
  ab_to := PReg "x0"; ab_data := PReg "x1"; ab_fn := PReg "x2";
  ab_hidden := None; ab_hidret := None; ab_res := (PReg "x0", PReg "x1");
  ab_ent := (PReg "x0", PReg "x1"); ab_ont := (PReg "x0", PReg "x1");
  ab_mksp := PReg "x0"; ab_mkfn := PReg "x2"; ab_mkres := "x0";
  ab_jmp := []; ab_align := 16; ab_bias := 0 |}.

Definition arm64_tib_save : list instr :=
  [Mov "x5" "tib08"; Mov "x6" "tib10"; Sto 8 "x5" "sp" 0xa0; Sto 8 "x6" "sp" 0xa8;       (* 91-92 *)
   Mov "x5" "tib1478"; Mov "x6" "tib20"; Sto 8 "x5" "sp" 0xb0; Sto 8 "x6" "sp" 0xb8].    (* 94-96 *)
Definition arm64_tib_load : list instr :=
  [Ld 8 "x5" "sp" 0xa0; Ld 8 "x6" "sp" 0xa8; Mov "tib08" "x5"; Mov "tib10" "x6";         (* 105-106 *)
   Ld 8 "x5" "sp" 0xb0; Ld 8 "x6" "sp" 0xb8; Mov "tib1478" "x5"; Mov "tib20" "x6"].      (* 108-110 *)

(** jump_arm64_aapcs_pe_armclang.S:68-137 (same in jump_arm64_aapcs_pe_armasm.asm) *)
Definition jump_arm64_pe : list instr :=
  [Add "sp" "sp" (-0xd0)] ++                                      (* 71 *)
  saves 8 "sp" arm64_fp ++                                        (* 74-77 *)
  saves 8 "sp" (arm64_gp ++ [("x30", 0x98)]) ++                   (* 80-85 *)
  [Sto 8 "x30" "sp" 0xc0] ++ arm64_tib_save ++                    (* 88-96 *)
  [Mov "x4" "sp"; Mov "sp" "x0"] ++ arm64_tib_load ++             (* 99-110 *)
  loads 8 "sp" arm64_fp ++                                        (* 113-116 *)
  loads 8 "sp" (arm64_gp ++ [("x30", 0x98)]) ++                   (* 119-124 *)
  [Mov "x0" "x4"; Ld 8 "x4" "sp" 0xc0; Add "sp" "sp" 0xd0; Go "x4"].  (* 129-137 *)

(** ontop_arm64_aapcs_pe_armclang.S:68-136 (same in ontop_arm64_aapcs_pe_armasm.asm);
    line 133 pops 0xc0 bytes although 0xd0 were pushed; see [C28_arm64_pe_refuted] *)
Definition ontop_arm64_pe : list instr :=
  [Add "sp" "sp" (-0xd0)] ++                                      (* 71 *)
  saves 8 "sp" arm64_fp ++                                        (* 74-77 *)
  saves 8 "sp" (arm64_gp ++ [("x30", 0x98)]) ++                   (* 80-85 *)
  [Sto 8 "x30" "sp" 0xc0] ++ arm64_tib_save ++                    (* 88-96 *)
  [Mov "x4" "sp"; Mov "sp" "x0"] ++ arm64_tib_load ++             (* 99-110 *)
  loads 8 "sp" arm64_fp ++                                        (* 113-116 *)
  loads 8 "sp" (arm64_gp ++ [("x30", 0x98)]) ++                   (* 119-124 *)
  [Mov "x0" "x4"; Add "sp" "sp" 0xc0; Go "x2"].                   (* 129-136 *)

(** make_arm64_aapcs_pe_armclang.S:69-100 *)
Definition make_arm64_pe : list instr :=
  [Mov "x3" "x0"; And "x0" "x0" (-16); Add "x0" "x0" (-0xd0);     (* 72-78 *)
   Sto 8 "x3" "x0" 0xa0; Sub "x3" "x3" "x1"; Sto 8 "x3" "x0" 0xa8; Sto 8 "x3" "x0" 0xb0;  (* 81-84 *)
   Li "xzr" 0; Sto 8 "xzr" "x0" 0xb8; Sto 8 "x2" "x0" 0x40;       (* 86-90 *)
   La "x2" "trampoline"; Sto 8 "x2" "x0" 0xc0;                    (* 92-93 *)
   La "x1" "finish"; Sto 8 "x1" "x0" 0x98; Go "x30"].             (* 97-100 *)

(** make_arm64_aapcs_pe_armclang.S:102-105; blr leaves the address of the next
    instruction, which is [finish], in x30 *)
Definition tramp_arm64_pe : list instr :=
  [Add "sp" "sp" (-0x10); Sto 8 "x29" "sp" 0; Sto 8 "x30" "sp" 8; Mov "x29" "sp";  (* 103-104 *)
   La "x30" "finish"; Go "x19"].                                  (* 105 *)

(** finish (107-111) is that of ELF *)
Definition port_arm64_pe (ontop : bool) : port := {|
  p_name := "arm64 aapcs pe"; p_abi := abi_arm64_pe;
  p_code := {| c_jump := jump_arm64_pe; c_ontop := if ontop then ontop_arm64_pe else []; c_make := make_arm64_pe;
               c_tramp := tramp_arm64_pe; c_finish := finish_arm64;
               c_frame := 0xd0; c_hid := 0; c_size := 0xd0; c_mkoff := 0; c_mkal := 16;
               c_mkscr := 0; c_fin := []; c_tail := None; c_spslot := None |} |}.

(** ** ppc32 *)

Definition ppc32_fp (b : Z) : list (string * Z) :=
  [("f14", b); ("f15", b + 8); ("f16", b + 16); ("f17", b + 24); ("f18", b + 32); ("f19", b + 40);
   ("f20", b + 48); ("f21", b + 56); ("f22", b + 64); ("f23", b + 72); ("f24", b + 80); ("f25", b + 88);
   ("f26", b + 96); ("f27", b + 104); ("f28", b + 112); ("f29", b + 120); ("f30", b + 128); ("f31", b + 136)].
Definition ppc32_gp (b : Z) : list (string * Z) :=
  [("r14", b); ("r15", b + 4); ("r16", b + 8); ("r17", b + 12); ("r18", b + 16); ("r19", b + 20);
   ("r20", b + 24); ("r21", b + 28); ("r22", b + 32); ("r23", b + 36); ("r24", b + 40); ("r25", b + 44);
   ("r26", b + 48); ("r27", b + 52); ("r28", b + 56); ("r29", b + 60); ("r30", b + 64); ("r31", b + 68)].

(** [mffs]/[mtfsf] move the 8-byte register "fpscr" to and from f0 *)
Definition cpu_ppc32 : cpu :=
  Cpu 4 true ([("fpscr", 8); ("f0", 8)] ++ map (fun r => (r, 8)) (names (ppc32_fp 0))).

(** PowerPC System V: r14-r31, f14-f31 and cr preserved (the port keeps fpscr,
    too); lr is the return address and is saved in the word at r1 + 4 of the
    caller's frame.  A struct of two pointers is passed by reference.  On Linux
    it is returned through a hidden pointer (r3), elsewhere in r3:r4. *)
Definition abi_ppc32 (linux : bool) : abi := {|
  ab_cpu := cpu_ppc32; ab_sp := "r1";
  ab_saved := names (ppc32_gp 0) ++ names (ppc32_fp 0) ++ ["cr"; "fpscr"]; ab_ctl := ["fpscr"];
  ab_ret := PReg "lr"; ab_pop := 0; ab_pop0 := 0; ab_up := 8; ab_wr := 8; ab_home := 8;
  ab_to := PReg (if linux then "r4" else "r3"); ab_data := PReg (if linux then "r5" else "r4");
  ab_fn := PReg (if linux then "r6" else "r5");
  ab_hidden := if linux then Some (PReg "r3") else None; ab_hidret := if linux then Some "r3" else None;
  ab_res := (PReg "r3", PReg "r4");
  ab_ent := (PMem "r3" 0 4, PMem "r3" 4 4);
  (* the arguments of ontop_fcontext_tail *)
  ab_ont := if linux then (PReg "r7", PReg "r5") else (PReg "r6", PReg "r4");
  ab_mksp := PReg "r3"; ab_mkfn := PReg "r5"; ab_mkres := "r3";
  ab_jmp := []; ab_align := 16; ab_bias := 0 |}.

(** jump_ppc32_sysv_elf_gas.S:59-198; [stwu] (store and move the stack pointer) is three steps here,
    with r1' for the value that it stores *)
Definition jump_ppc32 (linux : bool) : list instr :=
  [Mov "r0" "lr"; Mov "f0" "fpscr"; Mov "r8" "cr";                (* 63-65 *)
   Mov "r1'" "r1"; Add "r1" "r1" (-240); Sto 4 "r1'" "r1" 0; Sto 4 "r0" "r1" 244] ++   (* 67-68 *)
  (if linux then [Sto 4 "r3" "r1" 4] else []) ++                  (* 70-72 *)
  [Sto 8 "f0" "r1" 8; Sto 4 "r0" "r1" 16; Sto 4 "r8" "r1" 20] ++  (* 74-76 *)
  saves 4 "r1" (ppc32_gp 24) ++ saves 8 "r1" (ppc32_fp 96) ++     (* 81-120 *)
  (if linux then [Mov "r7" "r1"; Mov "r1" "r4"; Ld 4 "r3" "r1" 4] (* 125-127 *)
   else [Mov "r6" "r1"; Mov "r1" "r3"]) ++                        (* 129-130 *)
  [Ld 8 "f0" "r1" 8; Ld 4 "r0" "r1" 16; Ld 4 "r8" "r1" 20;        (* 133-135 *)
   Mov "fpscr" "f0"; Mov "ctr" "r0"; Mov "cr" "r8"] ++            (* 137-139 *)
  loads 4 "r1" (ppc32_gp 24) ++ loads 8 "r1" (ppc32_fp 96) ++     (* 142-179 *)
  [Ld 4 "r0" "r1" 244; Mov "lr" "r0"; Add "r1" "r1" 240] ++       (* 182-186 *)
  (if linux then [Sto 4 "r7" "r3" 0; Sto 4 "r5" "r3" 4]           (* 190-191 *)
   else [Mov "r3" "r6"]) ++                                       (* 193 *)
  [Go "ctr"].                                                     (* 198 *)

(** ontop_ppc32_sysv_elf_gas.S:59-190; it branches to ontop_fcontext_tail
    (tail_ontop_ppc32_sysv.cpp:15-18), compiled C++ that returns
    fn( transfer_t{ from, vp }) *)
Definition ontop_ppc32 (linux : bool) : list instr :=
  [Mov "r0" "lr"; Mov "f0" "fpscr"; Mov "r8" "cr";                (* 63-65 *)
   Mov "r1'" "r1"; Add "r1" "r1" (-240); Sto 4 "r1'" "r1" 0; Sto 4 "r0" "r1" 244] ++   (* 67-68 *)
  (if linux then [Sto 4 "r3" "r1" 4] else []) ++                  (* 70-72 *)
  [Sto 8 "f0" "r1" 8; Sto 4 "r0" "r1" 16; Sto 4 "r8" "r1" 20] ++  (* 74-76 *)
  saves 4 "r1" (ppc32_gp 24) ++ saves 8 "r1" (ppc32_fp 96) ++     (* 81-120 *)
  (if linux then [Mov "r7" "r1"; Mov "r1" "r4"; Ld 4 "r3" "r1" 4] (* 125-127 *)
   else [Mov "r6" "r1"; Mov "r1" "r3"]) ++                        (* 129-130 *)
  [Ld 8 "f0" "r1" 8; Ld 4 "r8" "r1" 20; Mov "fpscr" "f0"; Mov "cr" "r8"] ++  (* 134-138 *)
  loads 4 "r1" (ppc32_gp 24) ++ loads 8 "r1" (ppc32_fp 96) ++     (* 141-178 *)
  [Ld 4 "r0" "r1" 244; Mov "lr" "r0"; Add "r1" "r1" 240;          (* 181-185 *)
   La "pc" "ontop_fcontext_tail"; Go "pc"].                       (* 190 *)

(** make_ppc32_sysv_elf_gas.S:59-111 *)
Definition make_ppc32 (linux : bool) : list instr :=
  [Mov "r6" "lr"; And "r3" "r3" (-16); Add "r3" "r3" (-256);      (* 61-69 *)
   Sto 4 "r5" "r3" (if linux then 16 else 248);                   (* 72-78 *)
   Li "r0" 0; Sto 4 "r0" "r3" 240;                                (* 81-82 *)
   Mov "f0" "fpscr"; Sto 8 "f0" "r3" 8] ++                        (* 85-86 *)
  (if linux then [Add "r0" "r3" 248; Sto 4 "r0" "r3" 4] else []) ++   (* 88-92 *)
  [La "lr" "1"; Mov "r4" "lr"] ++                                 (* 95-96 *)
  (if linux then [] else [Need "r4" "1"; La "r7" "trampoline"; Sto 4 "r7" "r3" 16]) ++   (* 97-101 *)
  [Need "r4" "1"; La "r4" "finish"; Sto 4 "r4" "r3" 244; Mov "lr" "r6"; Go "lr"].    (* 103-111 *)

(** make_ppc32_sysv_elf_gas.S:113-124 *)
Definition tramp_ppc32 (linux : bool) : list instr :=
  if linux then [] else
  [Ld 4 "r0" "r1" 8; Mov "ctr" "r0"; Sto 4 "r3" "r1" 8; Sto 4 "r4" "r1" 12; Add "r3" "r1" 8; Go "ctr"].

(** make_ppc32_sysv_elf_gas.S:126-139 *)
Definition finish_ppc32 : list instr :=
  [La "lr" "2"; Mov "r30" "lr"; Need "r30" "2"; La "r30" ".Ltoc"; Li "r3" 0; Need "r30" ".Ltoc"; Exit "r3"].

Definition port_ppc32 (linux : bool) : port := {|
  p_name := if linux then "ppc32 sysv elf, Linux" else "ppc32 sysv elf, not Linux"; p_abi := abi_ppc32 linux;
  p_code := {| c_jump := jump_ppc32 linux; c_ontop := ontop_ppc32 linux; c_make := make_ppc32 linux;
               c_tramp := tramp_ppc32 linux; c_finish := finish_ppc32;
               c_frame := 240; c_hid := 4; c_size := 256; c_mkoff := 0; c_mkal := 16;
               c_mkscr := 0; c_fin := [];
               c_tail := Some ("ontop_fcontext_tail", PReg (if linux then "r6" else "r5")); c_spslot := None |} |}.

(** *** Mach-O *)

(** Darwin ppc32: r13-r31, f14-f31 and cr preserved; transfer_t is returned
    through a hidden pointer (r3) and passed in r3:r4.  r1 should be a multiple
    of 16 at function entry, but the port does not care for it (see
    [C27_ppc32_macho_alignment_refuted]), so the convention here is 4. *)
Definition abi_ppc32_macho : abi := {|
  ab_cpu := cpu_ppc32; ab_sp := "r1";
  ab_saved := "r13" :: names (ppc32_gp 0) ++ names (ppc32_fp 0) ++ ["cr"; "fpscr"]; ab_ctl := ["fpscr"];
  ab_ret := PReg "lr"; ab_pop := 0; ab_pop0 := 0; ab_up := 0; ab_wr := 0; ab_home := 56;
  ab_to := PReg "r4"; ab_data := PReg "r5"; ab_fn := PReg "r6";
  ab_hidden := Some (PReg "r3"); ab_hidret := Some "r3"; ab_res := (PReg "r3", PReg "r4");
  ab_ent := (PReg "r3", PReg "r4"); ab_ont := (PReg "r7", PReg "r5");
  ab_mksp := PReg "r3"; ab_mkfn := PReg "r5"; ab_mkres := "r3";
  ab_jmp := []; ab_align := 4; ab_bias := 0 |}.

Definition ppc32_macho_gp : list (string * Z) := ("r13", 152) :: ppc32_gp 156.

(** jump_ppc32_sysv_macho_gas.S:80-202 *)
Definition jump_ppc32_macho : list instr :=
  [Add "r1" "r1" (-244)] ++ saves 8 "r1" (ppc32_fp 0) ++          (* 82-101 *)
  [Mov "f0" "fpscr"; Sto 8 "f0" "r1" 144] ++                      (* 102-103 *)
  saves 4 "r1" (ppc32_macho_gp ++ [("r3", 228)]) ++               (* 105-124 *)
  [Mov "r0" "cr"; Sto 4 "r0" "r1" 232; Mov "r0" "lr"; Sto 4 "r0" "r1" 236; Sto 4 "r0" "r1" 240;  (* 127-133 *)
   Mov "r6" "r1"; Mov "r1" "r4"] ++                               (* 136-139 *)
  loads 8 "r1" (ppc32_fp 0) ++                                    (* 141-158 *)
  [Ld 8 "f0" "r1" 144; Mov "fpscr" "f0"] ++                       (* 159-160 *)
  loads 4 "r1" (ppc32_macho_gp ++ [("r3", 228)]) ++               (* 162-181 *)
  [Ld 4 "r0" "r1" 232; Mov "cr" "r0"; Ld 4 "r0" "r1" 236; Mov "lr" "r0";   (* 184-188 *)
   Ld 4 "r0" "r1" 240; Mov "ctr" "r0"; Add "r1" "r1" 244;         (* 190-195 *)
   Sto 4 "r6" "r3" 0; Sto 4 "r5" "r3" 4; Go "ctr"].               (* 198-202 *)

(** ontop_ppc32_sysv_macho_gas.S:80-202 *)
Definition ontop_ppc32_macho : list instr :=
  [Add "r1" "r1" (-244)] ++ saves 8 "r1" (ppc32_fp 0) ++          (* 82-101 *)
  [Mov "f0" "fpscr"; Sto 8 "f0" "r1" 144] ++                      (* 102-103 *)
  saves 4 "r1" (ppc32_macho_gp ++ [("r3", 228)]) ++               (* 105-124 *)
  [Mov "r0" "cr"; Sto 4 "r0" "r1" 232; Mov "r0" "lr"; Sto 4 "r0" "r1" 236; Sto 4 "r0" "r1" 240;  (* 127-133 *)
   Mov "r7" "r1"; Mov "r1" "r4"] ++                               (* 136-139 *)
  loads 8 "r1" (ppc32_fp 0) ++                                    (* 141-158 *)
  [Ld 8 "f0" "r1" 144; Mov "fpscr" "f0"] ++                       (* 159-160 *)
  loads 4 "r1" (ppc32_macho_gp ++ [("r3", 228)]) ++               (* 162-181 *)
  [Ld 4 "r0" "r1" 232; Mov "cr" "r0"; Ld 4 "r0" "r1" 236; Mov "lr" "r0"; Add "r1" "r1" 244;  (* 184-192 *)
   La "pc" "ontop_fcontext_tail"; Go "pc"].                       (* 202 *)

(** make_ppc32_sysv_macho_gas.S:80-129 *)
Definition make_ppc32_macho : list instr :=
  [Mov "r6" "lr"; And "r3" "r3" (-16); Add "r3" "r3" (-336);      (* 82-90 *)
   Sto 4 "r5" "r3" 224; Li "r0" 0; Sto 4 "r0" "r3" 244;           (* 94-98 *)
   Mov "f0" "fpscr"; Sto 8 "f0" "r3" 144;                         (* 100-101 *)
   Add "r0" "r3" 252; Mov "r4" "r0"; Sto 4 "r4" "r3" 228;         (* 104-106 *)
   Mov "r0" "lr"; La "lr" "L1"; Mov "r4" "lr"; Need "r4" "L1";    (* 109-114 *)
   La "r5" "trampoline"; Sto 4 "r5" "r3" 240; Need "r4" "L1"; La "r4" "finish"; Mov "lr" "r0";   (* 116-121 *)
   Sto 4 "r4" "r3" 236; Mov "lr" "r6"; Go "lr"].                  (* 124-129 *)

(** make_ppc32_sysv_macho_gas.S:131-137 and 139-150 *)
Definition tramp_ppc32_macho : list instr :=
  [Mov "ctr" "r31"; Ld 4 "r4" "r3" 4; Ld 4 "r3" "r3" 0; Go "ctr"].
Definition finish_ppc32_macho : list instr :=
  [La "lr" "L2"; Mov "r4" "lr"; Need "r4" "L2"; La "r4" "__exit"; Mov "ctr" "r4"; Li "r3" 0;
   Need "ctr" "__exit"; Exit "r3"].

Definition port_ppc32_macho : port := {|
  p_name := "ppc32 sysv macho"; p_abi := abi_ppc32_macho;
  p_code := {| c_jump := jump_ppc32_macho; c_ontop := ontop_ppc32_macho; c_make := make_ppc32_macho;
               c_tramp := tramp_ppc32_macho; c_finish := finish_ppc32_macho;
               c_frame := 244; c_hid := 228; c_size := 336; c_mkoff := 0; c_mkal := 16;
               c_mkscr := 0; c_fin := []; c_tail := Some ("ontop_fcontext_tail", PReg "r6"); c_spslot := None |} |}.

(** ** sparc64 *)

(** The registers have the names of the caller's window; registers of the window
    that [save] opens are called n-something where they are not the caller's
    out-registers (the callee's %i0-%i7; %fp is the caller's %sp).  The stack
    pointer is biased by 2047.

    Simplification: the register windows are an unbounded register file, except
    for [flushw] (jump L38), which writes the locals and ins of the caller's
    window to its save area, and the [restore] that follows it, which finds the
    window empty and fills it from the save area at the new %sp. *)
Definition sparc_win : list (string * Z) :=
  [("l0", 2047); ("l1", 2055); ("l2", 2063); ("l3", 2071); ("l4", 2079); ("l5", 2087); ("l6", 2095); ("l7", 2103);
   ("i0", 2111); ("i1", 2119); ("i2", 2127); ("i3", 2135); ("i4", 2143); ("i5", 2151); ("i6", 2159); ("i7", 2167)].

(** SPARC V9 ABI: locals and ins preserved; %o7 holds the address of the call, to
    whose second successor the callee returns (so the labels trampoline and
    finish stand for those addresses minus 8); a struct of two pointers is passed
    and returned in o0:o1; %sp + 2047 is a multiple of 16; floating-point
    registers are not preserved by calls. *)
Definition abi_sparc64 : abi := {|
  ab_cpu := cpu_64 true; ab_sp := "sp"; ab_saved := names sparc_win; ab_ctl := [];
  ab_ret := PReg "o7"; ab_pop := 0; ab_pop0 := 0; ab_up := 2047 + 128; ab_wr := 2047 + 128; ab_home := 2047 + 176;
  ab_to := PReg "o0"; ab_data := PReg "o1"; ab_fn := PReg "o2";
  ab_hidden := None; ab_hidret := None; ab_res := (PReg "o0", PReg "o1");
  ab_ent := (PReg "o0", PReg "o1"); ab_ont := (PReg "o0", PReg "o1");
  ab_mksp := PReg "o0"; ab_mkfn := PReg "o2"; ab_mkres := "o0";
  ab_jmp := []; ab_align := 16; ab_bias := 2047 |}.

(** jump_sparc64_sysv_elf_gas.S:28-46 and ontop_sparc64_sysv_elf_gas.S:21-42, up
    to the jump *)
Definition switch_sparc64 : list instr :=
  [Add "nsp" "sp" (-176);                                         (* 30 *)
   Sto 8 "sp" "nsp" (2047 + 128); Sto 8 "o7" "nsp" (2047 + 136);  (* 34-35 *)
   Mov "no0" "nsp"] ++                                            (* 36 *)
  saves 8 "sp" sparc_win ++                                       (* 38 flushw *)
  [Mov "nsp" "o0"; Ld 8 "sp" "nsp" (2047 + 128); Ld 8 "o7" "nsp" (2047 + 136)] ++   (* 40-43 *)
  loads 8 "sp" sparc_win ++ [Mov "o0" "no0"].                     (* 46 restore *)
Definition jump_sparc64 : list instr := switch_sparc64 ++ [Go "o7"].   (* 45 *)
Definition ontop_sparc64 : list instr := switch_sparc64 ++ [Go "o2"].  (* ontop 46 *)

(** make_sparc64_sysv_elf_gas.S:22-54; [m] is the mask of line 26 *)
Definition make_sparc64_with (m : Z) : list instr :=
  [Add "nsp" "sp" (-176);                                         (* 23 *)
   And "o0" "o0" m; Add "o0" "o0" (-352);                         (* 26, 31 *)
   Sto 8 "o2" "o0" (176 + 136); Li "g0" 0; Sto 8 "g0" "o0" (176 + 112);   (* 36-37 *)
   La "nl0" "trampoline"; Sto 8 "nl0" "o0" 136;                   (* 44-46 *)
   Add "nl0" "o0" (176 - 2047); Sto 8 "nl0" "o0" 128;             (* 49-50 *)
   Add "o0" "o0" (-2047); Go "o7"].                               (* 53-54 *)
(** The source has the mask -0xf, which leaves the lowest bit as it is.
    Simplification: the verified code has -16; for even stack addresses, and an
    address returned by a stack allocator is even, it does the same
    ([make_sparc64_even]). *)
Definition make_sparc64_src : list instr := make_sparc64_with (-15).
Definition make_sparc64 : list instr := make_sparc64_with (-16).

(** make_sparc64_sysv_elf_gas.S:56-61 and 63-64 *)
Definition tramp_sparc64 : list instr :=
  [Ld 8 "l0" "sp" (2047 + 136); La "o7" "finish"; Go "l0"].
Definition finish_sparc64 : list instr := [Li "o0" 0; Exit "o0"].

Definition port_sparc64 : port := {|
  p_name := "sparc64 sysv elf"; p_abi := abi_sparc64;
  p_code := {| c_jump := jump_sparc64; c_ontop := ontop_sparc64; c_make := make_sparc64;
               c_tramp := tramp_sparc64; c_finish := finish_sparc64;
               c_frame := 176; c_hid := 0; c_size := 352 + 2047; c_mkoff := 0; c_mkal := 16;
               c_mkscr := 0; c_fin := []; c_tail := None; c_spslot := Some (2047 + 128) |} |}.

(** ** PowerPC with function descriptors: ppc64 ELFv1, XCOFF (AIX) *)

(** A function pointer is the address of a descriptor that holds the entry point
    and the TOC pointer of the function.  Simplification: descriptors are
    constant data, so their contents are pseudo-registers here, e.g. "r5.pc" and
    "r5.toc" for the two words at the address in r5.

    The convention of ELFv1 and AIX: r14-r31 and cr preserved; transfer_t is
    returned through a hidden pointer (r3) and passed in two registers.  The
    floating-point registers are left out, as for ELFv2.  r2 is switched by jump,
    but not by ontop, which loads the TOC of fn.  A callee may write to the
    linkage area and the parameter save area above sp, 112 bytes (AIX, 32 bits:
    56); the ports leave less below the top of a new stack (64 and 32, see
    [C27_ppc64_descriptor_area_refuted]). *)
Definition abi_ppc64d : abi := {|
  ab_cpu := cpu_64 true; ab_sp := "r1";
  ab_saved := names ppc64_gp ++ ["cr"]; ab_ctl := [];
  ab_ret := PReg "lr"; ab_pop := 0; ab_pop0 := 0; ab_up := 0; ab_wr := 0; ab_home := 64;
  ab_to := PReg "r4"; ab_data := PReg "r5"; ab_fn := PReg "r6.pc";
  ab_hidden := Some (PReg "r3"); ab_hidret := Some "r3"; ab_res := (PReg "r3", PReg "r4");
  ab_ent := (PReg "r3", PReg "r4"); ab_ont := (PReg "r4", PReg "r5");
  ab_mksp := PReg "r3"; ab_mkfn := PReg "r5.pc"; ab_mkres := "r3";
  ab_jmp := ["r2"]; ab_align := 16; ab_bias := 0 |}.

(** the two arms after "cmpdi r3, 0; beq use_entry_arg" as conditional
    instructions; n is the size of a word *)
Definition transfer_ppc (n : Z) : list instr :=
  [Mov "cc" "r3"; Stonz "cc" n "r6" "r3" 0; Stonz "cc" n "r5" "r3" n;
   Addz "cc" "r3" "r6" 0; Addz "cc" "r4" "r5" 0; Go "ctr"].

(** jump_ppc64_sysv_elf_gas.S:100-212 with _CALL_ELF != 2; [pc] is the register
    through which the address of the continuation goes.  jump_ppc64_sysv_xcoff_gas.S:81-173
    differs only there. *)
Definition jump_ppc64d (pc : string) : list instr :=
  [Add "r1" "r1" (-184)] ++                                       (* 101; xcoff 82 *)
  saves 8 "r1" (("r2", 0) :: ppc64_gp ++ [("r3", 152)]) ++        (* 103-126; 84-103 *)
  [Mov "r0" "cr"; Sto 8 "r0" "r1" 160; Mov "r0" "lr"; Sto 8 "r0" "r1" 168; Sto 8 "r0" "r1" 176;  (* 129-135; 106-112 *)
   Mov "r6" "r1"; Mov "r1" "r4"] ++                               (* 138-145; 115-118 *)
  loads 8 "r1" (("r2", 0) :: ppc64_gp ++ [("r3", 152)]) ++        (* 147-169; 120-139 *)
  [Ld 8 "r0" "r1" 160; Mov "cr" "r0"; Ld 8 "r0" "r1" 168; Mov "lr" "r0";   (* 172-176; 142-146 *)
   Ld 8 pc "r1" 176; Mov "ctr" pc; Add "r1" "r1" 184] ++          (* 179-184; 149-154 *)
  transfer_ppc 8.                                                 (* 195-212; 156-173 *)

(** ontop_ppc64_sysv_elf_gas.S:100-210 with _CALL_ELF != 2, and
    ontop_ppc64_sysv_xcoff_gas.S:80-167, the same instructions; the branch for a
    context that was not entered yet is not modelled *)
Definition ontop_ppc64d : list instr :=
  [Add "r1" "r1" (-184)] ++                                       (* 101; xcoff 81 *)
  saves 8 "r1" (("r2", 0) :: ppc64_gp ++ [("r3", 152)]) ++        (* 103-126; 83-102 *)
  [Mov "r0" "cr"; Sto 8 "r0" "r1" 160; Mov "r0" "lr"; Sto 8 "r0" "r1" 168; Sto 8 "r0" "r1" 176;  (* 129-135; 105-111 *)
   Mov "r7" "r1"; Mov "r1" "r4"] ++                               (* 138-146; 114-117 *)
  loads 8 "r1" (ppc64_gp ++ [("r3", 152)]) ++                     (* 148-168; 119-137 *)
  [Ld 8 "r0" "r1" 160; Mov "cr" "r0"; Mov "r4" "r7";              (* 171-172, 186; 140-144 *)
   Mov "r7" "r6.pc"; Mov "ctr" "r7"; Mov "r2" "r6.toc";           (* 191-194; 149-152 *)
   Nonz "r3";                                                     (* 197-198; 155-156 *)
   Ld 8 "r0" "r1" 168; Mov "lr" "r0"; Add "r1" "r1" 184; Go "ctr"].  (* 203-210; 160-167 *)

(** make_ppc64_sysv_elf_gas.S:100-152 with _CALL_ELF != 2, and
    make_ppc64_sysv_xcoff_gas.S:80-123, the same instructions *)
Definition make_ppc64d : list instr :=
  [Mov "r6" "lr"; And "r3" "r3" (-16); Add "r3" "r3" (-248);      (* 101-109; xcoff 81-89 *)
   Mov "r4" "r5.pc"; Sto 8 "r4" "r3" 176; Mov "r4" "r5.toc"; Sto 8 "r4" "r3" 0;   (* 118-122; 92-96 *)
   Li "r0" 0; Sto 8 "r0" "r3" 184; Sto 8 "r0" "r3" 152;           (* 126-132; 99-103 *)
   Mov "r0" "lr"; La "lr" "1"; Mov "r4" "lr"; Need "r4" "1"; La "r4" "finish"; Mov "lr" "r0";  (* 135-144; 106-115 *)
   Sto 8 "r4" "r3" 168; Mov "lr" "r6"; Go "lr"].                  (* 147-152; 118-123 *)

Definition port_ppc64d (xcoff : bool) : port := {|
  p_name := if xcoff then "ppc64 sysv xcoff" else "ppc64 sysv elf, ELFv1"; p_abi := abi_ppc64d;
  p_code := {| c_jump := jump_ppc64d (if xcoff then "r0" else "r12"); c_ontop := ontop_ppc64d; c_make := make_ppc64d;
               c_tramp := []; c_finish := finish_ppc64;           (* xcoff 125-137 *)
               c_frame := 184; c_hid := 152; c_size := 248; c_mkoff := 0; c_mkal := 16;
               c_mkscr := 0; c_fin := []; c_tail := None; c_spslot := None |} |}.

(** *** XCOFF, 32 bits *)

(** as above with 4-byte registers; f14-f31 are switched, too.  The port switches
    fpscr, but a new context does not inherit it (see [C30_ppc32_xcoff_refuted]). *)
Definition abi_ppc32_xcoff : abi := {|
  ab_cpu := cpu_ppc32; ab_sp := "r1";
  ab_saved := names (ppc32_gp 0) ++ names (ppc32_fp 0) ++ ["cr"; "fpscr"]; ab_ctl := [];
  ab_ret := PReg "lr"; ab_pop := 0; ab_pop0 := 0; ab_up := 0; ab_wr := 0; ab_home := 32;
  ab_to := PReg "r4"; ab_data := PReg "r5"; ab_fn := PReg "r6.pc";
  ab_hidden := Some (PReg "r3"); ab_hidret := Some "r3"; ab_res := (PReg "r3", PReg "r4");
  ab_ent := (PReg "r3", PReg "r4"); ab_ont := (PReg "r4", PReg "r5");
  ab_mksp := PReg "r3"; ab_mkfn := PReg "r5.pc"; ab_mkres := "r3";
  ab_jmp := ["r2"]; ab_align := 16; ab_bias := 0 |}.

Definition ppc32_xcoff_saves : list instr :=
  [Add "r1" "r1" (-256); Mov "r0" "cr"; Sto 4 "r0" "r1" 4; Mov "r0" "lr"; Sto 4 "r0" "r1" 8;
   Sto 4 "r0" "r1" 240; Sto 4 "r2" "r1" 20] ++
  saves 4 "r1" (ppc32_gp 24) ++ saves 8 "r1" (ppc32_fp 96) ++
  [Sto 4 "r3" "r1" 244; Mov "f0" "fpscr"; Sto 8 "f0" "r1" 248].

(** jump_ppc32_sysv_xcoff_gas.S:68-216 *)
Definition jump_ppc32_xcoff : list instr :=
  ppc32_xcoff_saves ++                                            (* 69-128 *)
  [Mov "r6" "r1"; Mov "r1" "r4";                                  (* 132-135 *)
   Ld 4 "r0" "r1" 4; Mov "cr" "r0"; Ld 4 "r0" "r1" 8; Mov "lr" "r0"; Ld 4 "r0" "r1" 240; Mov "ctr" "r0";   (* 138-145 *)
   Ld 4 "r2" "r1" 20] ++                                          (* 148 *)
  loads 4 "r1" (ppc32_gp 24) ++ loads 8 "r1" (ppc32_fp 96) ++     (* 151-188 *)
  [Ld 4 "r3" "r1" 244; Ld 8 "f0" "r1" 248; Mov "fpscr" "f0"; Add "r1" "r1" 256] ++   (* 191-197 *)
  transfer_ppc 4.                                                 (* 200-216 *)

(** ontop_ppc32_sysv_xcoff_gas.S:69-210; the branch for a context that was not
    entered yet is not modelled *)
Definition ontop_ppc32_xcoff : list instr :=
  ppc32_xcoff_saves ++                                            (* 70-129 *)
  [Mov "r7" "r1"; Mov "r1" "r4"; Ld 4 "r0" "r1" 4; Mov "cr" "r0"] ++   (* 132-139 *)
  loads 4 "r1" (ppc32_gp 24) ++ loads 8 "r1" (ppc32_fp 96) ++     (* 142-179 *)
  [Ld 4 "r3" "r1" 244; Ld 8 "f0" "r1" 248; Mov "fpscr" "f0";      (* 181-184 *)
   Mov "r4" "r7"; Mov "r7" "r6.pc"; Mov "ctr" "r7"; Mov "r2" "r6.toc";   (* 187-195 *)
   Nonz "r3"; Ld 4 "r0" "r1" 8; Mov "lr" "r0"; Add "r1" "r1" 256; Go "ctr"].   (* 198-210 *)

(** make_ppc32_sysv_xcoff_gas.S:68-111; the 8-byte store of zero to 244 (std, line
    91) is spelled out as two 4-byte stores: it also clears the first half of the
    fpscr slot *)
Definition make_ppc32_xcoff : list instr :=
  [Mov "r6" "lr"; And "r3" "r3" (-16); Add "r3" "r3" (-288);      (* 69-77 *)
   Mov "r4" "r5.pc"; Sto 4 "r4" "r3" 240; Mov "r4" "r5.toc"; Sto 4 "r4" "r3" 20;   (* 80-84 *)
   Li "r0" 0; Sto 4 "r0" "r3" 256; Sto 4 "r0" "r3" 244; Sto 4 "r0" "r3" 248;   (* 87-91 *)
   Mov "r0" "lr"; La "lr" "1"; Mov "r4" "lr"; Need "r4" "1"; La "r4" "finish"; Mov "lr" "r0";  (* 94-103 *)
   Sto 4 "r4" "r3" 8; Mov "lr" "r6"; Go "lr"].                    (* 106-111 *)

(** make_ppc32_sysv_xcoff_gas.S:113-125 *)
Definition finish_ppc32_xcoff : list instr :=
  [Mov "r0" "lr"; Sto 4 "r0" "r1" 4; Mov "r1'" "r1"; Add "r1" "r1" (-16); Sto 4 "r1'" "r1" 0; Li "r3" 0; Exit "r3"].

Definition port_ppc32_xcoff : port := {|
  p_name := "ppc32 sysv xcoff"; p_abi := abi_ppc32_xcoff;
  p_code := {| c_jump := jump_ppc32_xcoff; c_ontop := ontop_ppc32_xcoff; c_make := make_ppc32_xcoff;
               c_tramp := []; c_finish := finish_ppc32_xcoff;
               c_frame := 256; c_hid := 244; c_size := 288; c_mkoff := 0; c_mkal := 16;
               c_mkscr := 0; c_fin := []; c_tail := None; c_spslot := None |} |}.

(** ** All ports *)

(** The ports whose jump, make and (if present) ontop code is verified in
    P_Asm.v.  The Windows ports for arm and arm64 are listed without ontop: the
    code exists, but is wrong (P_AsmRef.v). *)
Definition ports : list port :=
  [port_x64_elf true; port_x64_elf false; port_x64_cet true; port_x64_cet false;
   port_x64_macho true; port_x64_macho false;
   port_x64_ms true false; port_x64_ms true true; port_x64_ms false false; port_x64_ms false true;
   port_x86 true false; port_x86 false false; port_x86 true true; port_x86 false true;
   port_x86_macho true; port_x86_macho false; port_x86_ms true; port_x86_ms false;
   port_arm64; port_arm64_pe false; port_riscv; port_loong;
   port_mips64 true true; port_mips64 true false; port_mips64 false true; port_mips64 false false;
   port_mips32 true true; port_mips32 true false; port_mips32 false true; port_mips32 false false;
   port_arm true; port_arm false; port_arm_macho true; port_arm_macho false; port_arm_pe false;
   port_s390x; port_ppc32 true; port_ppc32 false; port_ppc32_macho; port_ppc64 true; port_ppc64 false; port_sparc64;
   port_ppc64d false; port_ppc64d true; port_ppc32_xcoff].
