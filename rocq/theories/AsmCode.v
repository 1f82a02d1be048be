(** * The ports: calling conventions and transcribed code

    One definition per function of src/asm; the lines are those of the cited
    file.  Registers keep their assembler names.  [stmxcsr]/[ldmxcsr] and
    [fnstcw]/[fldcw] are stores and loads of the registers "mxcsr" (4 bytes) and
    "x87cw" (2 bytes).  [ret], [push] and [pop] are spelled out.  [call _exit] is
    [Exit].  Multi-register instructions (stp, stmg, push, vstmia, ...) are
    spelled out as single accesses. *)
From Coq Require Import ZArith List String.
From Verif Require Import AsmMachine AsmAbi.
Import ListNotations.
Open Scope Z_scope.
Open Scope string_scope.

(** stores/loads of several registers relative to one base *)
Definition saves (n : Z) (b : string) (l : list (string * Z)) : list instr :=
  map (fun x => Sto n (fst x) b (snd x)) l.
Definition loads (n : Z) (b : string) (l : list (string * Z)) : list instr :=
  map (fun x => Ld n (fst x) b (snd x)) l.

Definition names (l : list (string * Z)) : list string := map fst l.

(** ** x86_64, System V *)

Definition cpu_x64 : cpu :=
  Cpu 8 false ([("mxcsr", 4); ("x87cw", 2)] ++
    map (fun r => (r, 16)) ["xmm6"; "xmm7"; "xmm8"; "xmm9"; "xmm10"; "xmm11"; "xmm12"; "xmm13"; "xmm14"; "xmm15"]).

(** System V ABI, AMD64 supplement, 3.2: rbx, rbp, r12-r15, the control bits of
    mxcsr and the x87 control word are preserved by callees; transfer_t is
    returned in rax:rdx and passed in rdi:rsi; rsp + 8 is a multiple of 16 at
    function entry.  [cw] tells whether the control words are included: they are
    not with BOOST_USE_TSX. *)
Definition abi_x64 (cw : bool) : abi := {|
  ab_cpu := cpu_x64; ab_sp := "rsp";
  ab_saved := ["rbx"; "rbp"; "r12"; "r13"; "r14"; "r15"] ++ (if cw then ["mxcsr"; "x87cw"] else []);
  ab_ctl := if cw then ["mxcsr"; "x87cw"] else [];
  ab_ret := PMem "rsp" 0 8; ab_pop := 8; ab_pop0 := 8; ab_up := 8; ab_wr := 0; ab_home := 0;
  ab_to := PReg "rdi"; ab_data := PReg "rsi"; ab_fn := PReg "rdx";
  ab_hidden := None; ab_hidret := None;
  ab_res := (PReg "rax", PReg "rdx");
  ab_ent := (PReg "rdi", PReg "rsi"); ab_ont := (PReg "rdi", PReg "rsi");
  ab_mksp := PReg "rdi"; ab_mkfn := PReg "rdx"; ab_mkres := "rax";
  ab_jmp := []; ab_align := 16; ab_bias := 8 |}.

Definition x64_elf_regs : list (string * Z) :=
  [("r12", 0x10); ("r13", 0x18); ("r14", 0x20); ("r15", 0x28); ("rbx", 0x30); ("rbp", 0x38)].
Definition cw_save (cw : bool) (b : string) : list instr :=
  if cw then [Sto 4 "mxcsr" b 0; Sto 2 "x87cw" b 4] else [].
Definition cw_load (cw : bool) (b : string) : list instr :=
  if cw then [Ld 4 "mxcsr" b 0; Ld 2 "x87cw" b 4] else [].

(** the stack guard word of the thread (fs:0x28) is the register "fs28" *)
Definition fs_save (g : bool) : list instr :=
  if g then [Mov "rcx" "fs28"; Sto 8 "rcx" "rsp" 8] else [].
Definition fs_load (g : bool) : list instr :=
  if g then [Ld 8 "rdx" "rsp" 8; Mov "fs28" "rdx"] else [].

(** jump_x86_64_sysv_elf_gas.S:50-142, without ILP32; [cw] is
    !defined(BOOST_USE_TSX), [g] is BOOST_CONTEXT_TLS_STACK_PROTECTOR; the
    shadow stack variant is in AsmCode2.v *)
Definition jump_x64_elf (cw g : bool) : list instr :=
  [Add "rsp" "rsp" (-0x40)] ++                                    (* 52 *)
  cw_save cw "rsp" ++ fs_save g ++                                (* 54-62 *)
  saves 8 "rsp" x64_elf_regs ++                                   (* 64-69 *)
  [Mov "rax" "rsp"; Mov "rsp" "rdi"; Ld 8 "r8" "rsp" 0x40] ++     (* 80, 83, 103 *)
  cw_load cw "rsp" ++ fs_load g ++                                (* 105-113 *)
  loads 8 "rsp" x64_elf_regs ++                                   (* 115-120 *)
  [Add "rsp" "rsp" 0x48; Mov "rdx" "rsi"; Mov "rdi" "rax"; Go "r8"].  (* 122-142 *)

(** ontop_x86_64_sysv_elf_gas.S:46-135 *)
Definition ontop_x64_elf (cw g : bool) : list instr :=
  [Mov "r8" "rdx"; Add "rsp" "rsp" (-0x40)] ++                    (* 49-51 *)
  cw_save cw "rsp" ++ fs_save g ++                                (* 53-61 *)
  saves 8 "rsp" x64_elf_regs ++                                   (* 63-68 *)
  [Mov "rax" "rsp"; Mov "rsp" "rdi"] ++                           (* 79, 82 *)
  cw_load cw "rsp" ++ fs_load g ++                                (* 96-104 *)
  loads 8 "rsp" x64_elf_regs ++                                   (* 106-111 *)
  [Add "rsp" "rsp" 0x40; Mov "rdx" "rsi"; Mov "rdi" "rax"; Go "r8"].  (* 113-135 *)

(** make_x86_64_sysv_elf_gas.S:50-133; the return is pop + jmp.  With the stack
    protector, line 80 stores relative to rsp, not to rax; see
    [C27_x64_guard_refuted]. *)
Definition make_x64_elf (g : bool) : list instr :=
  [Mov "rax" "rdi"; And "rax" "rax" (-16); Add "rax" "rax" (-0x48);  (* 59-66 *)
   Sto 8 "rdx" "rax" 0x30;                                        (* 70 *)
   Sto 4 "mxcsr" "rax" 0; Sto 2 "x87cw" "rax" 4] ++               (* 73-75 *)
  fs_save g ++                                                    (* 77-81 *)
  [La "rcx" "trampoline"; Sto 8 "rcx" "rax" 0x40;                 (* 84-87 *)
   La "rcx" "finish"; Sto 8 "rcx" "rax" 0x38;                     (* 90-93 *)
   Ld 8 "rip" "rsp" 0; Add "rsp" "rsp" 8; Go "rip"].              (* 133 *)

(** make_x86_64_sysv_elf_gas.S:135-149 *)
Definition tramp_x64 : list instr :=
  [Add "rsp" "rsp" (-8); Sto 8 "rbp" "rsp" 0; Go "rbx"].

(** make_x86_64_sysv_elf_gas.S:151-157 *)
Definition finish_x64 : list instr := [Li "rdi" 0; Exit "rdi"].

Definition port_x64_elf (cw : bool) : port := {|
  p_name := if cw then "x86_64 sysv elf" else "x86_64 sysv elf, BOOST_USE_TSX"; p_abi := abi_x64 cw;
  p_code := {| c_jump := jump_x64_elf cw false; c_ontop := ontop_x64_elf cw false; c_make := make_x64_elf false;
               c_tramp := tramp_x64; c_finish := finish_x64;
               c_frame := 0x40; c_hid := 0; c_size := 0x48; c_mkoff := 0; c_mkal := 16;
               c_mkscr := 0; c_fin := []; c_tail := None; c_spslot := None |} |}.

(** With BOOST_CONTEXT_TLS_STACK_PROTECTOR.  make is wrong (see above), so this
    is not one of the verified [ports]. *)
Definition port_x64_guard : port := {|
  p_name := "x86_64 sysv elf, BOOST_CONTEXT_TLS_STACK_PROTECTOR";
  p_abi := {|
    ab_cpu := cpu_x64; ab_sp := "rsp";
    ab_saved := ["rbx"; "rbp"; "r12"; "r13"; "r14"; "r15"; "mxcsr"; "x87cw"; "fs28"];
    ab_ctl := ["mxcsr"; "x87cw"; "fs28"];
    ab_ret := PMem "rsp" 0 8; ab_pop := 8; ab_pop0 := 8; ab_up := 8; ab_wr := 0; ab_home := 0;
    ab_to := PReg "rdi"; ab_data := PReg "rsi"; ab_fn := PReg "rdx";
    ab_hidden := None; ab_hidret := None; ab_res := (PReg "rax", PReg "rdx");
    ab_ent := (PReg "rdi", PReg "rsi"); ab_ont := (PReg "rdi", PReg "rsi");
    ab_mksp := PReg "rdi"; ab_mkfn := PReg "rdx"; ab_mkres := "rax";
    ab_jmp := []; ab_align := 16; ab_bias := 8 |};
  p_code := {| c_jump := jump_x64_elf true true; c_ontop := ontop_x64_elf true true;
               c_make := make_x64_elf true;
               c_tramp := tramp_x64; c_finish := finish_x64;
               c_frame := 0x40; c_hid := 0; c_size := 0x48; c_mkoff := 0; c_mkal := 16;
               c_mkscr := 0; c_fin := []; c_tail := None; c_spslot := None |} |}.

(** *** Mach-O: a smaller frame *)

Definition x64_macho_regs : list (string * Z) :=
  [("r12", 0x8); ("r13", 0x10); ("r14", 0x18); ("r15", 0x20); ("rbx", 0x28); ("rbp", 0x30)].

(** jump_x86_64_sysv_macho_gas.S:31-76 *)
Definition jump_x64_macho (cw : bool) : list instr :=
  [Add "rsp" "rsp" (-0x38)] ++                                    (* 32 *)
  cw_save cw "rsp" ++                                             (* 34-37 *)
  saves 8 "rsp" x64_macho_regs ++                                 (* 39-44 *)
  [Mov "rax" "rsp"; Mov "rsp" "rdi"; Ld 8 "r8" "rsp" 0x38] ++     (* 47-52 *)
  cw_load cw "rsp" ++                                             (* 54-57 *)
  loads 8 "rsp" x64_macho_regs ++                                 (* 59-64 *)
  [Add "rsp" "rsp" 0x40; Mov "rdx" "rsi"; Mov "rdi" "rax"; Go "r8"].  (* 66-76 *)

(** ontop_x86_64_sysv_macho_gas.S:31-79 *)
Definition ontop_x64_macho (cw : bool) : list instr :=
  [Mov "r8" "rdx"; Add "rsp" "rsp" (-0x38)] ++                    (* 33-35 *)
  cw_save cw "rsp" ++                                             (* 37-40 *)
  saves 8 "rsp" x64_macho_regs ++                                 (* 42-47 *)
  [Mov "rax" "rsp"; Mov "rsp" "rdi"] ++                           (* 50-53 *)
  cw_load cw "rsp" ++                                             (* 55-58 *)
  loads 8 "rsp" x64_macho_regs ++                                 (* 60-65 *)
  [Add "rsp" "rsp" 0x38; Mov "rdx" "rsi"; Mov "rdi" "rax"; Go "r8"].  (* 67-79 *)

(** make_x86_64_sysv_macho_gas.S:31-63; trampoline and finish (65-77) are those of ELF *)
Definition make_x64_macho : list instr :=
  [Mov "rax" "rdi"; And "rax" "rax" (-16); Add "rax" "rax" (-0x40);  (* 33-40 *)
   Sto 8 "rdx" "rax" 0x28;                                        (* 44 *)
   Sto 4 "mxcsr" "rax" 0; Sto 2 "x87cw" "rax" 4;                  (* 47-49 *)
   La "rcx" "trampoline"; Sto 8 "rcx" "rax" 0x38;                 (* 52-55 *)
   La "rcx" "finish"; Sto 8 "rcx" "rax" 0x30;                     (* 58-61 *)
   Ld 8 "rip" "rsp" 0; Add "rsp" "rsp" 8; Go "rip"].              (* 63 *)

Definition port_x64_macho (cw : bool) : port := {|
  p_name := if cw then "x86_64 sysv macho" else "x86_64 sysv macho, BOOST_USE_TSX"; p_abi := abi_x64 cw;
  p_code := {| c_jump := jump_x64_macho cw; c_ontop := ontop_x64_macho cw; c_make := make_x64_macho;
               c_tramp := tramp_x64; c_finish := finish_x64;
               c_frame := 0x38; c_hid := 0; c_size := 0x40; c_mkoff := 0; c_mkal := 16;
               c_mkscr := 0; c_fin := []; c_tail := None; c_spslot := None |} |}.

(** ** x86_64, Microsoft *)

Definition x64_ms_xmm : list (string * Z) :=
  [("xmm6", 0); ("xmm7", 0x10); ("xmm8", 0x20); ("xmm9", 0x30); ("xmm10", 0x40); ("xmm11", 0x50);
   ("xmm12", 0x60); ("xmm13", 0x70); ("xmm14", 0x80); ("xmm15", 0x90)].
Definition x64_ms_regs : list (string * Z) :=
  [("r12", 0xd0); ("r13", 0xd8); ("r14", 0xe0); ("r15", 0xe8); ("rdi", 0xf0); ("rsi", 0xf8);
   ("rbx", 0x100); ("rbp", 0x108)].
(** the fields of the thread information block: fiber storage (0x20),
    deallocation stack (0x1478), stack limit (0x10), stack base (0x08).
    Simplification: they are registers, i.e. the block overlaps no stack. *)
Definition x64_ms_tib : list (string * Z) :=
  [("tib20", 0xb0); ("tib1478", 0xb8); ("tib10", 0xc0); ("tib08", 0xc8)].

(** Microsoft x64 convention: rbx, rbp, rdi, rsi, r12-r15, xmm6-xmm15 and the
    control words are preserved; transfer_t is returned through a hidden pointer
    (rcx, returned in rax) and passed by reference.  With BOOST_USE_TSX
    ([cw = false]) the port preserves neither xmm6-xmm15 (see
    [C26_x64_ms_tsx_refuted]) nor the control words; they are left out of the
    list then. *)
Definition abi_x64_ms (cw : bool) : abi := {|
  ab_cpu := cpu_x64; ab_sp := "rsp";
  ab_saved := names x64_ms_regs ++ names x64_ms_tib ++
              (if cw then names x64_ms_xmm ++ ["mxcsr"; "x87cw"] else []);
  ab_ctl := if cw then ["mxcsr"; "x87cw"] else [];
  ab_ret := PMem "rsp" 0 8; ab_pop := 8; ab_pop0 := 8; ab_up := 8; ab_wr := 0; ab_home := 32;
  ab_to := PReg "rdx"; ab_data := PReg "r8"; ab_fn := PReg "r9";
  ab_hidden := Some (PReg "rcx"); ab_hidret := Some "rax";
  ab_res := (PReg "rax", PReg "rdx");
  ab_ent := (PMem "rcx" 0 8, PMem "rcx" 8 8); ab_ont := (PMem "rdx" 0 8, PMem "rdx" 8 8);
  ab_mksp := PReg "rcx"; ab_mkfn := PReg "r8"; ab_mkres := "rax";
  ab_jmp := []; ab_align := 16; ab_bias := 8 |}.

(** r10 is the address of the block (gs:0x30) *)
Definition tib_save : list instr :=
  La "r10" "TIB" ::
  flat_map (fun x => [Need "r10" "TIB"; Mov "rax" (fst x); Sto 8 "rax" "rsp" (snd x)]) x64_ms_tib.
Definition tib_load : list instr :=
  La "r10" "TIB" ::
  flat_map (fun x => [Ld 8 "rax" "rsp" (snd x); Need "r10" "TIB"; Mov (fst x) "rax"]) x64_ms_tib.
Definition ms_fp_save (cw : bool) : list instr :=
  if cw then saves 16 "rsp" x64_ms_xmm ++ [Sto 4 "mxcsr" "rsp" 0xa0; Sto 2 "x87cw" "rsp" 0xa4] else [].
Definition ms_fp_load (cw : bool) : list instr :=
  if cw then loads 16 "rsp" x64_ms_xmm ++ [Ld 4 "mxcsr" "rsp" 0xa0; Ld 2 "x87cw" "rsp" 0xa4] else [].

(** jump_x86_64_ms_pe_clang_gas.S:95-205 (jump_x86_64_ms_pe_gas.asm and
    jump_x86_64_ms_pe_masm.asm are the same instructions in another syntax) *)
Definition jump_x64_ms (cw : bool) : list instr :=
  [Add "rsp" "rsp" (-0x118)] ++                                   (* 98 *)
  ms_fp_save cw ++                                                (* 100-114 *)
  tib_save ++                                                     (* 117-129 *)
  saves 8 "rsp" x64_ms_regs ++                                    (* 131-138 *)
  [Sto 8 "rcx" "rsp" 0x110; Mov "r9" "rsp"; Mov "rsp" "rdx"] ++   (* 140-146 *)
  ms_fp_load cw ++                                                (* 148-162 *)
  tib_load ++                                                     (* 165-177 *)
  loads 8 "rsp" x64_ms_regs ++                                    (* 179-186 *)
  [Ld 8 "rax" "rsp" 0x110; Add "rsp" "rsp" 0x118;                 (* 188-190 *)
   Ld 8 "r10" "rsp" 0; Add "rsp" "rsp" 8;                         (* 193 *)
   Sto 8 "r9" "rax" 0; Sto 8 "r8" "rax" 8;                        (* 197-199 *)
   Mov "rcx" "rax"; Go "r10"].                                    (* 202-205 *)

(** ontop_x86_64_ms_pe_clang_gas.S:95-207 *)
Definition ontop_x64_ms (cw : bool) : list instr :=
  [Add "rsp" "rsp" (-0x118)] ++                                   (* 98 *)
  ms_fp_save cw ++                                                (* 100-114 *)
  tib_save ++                                                     (* 117-129 *)
  saves 8 "rsp" x64_ms_regs ++                                    (* 131-138 *)
  [Sto 8 "rcx" "rsp" 0x110; Mov "rcx" "rsp"; Mov "rsp" "rdx"] ++  (* 140-146 *)
  ms_fp_load cw ++                                                (* 148-162 *)
  tib_load ++                                                     (* 165-177 *)
  loads 8 "rsp" x64_ms_regs ++                                    (* 179-186 *)
  [Ld 8 "rax" "rsp" 0x110; Add "rsp" "rsp" 0x118;                 (* 188-190 *)
   Sto 8 "rcx" "rax" 0; Sto 8 "r8" "rax" 8;                       (* 196-198 *)
   Mov "rcx" "rax"; Mov "rdx" "rax"; Go "r9"].                    (* 202-207 *)

(** make_x86_64_ms_pe_clang_gas.S:95-150 ([negq rdx; leaq (rcx,rdx)] is [Sub]) *)
Definition make_x64_ms : list instr :=
  [Mov "rax" "rcx"; And "rax" "rax" (-16); Add "rax" "rax" (-0x150);  (* 99-107 *)
   Sto 8 "r8" "rax" 0x100; Sto 8 "rcx" "rax" 0xc8;                (* 110-114 *)
   Sub "rcx" "rcx" "rdx"; Sto 8 "rcx" "rax" 0xc0; Sto 8 "rcx" "rax" 0xb8;  (* 117-123 *)
   Li "rcx" 0; Sto 8 "rcx" "rax" 0xb0;                            (* 125-126 *)
   Sto 4 "mxcsr" "rax" 0xa0; Sto 2 "x87cw" "rax" 0xa4;            (* 129-131 *)
   Add "rcx" "rax" 0x140; Sto 8 "rcx" "rax" 0x110;                (* 134-136 *)
   La "rcx" "trampoline"; Sto 8 "rcx" "rax" 0x118;                (* 139-142 *)
   La "rcx" "finish"; Sto 8 "rcx" "rax" 0x108;                    (* 145-148 *)
   Ld 8 "rip" "rsp" 0; Add "rsp" "rsp" 8; Go "rip"].              (* 150 *)

(** make_x86_64_ms_pe_clang_gas.S:152-157 and 159-167 *)
Definition tramp_x64_ms : list instr := [Add "rsp" "rsp" (-8); Sto 8 "rbp" "rsp" 0; Go "rbx"].
(** ([and] is missing in make_x86_64_ms_pe_masm.asm:156-160) *)
Definition finish_x64_ms (masm : bool) : list instr :=
  (if masm then [] else [And "rsp" "rsp" (-32)]) ++ [Li "rcx" 0; Exit "rcx"].

Definition port_x64_ms (cw masm : bool) : port := {|
  p_name := ("x86_64 ms pe" ++ (if cw then "" else ", BOOST_USE_TSX") ++ (if masm then ", masm" else ""))%string;
  p_abi := abi_x64_ms cw;
  p_code := {| c_jump := jump_x64_ms cw; c_ontop := ontop_x64_ms cw; c_make := make_x64_ms;
               c_tramp := tramp_x64_ms; c_finish := finish_x64_ms masm;
               c_frame := 0x118; c_hid := 0x110; c_size := 0x150; c_mkoff := 0; c_mkal := 16;
               c_mkscr := 0; c_fin := []; c_tail := None; c_spslot := None |} |}.

(** ** i386, System V ELF *)

Definition cpu_x86 : cpu := Cpu 4 false [("mxcsr", 4); ("x87cw", 2)].

(** System V i386: ebx, esi, edi, ebp preserved; arguments on the stack;
    transfer_t is returned through a hidden pointer (first argument, popped by
    the callee, returned in eax); esp + 4 is a multiple of 16 at entry.
    A callee owns its argument area.  [g] (BOOST_CONTEXT_TLS_STACK_PROTECTOR)
    tells whether the stack guard word of the thread (gs:0x14, modelled as the
    register "gs14") belongs to the context, [cw] is !BOOST_USE_TSX. *)
Definition abi_x86 (cw g : bool) : abi := {|
  ab_cpu := cpu_x86; ab_sp := "esp";
  ab_saved := ["edi"; "esi"; "ebx"; "ebp"] ++ (if cw then ["mxcsr"; "x87cw"] else []) ++ (if g then ["gs14"] else []);
  ab_ctl := (if cw then ["mxcsr"; "x87cw"] else []) ++ (if g then ["gs14"] else []);
  ab_ret := PMem "esp" 0 4; ab_pop := 8; ab_pop0 := 4; ab_up := 0x14; ab_wr := 0; ab_home := 8;
  ab_to := PMem "esp" 8 4; ab_data := PMem "esp" 12 4; ab_fn := PMem "esp" 16 4;
  ab_hidden := Some (PMem "esp" 4 4); ab_hidret := Some "eax";
  ab_res := (PReg "eax", PReg "edx");
  ab_ent := (PMem "esp" 4 4, PMem "esp" 8 4); ab_ont := (PMem "esp" 8 4, PMem "esp" 12 4);
  ab_mksp := PMem "esp" 4 4; ab_mkfn := PMem "esp" 12 4; ab_mkres := "eax";
  ab_jmp := []; ab_align := 16; ab_bias := 4 |}.

Definition x86_regs : list (string * Z) :=
  [("edi", 0xc); ("esi", 0x10); ("ebx", 0x14); ("ebp", 0x18)].

Definition gs_save (g : bool) (b : string) : list instr :=
  if g then [Mov "ecx" "gs14"; Sto 4 "ecx" b 8] else [].
Definition gs_load (g : bool) : list instr :=
  if g then [Ld 4 "edx" "esp" 8; Mov "gs14" "edx"] else [].

(** jump_i386_sysv_elf_gas.S:37-94 *)
Definition jump_x86 (cw g : bool) : list instr :=
  [Add "esp" "esp" (-0x1c)] ++ cw_save cw "esp" ++ gs_save g "esp" ++   (* 38-48 *)
  saves 4 "esp" x86_regs ++                                       (* 50-53 *)
  [Mov "ecx" "esp"; Ld 4 "eax" "esp" 0x24; Ld 4 "edx" "esp" 0x28; (* 56-62 *)
   Mov "esp" "eax"; Ld 4 "eax" "esp" 0x20;                        (* 65-68 *)
   Sto 4 "ecx" "eax" 0; Sto 4 "edx" "eax" 4;                      (* 70-72 *)
   Ld 4 "ecx" "esp" 0x1c] ++                                      (* 74 *)
  cw_load cw "esp" ++ gs_load g ++                                (* 76-84 *)
  loads 4 "esp" x86_regs ++                                       (* 86-89 *)
  [Add "esp" "esp" 0x24; Go "ecx"].                               (* 91-94 *)

(** ontop_i386_sysv_elf_gas.S:37-101 *)
Definition ontop_x86 (cw g : bool) : list instr :=
  [Add "esp" "esp" (-0x1c)] ++ cw_save cw "esp" ++ gs_save g "esp" ++   (* 38-48 *)
  saves 4 "esp" x86_regs ++                                       (* 50-53 *)
  [Mov "ecx" "esp"; Ld 4 "eax" "esp" 0x24;                        (* 56-59 *)
   Sto 4 "ecx" "eax" 0x24;                                        (* 62 *)
   Ld 4 "ecx" "esp" 0x28; Sto 4 "ecx" "eax" 0x28;                 (* 65-68 *)
   Ld 4 "ecx" "esp" 0x2c; Mov "esp" "eax";                        (* 71-74 *)
   Ld 4 "eax" "esp" 0x20; Sto 4 "ecx" "eax" 0; Sto 4 "edx" "eax" 4] ++  (* 77-81 *)
  cw_load cw "esp" ++ gs_load g ++                                (* 83-91 *)
  loads 4 "esp" x86_regs ++                                       (* 93-96 *)
  [Add "esp" "esp" 0x1c; Go "ecx"].                               (* 98-101 *)

(** make_i386_sysv_elf_gas.S:37-92; "call 1f; 1: popl ecx; addl $trampoline-1b,
    ecx" pushes and pops a return address, leaving the address of trampoline *)
Definition make_x86 (g : bool) : list instr :=
  [Ld 4 "eax" "esp" 4; Add "eax" "eax" (-8); And "eax" "eax" (-16); Add "eax" "eax" (-0x34);  (* 39-49 *)
   Ld 4 "ecx" "esp" 0xc; Sto 4 "ecx" "eax" 0x14;                  (* 53-54 *)
   Sto 4 "mxcsr" "eax" 0; Sto 2 "x87cw" "eax" 4] ++               (* 57-59 *)
  gs_save g "eax" ++                                              (* 61-65 *)
  [Add "ecx" "eax" 0xc; Sto 4 "ecx" "eax" 0x20;                   (* 69-70 *)
   La "tmp" "1"; Add "esp" "esp" (-4); Sto 4 "tmp" "esp" 0; Ld 4 "ecx" "esp" 0; Add "esp" "esp" 4;  (* 73-75 *)
   Need "ecx" "1"; La "ecx" "trampoline"; Sto 4 "ecx" "eax" 0x1c;                 (* 77-80 *)
   La "tmp" "2"; Add "esp" "esp" (-4); Sto 4 "tmp" "esp" 0; Ld 4 "ecx" "esp" 0; Add "esp" "esp" 4;  (* 83-85 *)
   Need "ecx" "2"; La "ecx" "finish"; Sto 4 "ecx" "eax" 0x18;                     (* 87-90 *)
   Ld 4 "eip" "esp" 0; Add "esp" "esp" 4; Go "eip"].              (* 92 *)

(** make_i386_sysv_elf_gas.S:94-100 *)
Definition tramp_x86 : list instr :=
  [Sto 4 "edi" "esp" 0; Sto 4 "esi" "esp" 4; Add "esp" "esp" (-4); Sto 4 "ebp" "esp" 0; Go "ebx"].

(** make_i386_sysv_elf_gas.S:102-113; the status is passed on the stack; the call of
    _exit goes through the procedure linkage table, which needs ebx = GOT *)
Definition finish_x86 : list instr :=
  [La "tmp" "3"; Add "esp" "esp" (-4); Sto 4 "tmp" "esp" 0; Ld 4 "ebx" "esp" 0; Add "esp" "esp" 4;
   Need "ebx" "3"; La "ebx" "GOT"; Li "eax" 0; Sto 4 "eax" "esp" 0; Need "ebx" "GOT"; Ld 4 "status" "esp" 0; Exit "status"].

Definition port_x86 (cw g : bool) : port := {|
  p_name := ("i386 sysv elf" ++ (if cw then "" else ", BOOST_USE_TSX") ++
             (if g then ", BOOST_CONTEXT_TLS_STACK_PROTECTOR" else ""))%string; p_abi := abi_x86 cw g;
  p_code := {| c_jump := jump_x86 cw g; c_ontop := ontop_x86 cw g; c_make := make_x86 g;
               c_tramp := tramp_x86; c_finish := finish_x86;
               c_frame := 0x1c; c_hid := 0x20; c_size := 0x34; c_mkoff := -8; c_mkal := 16;
               c_mkscr := 4; c_fin := []; c_tail := None; c_spslot := None |} |}.

(** ** arm64 *)

Definition cpu_64 (big : bool) : cpu := Cpu 8 big [].

(** AAPCS64: x19-x29 and d8-d15 preserved; x30 is the return address; a struct
    of two pointers is returned in x0:x1 and passed in x0:x1 *)
Definition arm64_fp : list (string * Z) :=
  [("d8", 0); ("d9", 8); ("d10", 0x10); ("d11", 0x18); ("d12", 0x20); ("d13", 0x28); ("d14", 0x30); ("d15", 0x38)].
Definition arm64_gp : list (string * Z) :=
  [("x19", 0x40); ("x20", 0x48); ("x21", 0x50); ("x22", 0x58); ("x23", 0x60); ("x24", 0x68);
   ("x25", 0x70); ("x26", 0x78); ("x27", 0x80); ("x28", 0x88); ("x29", 0x90)].
Definition abi_arm64 : abi := {|
  ab_cpu := cpu_64 false; ab_sp := "sp";
  ab_saved := names arm64_gp ++ names arm64_fp; ab_ctl := [];
  ab_ret := PReg "x30"; ab_pop := 0; ab_pop0 := 0; ab_up := 0; ab_wr := 0; ab_home := 0;
  ab_to := PReg "x0"; ab_data := PReg "x1"; ab_fn := PReg "x2";
  ab_hidden := None; ab_hidret := None; ab_res := (PReg "x0", PReg "x1");
  ab_ent := (PReg "x0", PReg "x1"); ab_ont := (PReg "x0", PReg "x1");
  ab_mksp := PReg "x0"; ab_mkfn := PReg "x2"; ab_mkres := "x0";
  ab_jmp := []; ab_align := 16; ab_bias := 0 |}.

(** jump_arm64_aapcs_elf_gas.S:60-112; jump_arm64_aapcs_macho_gas.S:58-110 is the
    same sequence of instructions *)
Definition jump_arm64 : list instr :=
  [Add "sp" "sp" (-0xb0)] ++                                      (* 62 *)
  saves 8 "sp" arm64_fp ++                                        (* 65-68 *)
  saves 8 "sp" (arm64_gp ++ [("x30", 0x98)]) ++                   (* 71-76 *)
  [Sto 8 "x30" "sp" 0xa0; Mov "x4" "sp"; Mov "sp" "x0"] ++        (* 79-85 *)
  loads 8 "sp" arm64_fp ++                                        (* 88-91 *)
  loads 8 "sp" (arm64_gp ++ [("x30", 0x98)]) ++                   (* 94-99 *)
  [Mov "x0" "x4"; Ld 8 "x4" "sp" 0xa0; Add "sp" "sp" 0xb0; Go "x4"].  (* 104-112 *)

(** ontop_arm64_aapcs_elf_gas.S:60-111; same in ontop_arm64_aapcs_macho_gas.S:58-109 *)
Definition ontop_arm64 : list instr :=
  [Add "sp" "sp" (-0xb0)] ++                                      (* 62 *)
  saves 8 "sp" arm64_fp ++                                        (* 65-68 *)
  saves 8 "sp" (arm64_gp ++ [("x30", 0x98)]) ++                   (* 71-76 *)
  [Sto 8 "x30" "sp" 0xa0; Mov "x4" "sp"; Mov "sp" "x0"] ++        (* 79-85 *)
  loads 8 "sp" arm64_fp ++                                        (* 88-91 *)
  loads 8 "sp" (arm64_gp ++ [("x30", 0x98)]) ++                   (* 94-99 *)
  [Mov "x0" "x4"; Add "sp" "sp" 0xb0; Go "x2"].                   (* 104-111 *)

(** make_arm64_aapcs_elf_gas.S:60-76 and 78-82; same in
    make_arm64_aapcs_macho_gas.S:59-76 and 78-82 *)
Definition make_arm64 : list instr :=
  [And "x0" "x0" (-16); Add "x0" "x0" (-0xb0); Sto 8 "x2" "x0" 0xa0;   (* 62-69 *)
   La "x1" "finish"; Sto 8 "x1" "x0" 0x98; Go "x30"].             (* 73-76 *)
Definition finish_arm64 : list instr := [Li "x0" 0; Exit "x0"].

Definition port_arm64 : port := {|
  p_name := "arm64 aapcs elf and macho"; p_abi := abi_arm64;
  p_code := {| c_jump := jump_arm64; c_ontop := ontop_arm64; c_make := make_arm64;
               c_tramp := []; c_finish := finish_arm64;
               c_frame := 0xb0; c_hid := 0; c_size := 0xb0; c_mkoff := 0; c_mkal := 16;
               c_mkscr := 0; c_fin := []; c_tail := None; c_spslot := None |} |}.

(** ** riscv64 *)

Definition riscv_fp : list (string * Z) :=
  [("fs0", 0); ("fs1", 8); ("fs2", 0x10); ("fs3", 0x18); ("fs4", 0x20); ("fs5", 0x28); ("fs6", 0x30);
   ("fs7", 0x38); ("fs8", 0x40); ("fs9", 0x48); ("fs10", 0x50); ("fs11", 0x58)].
Definition riscv_gp : list (string * Z) :=
  [("s0", 0x60); ("s1", 0x68); ("s2", 0x70); ("s3", 0x78); ("s4", 0x80); ("s5", 0x88); ("s6", 0x90);
   ("s7", 0x98); ("s8", 0xa0); ("s9", 0xa8); ("s10", 0xb0); ("s11", 0xb8)].
(** RISC-V psABI: s0-s11, fs0-fs11 preserved; ra is the return address; a struct
    of two pointers is passed and returned in a0:a1 *)
Definition abi_riscv : abi := {|
  ab_cpu := cpu_64 false; ab_sp := "sp";
  ab_saved := names riscv_gp ++ names riscv_fp; ab_ctl := [];
  ab_ret := PReg "ra"; ab_pop := 0; ab_pop0 := 0; ab_up := 0; ab_wr := 0; ab_home := 0;
  ab_to := PReg "a0"; ab_data := PReg "a1"; ab_fn := PReg "a2";
  ab_hidden := None; ab_hidret := None; ab_res := (PReg "a0", PReg "a1");
  ab_ent := (PReg "a0", PReg "a1"); ab_ont := (PReg "a0", PReg "a1");
  ab_mksp := PReg "a0"; ab_mkfn := PReg "a2"; ab_mkres := "a0";
  ab_jmp := []; ab_align := 16; ab_bias := 0 |}.

(** jump_riscv64_sysv_elf_gas.S:66-148 *)
Definition jump_riscv : list instr :=
  [Add "sp" "sp" (-0xd0)] ++                                      (* 68 *)
  saves 8 "sp" riscv_fp ++                                        (* 71-82 *)
  saves 8 "sp" (riscv_gp ++ [("ra", 0xc0)]) ++                    (* 85-97 *)
  [Sto 8 "ra" "sp" 0xc8; Mov "a2" "sp"; Mov "sp" "a0"] ++         (* 100-106 *)
  loads 8 "sp" riscv_fp ++                                        (* 109-120 *)
  loads 8 "sp" (riscv_gp ++ [("ra", 0xc0)]) ++                    (* 123-135 *)
  [Mov "a0" "a2"; Ld 8 "a2" "sp" 0xc8; Add "sp" "sp" 0xd0; Go "a2"].  (* 140-148 *)

(** ontop_riscv64_sysv_elf_gas.S:66-147 *)
Definition ontop_riscv : list instr :=
  [Add "sp" "sp" (-0xd0)] ++                                      (* 68 *)
  saves 8 "sp" riscv_fp ++                                        (* 71-82 *)
  saves 8 "sp" (riscv_gp ++ [("ra", 0xc0)]) ++                    (* 85-97 *)
  [Sto 8 "ra" "sp" 0xc8; Mov "a3" "sp"; Mov "sp" "a0"] ++         (* 100-106 *)
  loads 8 "sp" riscv_fp ++                                        (* 109-120 *)
  loads 8 "sp" (riscv_gp ++ [("ra", 0xc0)]) ++                    (* 123-135 *)
  [Mov "a0" "a3"; Add "sp" "sp" 0xd0; Go "a2"].                   (* 140-147 *)

(** make_riscv64_sysv_elf_gas.S:66-82 and 84-88 *)
Definition make_riscv : list instr :=
  [And "a0" "a0" (-16); Add "a0" "a0" (-0xd0); Sto 8 "a2" "a0" 0xc8;   (* 68-75 *)
   La "a4" "finish"; Sto 8 "a4" "a0" 0xc0; Go "ra"].              (* 79-82 *)
Definition finish_riscv : list instr := [Li "a0" 0; Exit "a0"].

Definition port_riscv : port := {|
  p_name := "riscv64 sysv elf"; p_abi := abi_riscv;
  p_code := {| c_jump := jump_riscv; c_ontop := ontop_riscv; c_make := make_riscv;
               c_tramp := []; c_finish := finish_riscv;
               c_frame := 0xd0; c_hid := 0; c_size := 0xd0; c_mkoff := 0; c_mkal := 16;
               c_mkscr := 0; c_fin := []; c_tail := None; c_spslot := None |} |}.

(** ** loongarch64 *)

Definition loong_fp : list (string * Z) :=
  [("fs0", 0); ("fs1", 8); ("fs2", 16); ("fs3", 24); ("fs4", 32); ("fs5", 40); ("fs6", 48); ("fs7", 56)].
Definition loong_gp : list (string * Z) :=
  [("s0", 64); ("s1", 72); ("s2", 80); ("s3", 88); ("s4", 96); ("s5", 104); ("s6", 112); ("s7", 120);
   ("s8", 128); ("fp", 136)].
(** LoongArch psABI: s0-s8, fp, fs0-fs7 preserved; ra is the return address *)
Definition abi_loong : abi := {|
  ab_cpu := cpu_64 false; ab_sp := "sp";
  ab_saved := names loong_gp ++ names loong_fp; ab_ctl := [];
  ab_ret := PReg "ra"; ab_pop := 0; ab_pop0 := 0; ab_up := 0; ab_wr := 0; ab_home := 0;
  ab_to := PReg "a0"; ab_data := PReg "a1"; ab_fn := PReg "a2";
  ab_hidden := None; ab_hidret := None; ab_res := (PReg "a0", PReg "a1");
  ab_ent := (PReg "a0", PReg "a1"); ab_ont := (PReg "a0", PReg "a1");
  ab_mksp := PReg "a0"; ab_mkfn := PReg "a2"; ab_mkres := "a0";
  ab_jmp := []; ab_align := 16; ab_bias := 0 |}.

(** jump_loongarch64_sysv_elf_gas.S:47-118 *)
Definition jump_loong : list instr :=
  [Add "sp" "sp" (-160)] ++                                       (* 49 *)
  saves 8 "sp" loong_fp ++                                        (* 52-59 *)
  saves 8 "sp" (loong_gp ++ [("ra", 144)]) ++                     (* 62-72 *)
  [Sto 8 "ra" "sp" 152; Mov "a2" "sp"; Mov "sp" "a0"] ++          (* 75-81 *)
  loads 8 "sp" loong_fp ++                                        (* 84-91 *)
  loads 8 "sp" (loong_gp ++ [("ra", 144)]) ++                     (* 94-104 *)
  [Mov "a0" "a2"; Ld 8 "a2" "sp" 152; Add "sp" "sp" 160; Go "a2"].  (* 109-118 *)

(** ontop_loongarch64_sysv_elf_gas.S:47-115 *)
Definition ontop_loong : list instr :=
  [Add "sp" "sp" (-160)] ++                                       (* 49 *)
  saves 8 "sp" loong_fp ++                                        (* 52-59 *)
  saves 8 "sp" (loong_gp ++ [("ra", 144)]) ++                     (* 62-72 *)
  [Sto 8 "ra" "sp" 152; Mov "a3" "sp"; Mov "sp" "a0"] ++          (* 75-81 *)
  loads 8 "sp" loong_fp ++                                        (* 84-91 *)
  loads 8 "sp" (loong_gp ++ [("ra", 144)]) ++                     (* 94-104 *)
  [Mov "a0" "a3"; Add "sp" "sp" 160; Go "a2"].                    (* 109-115 *)

(** make_loongarch64_sysv_elf_gas.S:47-63 and 65-69 (bstrins.d clears bits 0-3) *)
Definition make_loong : list instr :=
  [And "a0" "a0" (-16); Add "a0" "a0" (-160); Sto 8 "a2" "a0" 152;     (* 49-55 *)
   La "a4" "finish"; Sto 8 "a4" "a0" 144; Go "ra"].               (* 59-63 *)
Definition finish_loong : list instr := [Li "a0" 0; Exit "a0"].

Definition port_loong : port := {|
  p_name := "loongarch64 sysv elf"; p_abi := abi_loong;
  p_code := {| c_jump := jump_loong; c_ontop := ontop_loong; c_make := make_loong;
               c_tramp := []; c_finish := finish_loong;
               c_frame := 160; c_hid := 0; c_size := 160; c_mkoff := 0; c_mkal := 16;
               c_mkscr := 0; c_fin := []; c_tail := None; c_spslot := None |} |}.

(** ** mips64, n64 *)

Definition mips64_gp : list (string * Z) :=
  [("s0", 64); ("s1", 72); ("s2", 80); ("s3", 88); ("s4", 96); ("s5", 104); ("s6", 112); ("s7", 120); ("fp", 128)].
Definition mips64_fp : list (string * Z) :=
  [("f24", 0); ("f25", 8); ("f26", 16); ("f27", 24); ("f28", 32); ("f29", 40); ("f30", 48); ("f31", 56)].
(** n64: s0-s7, fp, gp and f24-f31 preserved; ra is the return address; a struct
    of two pointers is passed in a0:a1 and returned in v0:v1.  gp is left out of
    the list: the port does not preserve it (see [C26_mips64_gp_refuted]). *)
Definition abi_mips64 (big hard : bool) : abi := {|
  ab_cpu := cpu_64 big; ab_sp := "sp";
  ab_saved := names mips64_gp ++ (if hard then names mips64_fp else []); ab_ctl := [];
  ab_ret := PReg "ra"; ab_pop := 0; ab_pop0 := 0; ab_up := 0; ab_wr := 0; ab_home := 0;
  ab_to := PReg "a0"; ab_data := PReg "a1"; ab_fn := PReg "a2";
  ab_hidden := None; ab_hidret := None; ab_res := (PReg "v0", PReg "v1");
  ab_ent := (PReg "a0", PReg "a1"); ab_ont := (PReg "a0", PReg "a1");
  ab_mksp := PReg "a0"; ab_mkfn := PReg "a2"; ab_mkres := "v0";
  ab_jmp := []; ab_align := 16; ab_bias := 0 |}.

(** jump_mips64_n64_elf_gas.S:55-120, hard float if [hard] *)
Definition jump_mips64 (hard : bool) : list instr :=
  [Add "sp" "sp" (-160)] ++                                       (* 57 *)
  saves 8 "sp" (mips64_gp ++ [("ra", 144); ("ra", 152)]) ++       (* 59-69 *)
  (if hard then saves 8 "sp" mips64_fp else []) ++              (* 72-79 *)
  [Mov "v0" "sp"; Mov "sp" "a0"] ++                               (* 83-86 *)
  (if hard then loads 8 "sp" mips64_fp else []) ++              (* 89-96 *)
  loads 8 "sp" (mips64_gp ++ [("ra", 144)]) ++                    (* 99-108 *)
  [Ld 8 "t9" "sp" 152; Add "sp" "sp" 160; Mov "a0" "v0"; Mov "v1" "a1"; Go "t9"].  (* 111-120 *)

(** ontop_mips64_n64_elf_gas.S:55-119 *)
Definition ontop_mips64 (hard : bool) : list instr :=
  [Add "sp" "sp" (-160)] ++                                       (* 57 *)
  saves 8 "sp" (mips64_gp ++ [("ra", 144); ("ra", 152)]) ++       (* 59-69 *)
  (if hard then saves 8 "sp" mips64_fp else []) ++              (* 72-79 *)
  [Mov "t0" "sp"; Mov "sp" "a0"] ++                               (* 83-86 *)
  (if hard then loads 8 "sp" mips64_fp else []) ++              (* 89-96 *)
  loads 8 "sp" (mips64_gp ++ [("ra", 144)]) ++                    (* 99-108 *)
  [Mov "t9" "a2"; Add "sp" "sp" 160; Mov "a0" "t0"; Go "t9"].     (* 111-119 *)

(** make_mips64_n64_elf_gas.S:55-80 (PIC: .cpload sets gp; dla needs it) *)
Definition make_mips64 : list instr :=
  [La "gp" "_gp"; Li "v1" (-16); And "v0" "a0" (-16); Add "v0" "v0" (-160);  (* 58-66 *)
   Sto 8 "a2" "v0" 152; Sto 8 "gp" "v0" 136;                      (* 69-71 *)
   Need "gp" "_gp"; La "t9" "finish"; Sto 8 "t9" "v0" 144; Go "ra"].   (* 74-80 *)

(** make_mips64_n64_elf_gas.S:82-92 *)
Definition finish_mips64 : list instr :=
  [Add "t0" "sp" (-160); Ld 8 "gp" "t0" 136;                      (* 84-85 *)
   Need "gp" "_gp"; La "t9" "_exit"; Li "a0" 0; Exit "a0"].       (* 90-92 *)

Definition port_mips64 (big hard : bool) : port := {|
  p_name := ((if big then "mips64 n64 elf" else "mips64el n64 elf") ++ (if hard then "" else ", soft float"))%string;
  p_abi := abi_mips64 big hard;
  p_code := {| c_jump := jump_mips64 hard; c_ontop := ontop_mips64 hard; c_make := make_mips64;
               c_tramp := []; c_finish := finish_mips64;
               c_frame := 160; c_hid := 0; c_size := 160; c_mkoff := 0; c_mkal := 16;
               c_mkscr := 0; c_fin := []; c_tail := None; c_spslot := None |} |}.

(** ** mips32, o32 *)

Definition cpu_mips32 (big : bool) : cpu :=
  Cpu 4 big [("f20", 8); ("f22", 8); ("f24", 8); ("f26", 8); ("f28", 8); ("f30", 8)].
Definition mips32_gp : list (string * Z) :=
  [("s0", 48); ("s1", 52); ("s2", 56); ("s3", 60); ("s4", 64); ("s5", 68); ("s6", 72); ("s7", 76); ("fp", 80)].
Definition mips32_fp : list (string * Z) :=
  [("f20", 0); ("f22", 8); ("f24", 16); ("f26", 24); ("f28", 32); ("f30", 40)].
(** o32: s0-s7, fp and f20-f30 (even) preserved; transfer_t is returned through
    a hidden pointer (a0, returned in v0); the caller provides 16 bytes of
    argument area above sp that the callee may write.  [hard] is
    defined(__mips_hard_float). *)
Definition abi_mips32 (big hard : bool) : abi := {|
  ab_cpu := cpu_mips32 big; ab_sp := "sp";
  ab_saved := names mips32_gp ++ (if hard then names mips32_fp else []); ab_ctl := [];
  ab_ret := PReg "ra"; ab_pop := 0; ab_pop0 := 0; ab_up := 0; ab_wr := 0; ab_home := 16;
  ab_to := PReg "a1"; ab_data := PReg "a2"; ab_fn := PReg "a3";
  ab_hidden := Some (PReg "a0"); ab_hidret := Some "v0"; ab_res := (PReg "v0", PReg "v1");
  ab_ent := (PReg "a0", PReg "a1"); ab_ont := (PReg "a1", PReg "a2");
  ab_mksp := PReg "a0"; ab_mkfn := PReg "a2"; ab_mkres := "v0";
  ab_jmp := []; ab_align := 8; ab_bias := 0 |}.

(** jump_mips32_o32_elf_gas.S:48-115, hard float if [hard] *)
Definition jump_mips32 (hard : bool) : list instr :=
  [Add "sp" "sp" (-96)] ++                                        (* 50 *)
  saves 4 "sp" (mips32_gp ++ [("a0", 84); ("ra", 88); ("ra", 92)]) ++   (* 52-63 *)
  (if hard then saves 8 "sp" mips32_fp else []) ++              (* 66-71 *)
  [Mov "a0" "sp"; Mov "sp" "a1"] ++                               (* 75-78 *)
  (if hard then loads 8 "sp" mips32_fp else []) ++              (* 81-86 *)
  loads 4 "sp" (mips32_gp ++ [("v0", 84); ("ra", 88)]) ++         (* 89-99 *)
  [Ld 4 "t9" "sp" 92; Add "sp" "sp" 96;                           (* 102-105 *)
   Sto 4 "a0" "v0" 0; Sto 4 "a2" "v0" 4; Mov "a1" "a2"; Go "t9"]. (* 108-115 *)

(** ontop_mips32_o32_elf_gas.S:48-116 *)
Definition ontop_mips32 (hard : bool) : list instr :=
  [Add "sp" "sp" (-96)] ++                                        (* 50 *)
  saves 4 "sp" (mips32_gp ++ [("a0", 84); ("ra", 88); ("ra", 92)]) ++   (* 52-63 *)
  (if hard then saves 8 "sp" mips32_fp else []) ++              (* 66-71 *)
  [Mov "a0" "sp"; Mov "sp" "a1"] ++                               (* 75-78 *)
  (if hard then loads 8 "sp" mips32_fp else []) ++              (* 81-86 *)
  loads 4 "sp" (mips32_gp ++ [("v0", 84); ("ra", 88)]) ++         (* 89-99 *)
  [Mov "t9" "a3"; Add "sp" "sp" 96;                               (* 102-105 *)
   Sto 4 "a0" "v0" 0; Sto 4 "a2" "v0" 4; Mov "a1" "a0"; Mov "a0" "v0"; Go "t9"].  (* 108-116 *)

(** make_mips32_o32_elf_gas.S:48-82 (PIC) *)
Definition make_mips32 : list instr :=
  [La "gp" "_gp"; Li "v1" (-16); And "v0" "a0" (-16); Add "v0" "v0" (-128);  (* 51-65 *)
   Sto 4 "a2" "v0" 92; Sto 4 "gp" "v0" 112;                       (* 68-70 *)
   Add "t0" "v0" 116; Sto 4 "t0" "v0" 84;                         (* 73-74 *)
   Need "gp" "_gp"; La "t9" "finish"; Sto 4 "t9" "v0" 88; Go "ra"].   (* 77-82 *)

(** make_mips32_o32_elf_gas.S:84-93 *)
Definition finish_mips32 : list instr :=
  [Ld 4 "gp" "sp" 16; Need "gp" "_gp"; La "t9" "_exit"; Li "a0" 0; Exit "a0"].

Definition port_mips32 (big hard : bool) : port := {|
  p_name := ((if big then "mips32 o32 elf" else "mips32el o32 elf") ++ (if hard then "" else ", soft float"))%string;
  p_abi := abi_mips32 big hard;
  p_code := {| c_jump := jump_mips32 hard; c_ontop := ontop_mips32 hard; c_make := make_mips32;
               c_tramp := []; c_finish := finish_mips32;
               c_frame := 96; c_hid := 84; c_size := 128; c_mkoff := 0; c_mkal := 16;
               c_mkscr := 0; c_fin := [(16, 4, "_gp")]; c_tail := None; c_spslot := None |} |}.

(** ** arm (32 bit) *)

Definition cpu_arm : cpu :=
  Cpu 4 false (map (fun r => (r, 8)) ["d8"; "d9"; "d10"; "d11"; "d12"; "d13"; "d14"; "d15"]).
Definition arm_fp : list (string * Z) :=
  [("d8", 0); ("d9", 8); ("d10", 16); ("d11", 24); ("d12", 32); ("d13", 40); ("d14", 48); ("d15", 56)].
Definition arm_gp (b : Z) : list (string * Z) :=
  [("v1", b); ("v2", b + 4); ("v3", b + 8); ("v4", b + 12); ("v5", b + 16); ("v6", b + 20); ("v7", b + 24); ("v8", b + 28)].
(** AAPCS: v1-v8 (r4-r11) and d8-d15 preserved; lr is the return address;
    transfer_t is returned through a hidden pointer in a1 and passed in two
    registers; sp is a multiple of 8.  [vfp] is defined(__VFP_FP__) &&
    !defined(__SOFTFP__): without it there are no d registers. *)
Definition abi_arm (vfp : bool) : abi := {|
  ab_cpu := cpu_arm; ab_sp := "sp";
  ab_saved := names (arm_gp 0) ++ (if vfp then names arm_fp else []); ab_ctl := [];
  ab_ret := PReg "lr"; ab_pop := 0; ab_pop0 := 0; ab_up := 0; ab_wr := 0; ab_home := 0;
  ab_to := PReg "a2"; ab_data := PReg "a3"; ab_fn := PReg "a4";
  ab_hidden := Some (PReg "a1"); ab_hidret := None; ab_res := (PReg "a1", PReg "a2");
  ab_ent := (PReg "a1", PReg "a2"); ab_ont := (PReg "a2", PReg "a3");
  ab_mksp := PReg "a1"; ab_mkfn := PReg "a3"; ab_mkres := "a1";
  ab_jmp := []; ab_align := 8; ab_bias := 0 |}.

(** jump_arm_aapcs_elf_gas.S:48-85 *)
Definition jump_arm (vfp : bool) : list instr :=
  [Add "sp" "sp" (-4); Sto 4 "lr" "sp" 0; Add "sp" "sp" (-40)] ++ (* 50, 52 *)
  saves 4 "sp" ([("a1", 0)] ++ arm_gp 4 ++ [("lr", 36)]) ++       (* 52 *)
  [Add "sp" "sp" (-64)] ++                                        (* 55 *)
  (if vfp then saves 8 "sp" arm_fp else []) ++                  (* 58 *)
  [Mov "a1" "sp"; Mov "sp" "a2"] ++                               (* 62-65 *)
  (if vfp then loads 8 "sp" arm_fp else []) ++                  (* 69 *)
  [Add "sp" "sp" 64] ++                                           (* 72 *)
  loads 4 "sp" ([("a4", 0)] ++ arm_gp 4 ++ [("lr", 36)]) ++       (* 75 *)
  [Add "sp" "sp" 40;
   Sto 4 "a1" "a4" 0; Sto 4 "a3" "a4" 4; Mov "a2" "a3";           (* 78-82 *)
   Ld 4 "pc" "sp" 0; Add "sp" "sp" 4; Go "pc"].                   (* 85 *)

(** ontop_arm_aapcs_elf_gas.S:48-90 *)
Definition ontop_arm (vfp : bool) : list instr :=
  [Add "sp" "sp" (-4); Sto 4 "lr" "sp" 0; Add "sp" "sp" (-40)] ++ (* 50, 52 *)
  saves 4 "sp" ([("a1", 0)] ++ arm_gp 4 ++ [("lr", 36)]) ++       (* 52 *)
  [Add "sp" "sp" (-64)] ++                                        (* 55 *)
  (if vfp then saves 8 "sp" arm_fp else []) ++                  (* 58 *)
  [Mov "a1" "sp"; Mov "sp" "a2"; Mov "a2" "a1"] ++                (* 62-68 *)
  (if vfp then loads 8 "sp" arm_fp else []) ++                  (* 72 *)
  [Add "sp" "sp" 64] ++                                           (* 75 *)
  loads 4 "sp" ([("a1", 0)] ++ arm_gp 4 ++ [("lr", 36)]) ++       (* 78 *)
  [Add "sp" "sp" 40;
   Sto 4 "a2" "a1" 0; Sto 4 "a3" "a1" 4; Add "sp" "sp" 4; Go "a4"].   (* 81-90 *)

(** make_arm_aapcs_elf_gas.S:48-72 and 74-78 *)
Definition make_arm : list instr :=
  [And "a1" "a1" (-16); Add "a1" "a1" (-124); Sto 4 "a3" "a1" 104;    (* 50-56 *)
   Add "a2" "a1" 108; Mov "a3" "a2"; Sto 4 "a3" "a1" 64;          (* 59-61 *)
   La "a2" "finish"; Sto 4 "a2" "a1" 100; Go "lr"].               (* 64-72 *)
Definition finish_arm : list instr := [Li "a1" 0; Exit "a1"].

Definition port_arm (vfp : bool) : port := {|
  p_name := if vfp then "arm aapcs elf" else "arm aapcs elf, soft float"; p_abi := abi_arm vfp;
  p_code := {| c_jump := jump_arm vfp; c_ontop := ontop_arm vfp; c_make := make_arm;
               c_tramp := []; c_finish := finish_arm;
               c_frame := 108; c_hid := 64; c_size := 124; c_mkoff := 0; c_mkal := 16;
               c_mkscr := 0; c_fin := []; c_tail := None; c_spslot := None |} |}.

(** ** s390x *)

Definition cpu_s390x : cpu := Cpu 8 true [("fpc", 4)].
Definition s390x_gp : list (string * Z) :=
  [("r6", 24); ("r7", 32); ("r8", 40); ("r9", 48); ("r10", 56); ("r11", 64); ("r12", 72); ("r13", 80); ("r14", 88)].
Definition s390x_fp : list (string * Z) :=
  [("f8", 96); ("f9", 104); ("f10", 112); ("f11", 120); ("f12", 128); ("f13", 136); ("f14", 144); ("f15", 152)].
(** s390x ELF ABI: r6-r13, r15 and f8-f15 preserved; r14 is the return address;
    transfer_t is returned through a hidden pointer (r2) and passed by
    reference; the caller provides a 160-byte save area above r15 *)
Definition abi_s390x : abi := {|
  ab_cpu := cpu_s390x; ab_sp := "r15";
  ab_saved := ["r6"; "r7"; "r8"; "r9"; "r10"; "r11"; "r12"; "r13"] ++ names s390x_fp ++ ["fpc"];
  ab_ctl := ["fpc"];
  ab_ret := PReg "r14"; ab_pop := 0; ab_pop0 := 0; ab_up := 0; ab_wr := 0; ab_home := 160;
  ab_to := PReg "r3"; ab_data := PReg "r4"; ab_fn := PReg "r5";
  ab_hidden := Some (PReg "r2"); ab_hidret := None; ab_res := (PReg "r2", PReg "r3");
  ab_ent := (PMem "r2" 0 8, PMem "r2" 8 8); ab_ont := (PMem "r3" 0 8, PMem "r3" 8 8);
  ab_mksp := PReg "r2"; ab_mkfn := PReg "r4"; ab_mkres := "r2";
  ab_jmp := []; ab_align := 8; ab_bias := 0 |}.

(** jump_s390x_sysv_elf_gas.S:81-157; the branch at line 134 ("jnz
    use_return_slot") skips two additions, which are predicated on the register
    "cc" (the value that was tested) here *)
Definition jump_s390x : list instr :=
  [Add "r15" "r15" (-176); Sto 8 "r2" "r15" 16] ++                (* 84-87 *)
  saves 8 "r15" s390x_gp ++                                       (* 90 *)
  saves 8 "r15" s390x_fp ++                                       (* 93-100 *)
  [Sto 8 "r14" "r15" 168; Sto 4 "fpc" "r15" 160;                  (* 103-106 *)
   Mov "r1" "r15"; Mov "r15" "r3"] ++                             (* 109-112 *)
  loads 8 "r15" s390x_gp ++                                       (* 115 *)
  loads 8 "r15" s390x_fp ++                                       (* 118-125 *)
  [Ld 4 "fpc" "r15" 160; Ld 8 "r5" "r15" 168;                     (* 128-131 *)
   Ld 8 "r2" "r15" 16; Mov "cc" "r2";                             (* 133 *)
   Addz "cc" "r2" "r15" 160; Addz "cc" "r15" "r15" (-176);        (* 134-143 *)
   Sto 8 "r1" "r2" 0; Sto 8 "r4" "r2" 8;                          (* 150-151 *)
   Add "r15" "r15" 176; Go "r5"].                                 (* 154-157 *)

(** ontop_s390x_sysv_elf_gas.S:84-143 *)
Definition ontop_s390x : list instr :=
  [Add "r15" "r15" (-176); Sto 8 "r2" "r15" 16] ++                (* 86-89 *)
  saves 8 "r15" s390x_gp ++                                       (* 92 *)
  saves 8 "r15" s390x_fp ++                                       (* 95-102 *)
  [Sto 8 "r14" "r15" 168; Sto 4 "fpc" "r15" 160;                  (* 105-108 *)
   Mov "r1" "r15"; Mov "r15" "r3"] ++                             (* 111-114 *)
  loads 8 "r15" s390x_gp ++                                       (* 117 *)
  loads 8 "r15" s390x_fp ++                                       (* 120-127 *)
  [Ld 4 "fpc" "r15" 160;                                          (* 130 *)
   Sto 8 "r1" "r1" 0; Sto 8 "r4" "r1" 8;                          (* 133-134 *)
   Ld 8 "r2" "r15" 16; Mov "r3" "r1";                             (* 137-138 *)
   Add "r15" "r15" 176; Go "r5"].                                 (* 141-143 *)

(** make_s390x_sysv_elf_gas.S:73-99; mvghi stores the constant 0 *)
Definition make_s390x : list instr :=
  [And "r2" "r2" (-8); Add "r2" "r2" (-176);                      (* 76-79 *)
   Li "zero" 0; Sto 8 "zero" "r2" 16;                             (* 83 *)
   Sto 4 "fpc" "r2" 160; Sto 8 "r4" "r2" 168;                     (* 86-89 *)
   La "r1" "finish"; Sto 8 "r1" "r2" 88; Go "r14"].               (* 95-99 *)

(** make_s390x_sysv_elf_gas.S:101-106 *)
Definition finish_s390x : list instr := [Li "r2" 0; Exit "r2"].

Definition port_s390x : port := {|
  p_name := "s390x sysv elf"; p_abi := abi_s390x;
  p_code := {| c_jump := jump_s390x; c_ontop := ontop_s390x; c_make := make_s390x;
               c_tramp := []; c_finish := finish_s390x;
               c_frame := 176; c_hid := 16; c_size := 176; c_mkoff := 0; c_mkal := 8;
               c_mkscr := 0; c_fin := []; c_tail := None; c_spslot := None |} |}.

(** ** ppc64, ELFv2 *)

Definition ppc64_gp : list (string * Z) :=
  [("r14", 8); ("r15", 16); ("r16", 24); ("r17", 32); ("r18", 40); ("r19", 48); ("r20", 56); ("r21", 64);
   ("r22", 72); ("r23", 80); ("r24", 88); ("r25", 96); ("r26", 104); ("r27", 112); ("r28", 120); ("r29", 128);
   ("r30", 136); ("r31", 144)].
(** ELFv2: r14-r31, cr2-cr4, f14-f31 and v20-v31 preserved; lr is the return
    address; a struct of two pointers is passed and returned in r3:r4.  The
    floating-point and vector registers are left out of the list: the port does
    not preserve them (see [C26_ppc64_fpr_refuted]).  cr is 8 bytes wide here. *)
Definition abi_ppc64 (big : bool) : abi := {|
  ab_cpu := cpu_64 big; ab_sp := "r1";
  ab_saved := names ppc64_gp ++ ["cr"]; ab_ctl := [];
  ab_ret := PReg "lr"; ab_pop := 0; ab_pop0 := 0; ab_up := 0; ab_wr := 0; ab_home := 32;
  ab_to := PReg "r3"; ab_data := PReg "r4"; ab_fn := PReg "r5";
  ab_hidden := None; ab_hidret := None; ab_res := (PReg "r3", PReg "r4");
  ab_ent := (PReg "r3", PReg "r4"); ab_ont := (PReg "r3", PReg "r4");
  ab_mksp := PReg "r3"; ab_mkfn := PReg "r5"; ab_mkres := "r3";
  ab_jmp := []; ab_align := 16; ab_bias := 0 |}.

(** jump_ppc64_sysv_elf_gas.S:75-192, _CALL_ELF == 2 *)
Definition jump_ppc64 : list instr :=
  [La "r2" "TOC"; Add "r1" "r1" (-184)] ++                        (* 76-77, 101 *)
  saves 8 "r1" ppc64_gp ++                                        (* 106-123 *)
  [Mov "r0" "cr"; Sto 8 "r0" "r1" 160; Mov "r0" "lr"; Sto 8 "r0" "r1" 168; Sto 8 "r0" "r1" 176;  (* 129-135 *)
   Mov "r6" "r1"; Mov "r1" "r3"] ++                               (* 138-142 *)
  loads 8 "r1" ppc64_gp ++                                        (* 149-166 *)
  [Ld 8 "r0" "r1" 160; Mov "cr" "r0"; Ld 8 "r0" "r1" 168; Mov "lr" "r0";   (* 172-176 *)
   Ld 8 "r12" "r1" 176; Mov "ctr" "r12"; Add "r1" "r1" 184; Mov "r3" "r6"; Go "ctr"].  (* 179-192 *)

(** ontop_ppc64_sysv_elf_gas.S:75-210 *)
Definition ontop_ppc64 : list instr :=
  [La "r2" "TOC"; Add "r1" "r1" (-184)] ++                        (* 76-77, 101 *)
  saves 8 "r1" ppc64_gp ++                                        (* 106-123 *)
  [Mov "r0" "cr"; Sto 8 "r0" "r1" 160; Mov "r0" "lr"; Sto 8 "r0" "r1" 168; Sto 8 "r0" "r1" 176;  (* 129-135 *)
   Mov "r7" "r1"; Mov "r1" "r3"] ++                               (* 138-142 *)
  loads 8 "r1" ppc64_gp ++                                        (* 148-165 *)
  [Ld 8 "r0" "r1" 160; Mov "cr" "r0"; Mov "ctr" "r5"; Mov "r12" "r5"; Mov "r3" "r7";  (* 171-182 *)
   Ld 8 "r0" "r1" 168; Mov "lr" "r0"; Add "r1" "r1" 184; Go "ctr"].  (* 203-210 *)

(** make_ppc64_sysv_elf_gas.S:75-152; "bl 1f; 1: mflr r4; addi" yields the
    address of finish *)
Definition make_ppc64 : list instr :=
  [La "r2" "TOC"; Mov "r6" "lr"; And "r3" "r3" (-16); Add "r3" "r3" (-248);   (* 76-77, 101-109 *)
   Sto 8 "r5" "r3" 176; Li "r0" 0; Sto 8 "r0" "r3" 184;           (* 115, 126-127 *)
   Mov "r0" "lr"; La "lr" "1"; Mov "r4" "lr"; Need "r4" "1"; La "r4" "finish"; Mov "lr" "r0";  (* 135-144 *)
   Sto 8 "r4" "r3" 168; Mov "lr" "r6"; Go "lr"].                  (* 147-152 *)

(** make_ppc64_sysv_elf_gas.S:154-165; [stdu] (store and move the stack pointer) is
    three steps here, with r1' for the value that it stores *)
Definition finish_ppc64 : list instr :=
  [Mov "r0" "lr"; Sto 8 "r0" "r1" 8; Mov "r1'" "r1"; Add "r1" "r1" (-32); Sto 8 "r1'" "r1" 0; Li "r3" 0; Exit "r3"].

Definition port_ppc64 (big : bool) : port := {|
  p_name := if big then "ppc64 sysv elf, ELFv2" else "ppc64le sysv elf, ELFv2"; p_abi := abi_ppc64 big;
  p_code := {| c_jump := jump_ppc64; c_ontop := ontop_ppc64; c_make := make_ppc64;
               c_tramp := []; c_finish := finish_ppc64;
               c_frame := 184; c_hid := 0; c_size := 248; c_mkoff := 0; c_mkal := 16;
               c_mkscr := 0; c_fin := []; c_tail := None; c_spslot := None |} |}.
