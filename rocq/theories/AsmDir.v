(** * The listings of src/asm and the ports they are for

    [directory] has every listing; [listings] says, for each triple of files (jump,
    ontop, make), to which port of AsmCode*.v it belongs, as a function of the
    macros that are defined when it is compiled.  P_AsmText.v proves that the
    routines read from the text are those of the port. *)
From Coq Require Import ZArith List String Ascii Bool Lia.
From Verif Require Import AsmMachine AsmAbi AsmCode AsmCode2 P_AsmPpc P_AsmX32 AsmLex AsmRead.
From Verif Require Import AsmIsaX86 AsmIsaArm AsmIsaRisc AsmIsaPpc.
From Verif Require Import AsmTextX64 AsmTextI386 AsmTextArm AsmTextPpc32 AsmTextPpc64 AsmTextRisc AsmTextStub.
Import ListNotations.
Open Scope string_scope.
Open Scope Z_scope.
Open Scope list_scope.

(** ** The files of src/asm: name, what starts a comment, text *)
Definition directory : list (string * (list string * string)) :=
  [
   ("jump_arm64_aapcs_elf_gas.S", (["//"; "# "], t_jump_arm64_aapcs_elf_gas_S));
   ("jump_arm64_aapcs_macho_gas.S", ([";"], t_jump_arm64_aapcs_macho_gas_S));
   ("jump_arm64_aapcs_pe_armasm.asm", ([";"], t_jump_arm64_aapcs_pe_armasm_asm));
   ("jump_arm64_aapcs_pe_armclang.S", (["//"], t_jump_arm64_aapcs_pe_armclang_S));
   ("jump_arm_aapcs_elf_gas.S", (["@"], t_jump_arm_aapcs_elf_gas_S));
   ("jump_arm_aapcs_macho_gas.S", (["@"], t_jump_arm_aapcs_macho_gas_S));
   ("jump_arm_aapcs_pe_armasm.asm", ([";"], t_jump_arm_aapcs_pe_armasm_asm));
   ("jump_combined_sysv_macho_gas.S", (["//"], t_jump_combined_sysv_macho_gas_S));
   ("jump_i386_ms_pe_clang_gas.S", (["#"; "//"], t_jump_i386_ms_pe_clang_gas_S));
   ("jump_i386_ms_pe_gas.asm", (["#"; "//"], t_jump_i386_ms_pe_gas_asm));
   ("jump_i386_ms_pe_masm.asm", ([";"], t_jump_i386_ms_pe_masm_asm));
   ("jump_i386_sysv_elf_gas.S", (["#"; "//"], t_jump_i386_sysv_elf_gas_S));
   ("jump_i386_sysv_macho_gas.S", (["#"; "//"], t_jump_i386_sysv_macho_gas_S));
   ("jump_i386_x86_64_sysv_macho_gas.S", (["//"], t_jump_i386_x86_64_sysv_macho_gas_S));
   ("jump_loongarch64_sysv_elf_gas.S", (["#"], t_jump_loongarch64_sysv_elf_gas_S));
   ("jump_mips32_o32_elf_gas.S", (["#"], t_jump_mips32_o32_elf_gas_S));
   ("jump_mips64_n64_elf_gas.S", (["#"], t_jump_mips64_n64_elf_gas_S));
   ("jump_ppc32_ppc64_sysv_macho_gas.S", (["//"], t_jump_ppc32_ppc64_sysv_macho_gas_S));
   ("jump_ppc32_sysv_elf_gas.S", (["#"], t_jump_ppc32_sysv_elf_gas_S));
   ("jump_ppc32_sysv_macho_gas.S", ([";"], t_jump_ppc32_sysv_macho_gas_S));
   ("jump_ppc32_sysv_xcoff_gas.S", (["#"], t_jump_ppc32_sysv_xcoff_gas_S));
   ("jump_ppc64_sysv_elf_gas.S", (["#"], t_jump_ppc64_sysv_elf_gas_S));
   ("jump_ppc64_sysv_macho_gas.S", ([";"], t_jump_ppc64_sysv_macho_gas_S));
   ("jump_ppc64_sysv_xcoff_gas.S", (["#"], t_jump_ppc64_sysv_xcoff_gas_S));
   ("jump_riscv64_sysv_elf_gas.S", (["#"; "//"], t_jump_riscv64_sysv_elf_gas_S));
   ("jump_s390x_sysv_elf_gas.S", (["#"], t_jump_s390x_sysv_elf_gas_S));
   ("jump_sparc64_sysv_elf_gas.S", (["#"], t_jump_sparc64_sysv_elf_gas_S));
   ("jump_x86_64_ms_pe_clang_gas.S", (["#"; "//"], t_jump_x86_64_ms_pe_clang_gas_S));
   ("jump_x86_64_ms_pe_gas.asm", (["#"; "//"], t_jump_x86_64_ms_pe_gas_asm));
   ("jump_x86_64_ms_pe_masm.asm", ([";"], t_jump_x86_64_ms_pe_masm_asm));
   ("jump_x86_64_sysv_elf_gas.S", (["#"; "//"], t_jump_x86_64_sysv_elf_gas_S));
   ("jump_x86_64_sysv_macho_gas.S", (["#"; "//"], t_jump_x86_64_sysv_macho_gas_S));
   ("make_arm64_aapcs_elf_gas.S", (["//"; "# "], t_make_arm64_aapcs_elf_gas_S));
   ("make_arm64_aapcs_macho_gas.S", ([";"], t_make_arm64_aapcs_macho_gas_S));
   ("make_arm64_aapcs_pe_armasm.asm", ([";"], t_make_arm64_aapcs_pe_armasm_asm));
   ("make_arm64_aapcs_pe_armclang.S", (["//"], t_make_arm64_aapcs_pe_armclang_S));
   ("make_arm_aapcs_elf_gas.S", (["@"], t_make_arm_aapcs_elf_gas_S));
   ("make_arm_aapcs_macho_gas.S", (["@"], t_make_arm_aapcs_macho_gas_S));
   ("make_arm_aapcs_pe_armasm.asm", ([";"], t_make_arm_aapcs_pe_armasm_asm));
   ("make_combined_sysv_macho_gas.S", (["//"], t_make_combined_sysv_macho_gas_S));
   ("make_i386_ms_pe_clang_gas.S", (["#"; "//"], t_make_i386_ms_pe_clang_gas_S));
   ("make_i386_ms_pe_gas.asm", (["#"; "//"], t_make_i386_ms_pe_gas_asm));
   ("make_i386_ms_pe_masm.asm", ([";"], t_make_i386_ms_pe_masm_asm));
   ("make_i386_sysv_elf_gas.S", (["#"; "//"], t_make_i386_sysv_elf_gas_S));
   ("make_i386_sysv_macho_gas.S", (["#"; "//"], t_make_i386_sysv_macho_gas_S));
   ("make_i386_x86_64_sysv_macho_gas.S", (["//"], t_make_i386_x86_64_sysv_macho_gas_S));
   ("make_loongarch64_sysv_elf_gas.S", (["#"], t_make_loongarch64_sysv_elf_gas_S));
   ("make_mips32_o32_elf_gas.S", (["#"], t_make_mips32_o32_elf_gas_S));
   ("make_mips64_n64_elf_gas.S", (["#"], t_make_mips64_n64_elf_gas_S));
   ("make_ppc32_ppc64_sysv_macho_gas.S", (["//"], t_make_ppc32_ppc64_sysv_macho_gas_S));
   ("make_ppc32_sysv_elf_gas.S", (["#"], t_make_ppc32_sysv_elf_gas_S));
   ("make_ppc32_sysv_macho_gas.S", ([";"], t_make_ppc32_sysv_macho_gas_S));
   ("make_ppc32_sysv_xcoff_gas.S", (["#"], t_make_ppc32_sysv_xcoff_gas_S));
   ("make_ppc64_sysv_elf_gas.S", (["#"], t_make_ppc64_sysv_elf_gas_S));
   ("make_ppc64_sysv_macho_gas.S", ([";"], t_make_ppc64_sysv_macho_gas_S));
   ("make_ppc64_sysv_xcoff_gas.S", (["#"], t_make_ppc64_sysv_xcoff_gas_S));
   ("make_riscv64_sysv_elf_gas.S", (["#"; "//"], t_make_riscv64_sysv_elf_gas_S));
   ("make_s390x_sysv_elf_gas.S", (["#"], t_make_s390x_sysv_elf_gas_S));
   ("make_sparc64_sysv_elf_gas.S", (["#"], t_make_sparc64_sysv_elf_gas_S));
   ("make_x86_64_ms_pe_clang_gas.S", (["#"; "//"], t_make_x86_64_ms_pe_clang_gas_S));
   ("make_x86_64_ms_pe_gas.asm", (["#"; "//"], t_make_x86_64_ms_pe_gas_asm));
   ("make_x86_64_ms_pe_masm.asm", ([";"], t_make_x86_64_ms_pe_masm_asm));
   ("make_x86_64_sysv_elf_gas.S", (["#"; "//"], t_make_x86_64_sysv_elf_gas_S));
   ("make_x86_64_sysv_macho_gas.S", (["#"; "//"], t_make_x86_64_sysv_macho_gas_S));
   ("ontop_arm64_aapcs_elf_gas.S", (["//"; "# "], t_ontop_arm64_aapcs_elf_gas_S));
   ("ontop_arm64_aapcs_macho_gas.S", ([";"], t_ontop_arm64_aapcs_macho_gas_S));
   ("ontop_arm64_aapcs_pe_armasm.asm", ([";"], t_ontop_arm64_aapcs_pe_armasm_asm));
   ("ontop_arm64_aapcs_pe_armclang.S", (["//"], t_ontop_arm64_aapcs_pe_armclang_S));
   ("ontop_arm_aapcs_elf_gas.S", (["@"], t_ontop_arm_aapcs_elf_gas_S));
   ("ontop_arm_aapcs_macho_gas.S", (["@"], t_ontop_arm_aapcs_macho_gas_S));
   ("ontop_arm_aapcs_pe_armasm.asm", ([";"], t_ontop_arm_aapcs_pe_armasm_asm));
   ("ontop_combined_sysv_macho_gas.S", (["//"], t_ontop_combined_sysv_macho_gas_S));
   ("ontop_i386_ms_pe_clang_gas.S", (["#"; "//"], t_ontop_i386_ms_pe_clang_gas_S));
   ("ontop_i386_ms_pe_gas.asm", (["#"; "//"], t_ontop_i386_ms_pe_gas_asm));
   ("ontop_i386_ms_pe_masm.asm", ([";"], t_ontop_i386_ms_pe_masm_asm));
   ("ontop_i386_sysv_elf_gas.S", (["#"; "//"], t_ontop_i386_sysv_elf_gas_S));
   ("ontop_i386_sysv_macho_gas.S", (["#"; "//"], t_ontop_i386_sysv_macho_gas_S));
   ("ontop_i386_x86_64_sysv_macho_gas.S", (["//"], t_ontop_i386_x86_64_sysv_macho_gas_S));
   ("ontop_loongarch64_sysv_elf_gas.S", (["#"], t_ontop_loongarch64_sysv_elf_gas_S));
   ("ontop_mips32_o32_elf_gas.S", (["#"], t_ontop_mips32_o32_elf_gas_S));
   ("ontop_mips64_n64_elf_gas.S", (["#"], t_ontop_mips64_n64_elf_gas_S));
   ("ontop_ppc32_ppc64_sysv_macho_gas.S", (["//"], t_ontop_ppc32_ppc64_sysv_macho_gas_S));
   ("ontop_ppc32_sysv_elf_gas.S", (["#"], t_ontop_ppc32_sysv_elf_gas_S));
   ("ontop_ppc32_sysv_macho_gas.S", ([";"], t_ontop_ppc32_sysv_macho_gas_S));
   ("ontop_ppc32_sysv_xcoff_gas.S", (["#"], t_ontop_ppc32_sysv_xcoff_gas_S));
   ("ontop_ppc64_sysv_elf_gas.S", (["#"], t_ontop_ppc64_sysv_elf_gas_S));
   ("ontop_ppc64_sysv_macho_gas.S", ([";"], t_ontop_ppc64_sysv_macho_gas_S));
   ("ontop_ppc64_sysv_xcoff_gas.S", (["#"], t_ontop_ppc64_sysv_xcoff_gas_S));
   ("ontop_riscv64_sysv_elf_gas.S", (["#"; "//"], t_ontop_riscv64_sysv_elf_gas_S));
   ("ontop_s390x_sysv_elf_gas.S", (["#"], t_ontop_s390x_sysv_elf_gas_S));
   ("ontop_sparc64_sysv_elf_gas.S", (["#"], t_ontop_sparc64_sysv_elf_gas_S));
   ("ontop_x86_64_ms_pe_clang_gas.S", (["#"; "//"], t_ontop_x86_64_ms_pe_clang_gas_S));
   ("ontop_x86_64_ms_pe_gas.asm", (["#"; "//"], t_ontop_x86_64_ms_pe_gas_asm));
   ("ontop_x86_64_ms_pe_masm.asm", ([";"], t_ontop_x86_64_ms_pe_masm_asm));
   ("ontop_x86_64_sysv_elf_gas.S", (["#"; "//"], t_ontop_x86_64_sysv_elf_gas_S));
   ("ontop_x86_64_sysv_macho_gas.S", (["#"; "//"], t_ontop_x86_64_sysv_macho_gas_S))
  ].

(** the files as events *)
Definition parsed : list (string * option (list event)) :=
  map (fun x => (fst x, events (fst (snd x)) (snd (snd x)))) directory.

(** ** Reading a file: its lines, with the files it includes *)
Fixpoint lines_of (f : nat) (o : config) (n : string) : option (list out) :=
  match f with
  | O => None
  | S f =>
      match lookup n parsed with
      | Some (Some es) =>
          (fix go l :=
             match l with
             | [] => Some []
             | OInclude m :: r =>
                 match lines_of f o m, go r with Some a, Some b => Some (a ++ b) | _, _ => None end
             | x :: r => match go r with Some b => Some (x :: b) | None => None end
             end) (select o es)
      | _ => None
      end
  end.

(** an included file includes no further file unless __i386__ and __x86_64__ are
    both defined *)
Definition items_of (sx : syntax) (o : config) (n : string) : option (list item) :=
  match lines_of 2 o n with
  | Some ls => match read_lines sx ls with inl l => Some l | inr _ => None end
  | None => None
  end.

(** ** The routines of a triple of files *)

Record bodies := { b_jump : list instr; b_ontop : list instr; b_make : list instr;
                   b_tramp : list instr; b_finish : list instr }.

(** [l_pre]: what precedes the names of C functions; [l_cases]: under which
    conditions the triple is the code of which port, and how it is read;
    [l_other]: the configurations that no port is claimed for *)
Record listing := {
  l_jump : string; l_ontop : string; l_make : string; l_pre : string;
  l_cases : list (cond * (syntax * port)); l_other : cond }.

(** the trampoline and finish are local labels of the file with make_fcontext; a
    port without a trampoline has no such label *)
Definition bodies_of (sx : syntax) (o : config) (l : listing) : option bodies :=
  match items_of sx o (l_jump l), items_of sx o (l_ontop l), items_of sx o (l_make l) with
  | Some j, Some k, Some m =>
      match routine (l_pre l ++ "jump_fcontext")%string j, routine (l_pre l ++ "ontop_fcontext")%string k,
            routine (l_pre l ++ "make_fcontext")%string m, routine "finish" m with
      | Some a, Some b, Some c, Some e =>
          Some {| b_jump := a; b_ontop := b; b_make := c;
                  b_tramp := match routine "trampoline" m with Some d => d | None => [] end; b_finish := e |}
      | _, _, _, _ => None
      end
  | _, _, _ => None
  end.

(** The port A with the routines of the text.  (The ports in [ports] for Windows on
    arm and arm64 are without ontop_fcontext, which is wrong there.) *)
Definition from_text (A : port) (b : bodies) : port :=
  Port (p_name A) (p_abi A)
    (let C := p_code A in
     Code (b_jump b) (match c_ontop C with [] => [] | _ => b_ontop b end) (b_make b) (b_tramp b) (b_finish b)
       (c_frame C) (c_hid C) (c_size C) (c_mkoff C) (c_mkal C) (c_mkscr C) (c_fin C) (c_tail C) (c_spslot C)).

(** ** The listings *)

Definition Df (s : string) : cond := CAtom (ADef s).
Notation "! c" := (CNot c) (at level 35, right associativity).
Notation "c &' d" := (CAnd c d) (at level 40, left associativity).
Notation "c |' d" := (COr c d) (at level 50, left associativity).
Definition yes : cond := CConst true.
Definition no : cond := CConst false.

Definition tsx : cond := Df "BOOST_USE_TSX".
Definition guard : cond := Df "BOOST_CONTEXT_TLS_STACK_PROTECTOR".
Definition ilp32 : cond := Df "_ILP32".
(** the compiler makes code for shadow stacks and the system call for shadow
    stacks is known *)
Definition shstk : cond := Df "__CET__" &' CAtom (AMask "__CET__" 2) &' CAtom (ANz "SHADOW_STACK_SYSCALL").

(** a port with the control words and one without *)
Definition per_cw (c : cond) (sx : syntax) (A : bool -> port) : list (cond * (syntax * port)) :=
  [(c &' ! tsx, (sx, A true)); (c &' tsx, (sx, A false))].
Definition always (sx : syntax) (A : port) : list (cond * (syntax * port)) := [(yes, (sx, A))].

Definition x64_elf_cases (c : cond) : list (cond * (syntax * port)) :=
  per_cw (c &' ! shstk &' ! guard &' ! ilp32) sx_att64 port_x64_elf ++
  per_cw (c &' ! shstk &' ! guard &' ilp32) sx_att64 port_x32 ++
  per_cw (c &' shstk &' ! guard &' ! ilp32) sx_att64_cet port_x64_cet ++
  [(c &' ! shstk &' guard &' ! ilp32 &' ! tsx, (sx_att64, port_x64_guard))].
Definition x64_elf_other : cond := shstk &' (guard |' ilp32) |' guard &' (ilp32 |' tsx).

Definition L (name : string) (pre : string) (cs : list (cond * (syntax * port))) (oth : cond) : listing :=
  {| l_jump := ("jump_" ++ name)%string; l_ontop := ("ontop_" ++ name)%string; l_make := ("make_" ++ name)%string;
     l_pre := pre; l_cases := cs; l_other := oth |}.

Definition vfp : cond := Df "__VFP_FP__" &' ! Df "__SOFTFP__".
Definition hard : cond := Df "__mips_hard_float".
Definition pic : cond := Df "__PIC__".
Definition elfv2 : cond := CAtom (AEq "_CALL_ELF" 2).
Definition linux : cond := Df "__linux__".

(** sparc64 with the mask that the listing has (see [C27_sparc64_source]) *)
Definition port_sparc64_src : port :=
  let C := p_code port_sparc64 in
  Port (p_name port_sparc64) (p_abi port_sparc64)
    (Code (c_jump C) (c_ontop C) make_sparc64_src (c_tramp C) (c_finish C)
       (c_frame C) (c_hid C) (c_size C) (c_mkoff C) (c_mkal C) (c_mkscr C) (c_fin C) (c_tail C) (c_spslot C)).

Definition listings : list listing :=
  [(* the ELF files of x86_64 and i386 include each other if the compiler is for
      the other one; ontop_x86_64_sysv_elf_gas.S does not *)
   L "x86_64_sysv_elf_gas.S" "" (x64_elf_cases (! Df "__i386__")) (Df "__i386__" |' x64_elf_other);
   L "i386_sysv_elf_gas.S" ""
     (per_cw (! Df "__x86_64__" &' ! guard) sx_att32 (fun cw => port_x86 cw false) ++
      per_cw (! Df "__x86_64__" &' guard) sx_att32 (fun cw => port_x86 cw true) ++
      x64_elf_cases (Df "__x86_64__" &' ! Df "__i386__"))
     (Df "__x86_64__" &' (Df "__i386__" |' x64_elf_other));
   L "x86_64_sysv_macho_gas.S" "_" (per_cw yes sx_att64 port_x64_macho) no;
   L "i386_sysv_macho_gas.S" "_" (per_cw yes sx_att32 port_x86_macho) no;
   L "x86_64_ms_pe_clang_gas.S" "" (per_cw yes sx_att64_ms (fun cw => port_x64_ms cw false)) no;
   L "x86_64_ms_pe_gas.asm" "" (per_cw yes sx_att64_ms (fun cw => port_x64_ms cw false)) no;
   L "x86_64_ms_pe_masm.asm" "" (per_cw yes sx_masm64 (fun cw => port_x64_ms cw true)) no;
   L "i386_ms_pe_clang_gas.S" "_" (per_cw yes sx_att32_ms port_x86_ms) no;
   L "i386_ms_pe_gas.asm" "_" (per_cw yes sx_att32_ms port_x86_ms) no;
   L "i386_ms_pe_masm.asm" "" (per_cw yes sx_masm32 port_x86_ms) no;
   L "arm64_aapcs_elf_gas.S" "" (always sx_a64_elf port_arm64) no;
   L "arm64_aapcs_macho_gas.S" "_" (always sx_a64_macho port_arm64) no;
   L "arm64_aapcs_pe_armclang.S" "" (always sx_a64_clang (port_arm64_pe false) ++ always sx_a64_clang (port_arm64_pe true)) no;
   L "arm64_aapcs_pe_armasm.asm" "" (always sx_a64_armasm (port_arm64_pe false) ++ always sx_a64_armasm (port_arm64_pe true)) no;
   L "arm_aapcs_elf_gas.S" "" [(vfp, (sx_arm, port_arm true)); (! vfp, (sx_arm, port_arm false))] no;
   L "arm_aapcs_macho_gas.S" "_" [(vfp, (sx_arm_macho, port_arm_macho true)); (! vfp, (sx_arm_macho, port_arm_macho false))] no;
   L "arm_aapcs_pe_armasm.asm" "" (always sx_arm_pe (port_arm_pe false) ++ always sx_arm_pe (port_arm_pe true)) no;
   L "riscv64_sysv_elf_gas.S" "" (always sx_riscv port_riscv) no;
   L "loongarch64_sysv_elf_gas.S" "" (always sx_loong port_loong) no;
   (* big- and little-endian *)
   L "mips32_o32_elf_gas.S" ""
     (flat_map (fun big => [(pic &' hard, (sx_mips32, port_mips32 big true)); (pic &' ! hard, (sx_mips32, port_mips32 big false))])
        [true; false]) (! pic);
   L "mips64_n64_elf_gas.S" ""
     (flat_map (fun big => [(pic &' hard, (sx_mips64, port_mips64 big true)); (pic &' ! hard, (sx_mips64, port_mips64 big false))])
        [true; false]) (! pic);
   L "s390x_sysv_elf_gas.S" "" (always sx_s390x port_s390x) no;
   L "sparc64_sysv_elf_gas.S" "" (always sx_sparc64 port_sparc64_src) no;
   L "ppc32_sysv_elf_gas.S" "" [(linux, (sx_ppc32_elf, port_ppc32 true)); (! linux, (sx_ppc32_elf, port_ppc32 false))] no;
   L "ppc32_sysv_macho_gas.S" "_" (always sx_ppc32_macho port_ppc32_macho) no;
   L "ppc32_sysv_xcoff_gas.S" "" (always sx_ppc32_xcoff port_ppc32_xcoff) no;
   L "ppc64_sysv_elf_gas.S" ""
     [(elfv2, (sx_ppc64_elfv2, port_ppc64 false)); (elfv2, (sx_ppc64_elfv2, port_ppc64 true));
      (! elfv2, (sx_ppc64_elfv1, port_ppc64d false))] no;
   L "ppc64_sysv_xcoff_gas.S" "" (always sx_ppc64_xcoff (port_ppc64d true)) no;
   L "ppc64_sysv_macho_gas.S" "_" (always sx_ppc64_macho port_ppc64_macho) no;
   (* files for several architectures *)
   L "i386_x86_64_sysv_macho_gas.S" "_"
     (per_cw (Df "__i386__") sx_att32 port_x86_macho ++ per_cw (! Df "__i386__" &' Df "__x86_64__") sx_att64 port_x64_macho)
     (! Df "__i386__" &' ! Df "__x86_64__");
   L "ppc32_ppc64_sysv_macho_gas.S" "_"
     [(Df "__ppc__", (sx_ppc32_macho, port_ppc32_macho));
      (! Df "__ppc__" &' Df "__ppc64__", (sx_ppc64_macho, port_ppc64_macho))]
     (! Df "__ppc__" &' ! Df "__ppc64__");
   L "combined_sysv_macho_gas.S" "_"
     (let a1 := Df "__i386__" in let a2 := Df "__x86_64__" in let a3 := Df "__ppc__" in
      let a4 := Df "__ppc64__" in let a5 := Df "__arm__" in let a6 := Df "__arm64__" in
      per_cw a1 sx_att32 port_x86_macho ++ per_cw (! a1 &' a2) sx_att64 port_x64_macho ++
      [(! a1 &' ! a2 &' a3, (sx_ppc32_macho, port_ppc32_macho));
       (! a1 &' ! a2 &' ! a3 &' a4, (sx_ppc64_macho, port_ppc64_macho));
       (! a1 &' ! a2 &' ! a3 &' ! a4 &' a5 &' vfp, (sx_arm_macho, port_arm_macho true));
       (! a1 &' ! a2 &' ! a3 &' ! a4 &' a5 &' ! vfp, (sx_arm_macho, port_arm_macho false));
       (! a1 &' ! a2 &' ! a3 &' ! a4 &' ! a5 &' a6, (sx_a64_macho, port_arm64))])
     (! (Df "__i386__" |' Df "__x86_64__" |' Df "__ppc__" |' Df "__ppc64__" |' Df "__arm__" |' Df "__arm64__"))].
