(** * x86: what the lines of the listings stand for

    AT&T syntax (GNU assembler, clang) and Intel syntax (masm).  Intel SDM vol. 2
    for the instructions.  Conventions as in AsmCode.v: [mxcsr] and [x87cw] are
    registers, as are the words of the thread information block (tibXX, i.e. the
    word at offset XX), the stack guards (fs28, gs14) and the shadow stack
    pointer (ssp); [rstorssp], [saveprevssp] and [incsspq], which work on the
    shadow stack, have no effect on the state modelled. *)
From Coq Require Import ZArith List String.
From Verif Require Import AsmMachine AsmLex AsmRead.
Import ListNotations.
Open Scope string_scope.
Open Scope Z_scope.
Open Scope list_scope.

Definition regs64 : list string :=
  ["rax"; "rbx"; "rcx"; "rdx"; "rsi"; "rdi"; "rbp"; "rsp"; "r8"; "r9"; "r10"; "r11"; "r12"; "r13"; "r14"; "r15"].
Definition regs32 : list string := ["eax"; "ebx"; "ecx"; "edx"; "esi"; "edi"; "ebp"; "esp"].
Definition xmms : list string :=
  ["xmm6"; "xmm7"; "xmm8"; "xmm9"; "xmm10"; "xmm11"; "xmm12"; "xmm13"; "xmm14"; "xmm15"].

(** directives: sections, visibility, unwind tables, alignment *)
Definition gas_ign : list rule :=
  map (fun d => ign (append d " ?z"))
    [".file"; ".text"; ".globl"; ".global"; ".hidden"; ".type"; ".align"; ".p2align"; ".size"; ".section"; ".def";
     ".seh_proc"; ".seh_endprologue"; ".seh_endproc"; ".ascii"; ".set"; ".private_extern"] ++
  [ign "_CET_ENDBR"].                            (* endbr64 or nothing *)

(** push and pop of a word of w bytes; ret and call *)
Definition push (w : Z) (sp r : string) : list instr := [Add sp sp (- w); Sto w r sp 0].
Definition pop (w : Z) (sp r : string) : list instr := [Ld w r sp 0; Add sp sp w].
Definition ret (w : Z) (sp ip : string) : list instr := pop w sp ip ++ [Go ip].

(** control and status words *)
Definition att_cw : list rule :=
  [rl "stmxcsr ?o(%?r)" (fun R N => [Sto 4 "mxcsr" (R 0) (N 0)]);
   rl "ldmxcsr ?o(%?r)" (fun R N => [Ld 4 "mxcsr" (R 0) (N 0)]);
   rl "fnstcw ?o(%?r)" (fun R N => [Sto 2 "x87cw" (R 0) (N 0)]);
   rl "fldcw ?o(%?r)" (fun R N => [Ld 2 "x87cw" (R 0) (N 0)])]%nat.

(** ** AT&T, 64 bits *)

Definition att64_common : list rule :=
  [rl "movq %?r, %?r" (fun R N => [Mov (R 1) (R 0)]);
   rl "movq $?n, %?r" (fun R N => [Li (R 0) (N 0)]);
   rl "movq %?r, ?o(%?r)" (fun R N => [Sto 8 (R 0) (R 1) (N 0)]);
   rl "movq ?o(%?r), %?r" (fun R N => [Ld 8 (R 1) (R 0) (N 0)]);
   rl "leaq ?o(%?r), %?r" (fun R N => [Add (R 1) (R 0) (N 0)]);
   rl "leaq ?x(%rip), %?r" (fun R N => [La (R 1) (R 0)]);
   rl "negq %?r; leaq (%?r,%?r), %?r" (fun R N => same (R 0) (R 2) [Sub (R 3) (R 1) (R 0)]);
   rl "andq $?n, %?r" (fun R N => [And (R 0) (R 0) (N 0)]);
   rl "orq %?r, %?r" (fun R N => [Or (R 1) (R 0)]);
   rl "salq $?n, %?r" (fun R N => [Sal (R 0) (N 0)]);
   rl "xorq %?r, %?r" (fun R N => same (R 0) (R 1) [Li (R 0) 0]);
   rl "push %?r" (fun R N => push 8 "rsp" (R 0));
   rl "pushq %?r" (fun R N => push 8 "rsp" (R 0));
   rl "popq %?r" (fun R N => pop 8 "rsp" (R 0));
   rl "jmp *%?r" (fun R N => [Go (R 0)]);
   rl "ret" (fun R N => ret 8 "rsp" "rip")]%nat ++ att_cw ++ gas_ign.

(** System V: the first argument of _exit is rdi *)
Definition att64 : list rule :=
  [rl "call _exit@PLT; hlt" (fun R N => [Exit "rdi"]);
   rl "call __exit; hlt" (fun R N => [Exit "rdi"]);
   rl "movq %fs:?n, %?r" (fun R N => [Mov (R 0) (append "fs" (hex (N 0)))]);
   rl "movq %?r, %fs:?n" (fun R N => [Mov (append "fs" (hex (N 0))) (R 0)])]%nat ++ att64_common.

(** with shadow stacks: "call 2f; jmp *%rbp; 2:" pushes the address of the
    instruction after the call, which is the place that context-functions return
    to, called finish in the model; what the listing calls finish is exit there *)
Definition att64_cet : list rule :=
  [rl "rdsspq %?r" (fun R N => [Mov (R 0) "ssp"]);
   ign "rstorssp ?n(%?r)"; ign "saveprevssp"; ign "incsspq %?r";
   (pattern "call 1f; jmp trampoline; 1:",
      fun R N => ins ([La "tmp" "jmp trampoline"] ++ push 8 "rsp" "tmp") ++
                 [Blk "jmp trampoline" [La "tmp" "trampoline"; Go "tmp"]]);
   rl "movq -0x8(%rdi), %?r" (fun R N => [Mov (R 0) "newssp"]);
   rl "pop ?o(%?r)" (fun R N => pop 8 "rsp" "tmp" ++ [Sto 8 "tmp" (R 0) (N 0)]);
   (pattern "call 2f; jmp *%?r; 2:",
      fun R N => ins ([La "tmp" "finish"] ++ push 8 "rsp" "tmp") ++ [Blk "finish" [Go (R 0)]]);
   rl "leaq finish(%rip), %?r" (fun R N => [La (R 0) "exit"]);
   lb "finish:" (fun _ => "exit")]%nat ++ att64.

(** Microsoft: the first argument of _exit is rcx; r10 is used for the address of
    the thread information block (gs:0x30) *)
Definition att64_ms : list rule :=
  [rl "movq %gs:(0x30), %?r" (fun R N => [La (R 0) "TIB"]);
   rl "movq ?o(%r10), %?r" (fun R N => [Need "r10" "TIB"; Mov (R 0) (tib (N 0))]);
   rl "movq %?r, ?o(%r10)" (fun R N => [Need "r10" "TIB"; Mov (tib (N 0)) (R 0)]);
   rl "movaps %?r, ?o(%?r)" (fun R N => [Sto 16 (R 0) (R 1) (N 0)]);
   rl "movaps ?o(%?r), %?r" (fun R N => [Ld 16 (R 1) (R 0) (N 0)]);
   rl "call _exit; hlt" (fun R N => [Exit "rcx"])]%nat ++ att64_common.

(** ** AT&T, 32 bits *)

(** "call 1f; 1: popl": the address of the label 1, through the stack *)
Definition pc_rel (l r : string) : list instr :=
  [La "tmp" l] ++ push 4 "esp" "tmp" ++ pop 4 "esp" r.
Definition att32_common : list rule :=
  [rl "movl %?r, %?r" (fun R N => [Mov (R 1) (R 0)]);
   rl "movl $?n, %?r" (fun R N => [Li (R 0) (N 0)]);
   rl "movl $?x, %?r" (fun R N => [La (R 1) (R 0)]);
   rl "movl %?r, ?o(%?r)" (fun R N => [Sto 4 (R 0) (R 1) (N 0)]);
   rl "movl ?o(%?r), %?r" (fun R N => [Ld 4 (R 1) (R 0) (N 0)]);
   rl "leal ?o(%?r), %?r" (fun R N => [Add (R 1) (R 0) (N 0)]);
   rl "negl %?r; leal (%?r,%?r), %?r" (fun R N => same (R 0) (R 2) [Sub (R 3) (R 1) (R 0)]);
   rl "andl $?n, %?r" (fun R N => [And (R 0) (R 0) (N 0)]);
   rl "xorl %?r, %?r" (fun R N => same (R 0) (R 1) [Li (R 0) 0]);
   rl "pushl %?r" (fun R N => push 4 "esp" (R 0));
   rl "jmp *%?r" (fun R N => [Go (R 0)]);
   rl "ret" (fun R N => ret 4 "esp" "eip");
   rl "call 1f; 1: popl %?r" (fun R N => pc_rel "1" (R 0));
   rl "call 2f; 2: popl %?r" (fun R N => pc_rel "2" (R 0));
   rl "call 3f; 3: popl %?r" (fun R N => pc_rel "3" (R 0));
   rl "addl $_GLOBAL_OFFSET_TABLE_+[.-3b], %?r" (fun R N => [Need (R 0) "3"; La (R 0) "GOT"]);
   rl "addl $?x-1b, %?r" (fun R N => [Need (R 1) "1"; La (R 1) (R 0)]);
   rl "addl $?x-2b, %?r" (fun R N => [Need (R 1) "2"; La (R 1) (R 0)])]%nat ++ att_cw ++ gas_ign.

(** the argument of _exit is on the stack *)
Definition exit_32 : list instr := [Ld 4 "status" "esp" 0; Exit "status"].
Definition att32 : list rule :=
  [rl "call _exit@PLT; hlt" (fun R N => Need "ebx" "GOT" :: exit_32);
   rl "call __exit; hlt" (fun R N => exit_32);
   rl "movl %gs:?n, %?r" (fun R N => [Mov (R 0) (append "gs" (hex (N 0)))]);
   rl "movl %?r, %gs:?n" (fun R N => [Mov (append "gs" (hex (N 0))) (R 0)])]%nat ++ att32_common.

(** Microsoft: edx is used for the address of the thread information block
    (fs:0x18).  Simplification: the loop that walks the chain of exception
    handlers, from fs:0 to the record whose link is -1, only reads; it yields the
    handler of that record, the register "lastseh". *)
Definition att32_ms : list rule :=
  [rl "movl %fs:(0x18), %?r" (fun R N => [La (R 0) "TIB"]);
   rl "movl ?o(%edx), %?r" (fun R N => [Need "edx" "TIB"; Mov (R 0) (tib (N 0))]);
   rl "movl %?r, ?o(%edx)" (fun R N => [Need "edx" "TIB"; Mov (tib (N 0)) (R 0)]);
   rl "movl %fs:(0x0), %ecx; walk:; movl (%ecx), %edx; incl %edx; jz found; decl %edx; xchgl %ecx, %edx; jmp walk; found:; movl 0x04(%ecx), %ecx"
     (fun R N => [Mov "ecx" "lastseh"]);
   rl "call __exit; hlt" (fun R N => exit_32)]%nat ++ att32_common.

(** ** Intel syntax (masm) *)

Definition masm_ign : list rule :=
  map (fun d => ign (append d " ?z")) ["EXTERN"; ".code"; ".386"; ".XMM"; ".model"; ".endprolog"; "END"; "assume"] ++
  [ign "?x ENDP"; ign "_exit PROTO, value:SDWORD"; lb "?x PROC ?z" (fun R => R 0%nat)].

Definition intel (w : Z) (sp ip base seg : string) (seg_off : string) : list rule :=
  [rl (append "mov ?r, " (append seg (append ":[" (append seg_off "]")))) (fun R N => [La (R 0) "TIB"]);
   rl (append "mov ?r, [" (append base " ?o]")) (fun R N => [Need base "TIB"; Mov (R 0) (tib (N 0))]);
   rl (append "mov [" (append base " ?o], ?r")) (fun R N => [Need base "TIB"; Mov (tib (N 0)) (R 0)]);
   rl "mov ?r, ?r" (fun R N => [Mov (R 0) (R 1)]);
   rl "mov ?r, ?n" (fun R N => [Li (R 0) (N 0)]);
   rl "mov [?r ?o], ?r" (fun R N => [Sto w (R 1) (R 0) (N 0)]);
   rl "mov ?r, [?r ?o]" (fun R N => [Ld w (R 0) (R 1) (N 0)]);
   rl "mov ?r, ?x" (fun R N => [La (R 0) (R 1)]);
   rl "lea ?r, [?r ?n]" (fun R N => [Add (R 0) (R 1) (N 0)]);
   rl "neg ?r; lea ?r, [?r+?r]" (fun R N => same (R 0) (R 3) [Sub (R 1) (R 2) (R 0)]);
   rl "lea ?r, ?x" (fun R N => [La (R 0) (R 1)]);
   rl "sub ?r, ?n" (fun R N => [Add (R 0) (R 0) (- N 0)]);
   rl "and ?r, ?n" (fun R N => [And (R 0) (R 0) (N 0)]);
   rl "xor ?r, ?r" (fun R N => same (R 0) (R 1) [Li (R 0) 0]);
   rl "push ?r" (fun R N => push w sp (R 0));
   rl "pop ?r" (fun R N => pop w sp (R 0));
   rl "jmp ?r" (fun R N => [Go (R 0)]);
   rl "ret" (fun R N => ret w sp ip);
   rl "movaps ?r, [?r ?o]" (fun R N => [Ld 16 (R 0) (R 1) (N 0)]);
   rl "movaps [?r ?o], ?r" (fun R N => [Sto 16 (R 1) (R 0) (N 0)]);
   rl "stmxcsr [?r ?o]" (fun R N => [Sto 4 "mxcsr" (R 0) (N 0)]);
   rl "ldmxcsr [?r ?o]" (fun R N => [Ld 4 "mxcsr" (R 0) (N 0)]);
   rl "fnstcw [?r ?o]" (fun R N => [Sto 2 "x87cw" (R 0) (N 0)]);
   rl "fldcw [?r ?o]" (fun R N => [Ld 2 "x87cw" (R 0) (N 0)])]%nat ++ masm_ign.

Definition masm64 : list rule :=
  rl "call _exit; hlt" (fun R N => [Exit "rcx"]) :: intel 8 "rsp" "rip" "r10" "gs" "030h".
Definition masm32 : list rule :=
  [rl "assume fs:nothing; mov ecx, fs:[0h]; assume fs:error; walk:; mov edx, [ecx]; inc edx; jz found; dec edx; xchg edx, ecx; jmp walk; found:; mov ecx, [ecx+04h]"
     (fun R N => [Mov "ecx" "lastseh"]);
   rl "call _exit; hlt" (fun R N => exit_32)] ++ intel 4 "esp" "eip" "edx" "fs" "018h".

(** ** Syntaxes *)

Definition sx_att64 := {| sx_comment := ["#"; "//"]; sx_regs := regs64; sx_alias := []; sx_rules := att64 |}.
Definition sx_att64_cet := {| sx_comment := ["#"; "//"]; sx_regs := regs64; sx_alias := []; sx_rules := att64_cet |}.
Definition sx_att64_ms := {| sx_comment := ["#"; "//"]; sx_regs := regs64 ++ xmms; sx_alias := []; sx_rules := att64_ms |}.
Definition sx_att32 := {| sx_comment := ["#"; "//"]; sx_regs := regs32; sx_alias := []; sx_rules := att32 |}.
Definition sx_att32_ms := {| sx_comment := ["#"; "//"]; sx_regs := regs32; sx_alias := []; sx_rules := att32_ms |}.
Definition sx_masm64 := {| sx_comment := [";"]; sx_regs := regs64 ++ xmms; sx_alias := []; sx_rules := masm64 |}.
Definition sx_masm32 := {| sx_comment := [";"]; sx_regs := regs32; sx_alias := []; sx_rules := masm32 |}.
