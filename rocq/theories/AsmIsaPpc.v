(** * PowerPC: what the lines of the listings stand for

    The listings write registers as %r1 (ELF), r1 (Mach-O) or 1 (XCOFF); in the
    patterns below @ stands for a register in the notation of the listing.
    Conventions as in AsmCode.v and AsmCode2.v. *)
From Coq Require Import ZArith List String Ascii.
From Verif Require Import AsmMachine AsmLex AsmRead AsmIsaArm.
Import ListNotations.
Open Scope string_scope.
Open Scope Z_scope.
Open Scope list_scope.

Definition regs_ppc : list string := numbered "r" 0 32 ++ numbered "f" 0 32.

Fixpoint at_ (p s : string) : string :=
  match s with
  | EmptyString => EmptyString
  | String c s' => if Ascii.eqb c "@"%char then append p (at_ p s') else String c (at_ p s')
  end.

Definition ppc_ign : list rule :=
  map (fun d => ign (append d " ?z"))
    [".file"; ".text"; ".globl"; ".hidden"; ".type"; ".align"; ".size"; ".section"; ".localentry"; ".private_extern";
     ".toc"; ".csect"; ".Ltoc"; ".machine"].

(** store and move the stack pointer: r1' is the value that is stored *)
Definition update (w : Z) (r b : string) (n : Z) : list instr :=
  same r b (same r "r1" [Mov "r1'" "r1"; Add "r1" "r1" n; Sto w "r1'" "r1" 0]).

(** [p]: the notation for registers; [g], [f]: what it lacks of the names of
    general and floating-point registers *)
Definition ppc_common (p g f : string) : list rule :=
  let r s (h : (nat -> string) -> (nat -> string) -> (nat -> Z) -> list instr) :=
    rl (at_ p s) (fun R N => h (fun i => append g (R i)) (fun i => append f (R i)) N) in
  [r "mr @, @" (fun G F N => [Mov (G 0) (G 1)]);
   r "addi @, @, ?n" (fun G F N => [Add (G 0) (G 1) (N 0)]);
   r "subi @, @, ?n" (fun G F N => [Add (G 0) (G 1) (- N 0)]);
   r "la @, ?n(@)" (fun G F N => [Add (G 0) (G 1) (N 0)]);
   r "li @, ?n" (fun G F N => [Li (G 0) (N 0)]);
   r "mflr @" (fun G F N => [Mov (G 0) "lr"]);
   r "mtlr @" (fun G F N => [Mov "lr" (G 0)]);
   r "mfcr @" (fun G F N => [Mov (G 0) "cr"]);
   r "mtcr @" (fun G F N => [Mov "cr" (G 0)]);
   r "mtctr @" (fun G F N => [Mov "ctr" (G 0)]);
   r "mffs @" (fun G F N => [Mov (F 0) "fpscr"]);
   r "mtfsf 0xff, @" (fun G F N => [Mov "fpscr" (F 0)]);
   r "stw @, ?n(@)" (fun G F N => [Sto 4 (G 0) (G 1) (N 0)]);
   r "lwz @, ?n(@)" (fun G F N => [Ld 4 (G 0) (G 1) (N 0)]);
   r "std @, ?n(@)" (fun G F N => [Sto 8 (G 0) (G 1) (N 0)]);
   r "ld @, ?n(@)" (fun G F N => [Ld 8 (G 0) (G 1) (N 0)]);
   r "stfd @, ?n(@)" (fun G F N => [Sto 8 (F 0) (G 1) (N 0)]);
   r "lfd @, ?n(@)" (fun G F N => [Ld 8 (F 0) (G 1) (N 0)]);
   r "stwu @, ?n(@)" (fun G F N => update 4 (G 0) (G 1) (N 0));
   r "stdu @, ?n(@)" (fun G F N => update 8 (G 0) (G 1) (N 0));
   r "bctr" (fun G F N => [Go "ctr"]);
   r "blr" (fun G F N => [Go "lr"])]%nat ++ ppc_ign.

(** clrrwi clears the upper half of a 64-bit register, too *)
Definition clear32 (p g : string) : rule :=
  rl (at_ p "clrrwi @, @, ?n") (fun R N => [And (append g (R 0)) (append g (R 1)) (- 2 ^ N 0)])%nat.
Definition clear64 (p g : string) : list rule :=
  [rl (at_ p "clrrdi @, @, ?n") (fun R N => [And (append g (R 0)) (append g (R 1)) (- 2 ^ N 0)]);
   rl (at_ p "clrrwi @, @, ?n") (fun R N => [And (append g (R 0)) (append g (R 1)) (2 ^ 32 - 2 ^ N 0)])]%nat.

(** ontop_fcontext_tail (tail_ontop_ppc32_sysv.cpp) *)
Definition tail_call (s : string) : rule :=
  rl (append "b " s) (fun R N => [La "pc" "ontop_fcontext_tail"; Go "pc"]).

(** "compare with 0, branch if equal": both arms end with the same jump *)
Definition two_arms (p g st : string) (w : Z) : rule :=
  let G R (i : nat) := append g (R i : string) in
  rl (at_ p (append "cmpdi @, 0; beq use_entry_arg; " (append st (append " @, ?n(@); " (append st
            " @, ?n(@); bctr; use_entry_arg:; mr @, @; mr @, @; bctr")))))
    (fun R N => [Mov "cc" (G R 0); Stonz "cc" w (G R 1) (G R 2) (N 0); Stonz "cc" w (G R 3) (G R 4) (N 1);
                 Addz "cc" (G R 5) (G R 6) 0; Addz "cc" (G R 7) (G R 8) 0; Go "ctr"])%nat.

(** ** ELF, 32 bits *)

Definition elf32 : list rule :=
  [rl "bl 1f; 1: mflr %?r" (fun R N => [La "lr" "1"; Mov (R 0) "lr"]);
   rl "bl 2f; 2: mflr %?r" (fun R N => [La "lr" "2"; Mov (R 0) "lr"]);
   rl "addi %?r, %?r, ?x - 1b" (fun R N => [Need (R 1) "1"; La (R 0) (R 2)]);
   rl "addis %?r, %?r, .Ltoc - 2b@ha; addi %?r, %?r, .Ltoc - 2b@l"
     (fun R N => same (R 0) (R 2) (same (R 2) (R 3) [Need (R 1) "2"; La (R 0) ".Ltoc"]));
   (* calls through the procedure linkage table need r30 *)
   rl "bl _exit + 0x8000@plt" (fun R N => [Need "r30" ".Ltoc"; Exit "r3"]);
   tail_call "ontop_fcontext_tail"; clear32 "%?r" ""]%nat ++ ppc_common "%?r" "" "".

(** ** ELF, 64 bits *)

(** ELFv2: r12 holds the address of the function *)
Definition elf64_common : list rule :=
  [rl "addis %r2, %r12, .TOC.-?x@ha; addi %r2, %r2, .TOC.-?x@l" (fun R N => same (R 0) (R 1) [La "r2" "TOC"]);
   rl "bl 1f; 1:; mflr %?r" (fun R N => [La "lr" "1"; Mov (R 0) "lr"]);
   rl "addi %?r, %?r, ?x - 1b" (fun R N => [Need (R 1) "1"; La (R 0) (R 2)]);
   rl "bl _exit; nop" (fun R N => [Exit "r3"]);
   ign "return_to_ctx:"]%nat.
Definition elf64 : list rule := elf64_common ++ clear64 "%?r" "" ++ ppc_common "%?r" "" "".

(** ELFv1: a function pointer (r5, r6) is the address of a descriptor, whose
    words are registers of the model (see AsmCode2.v).  A label with a descriptor
    is the label of the code that the descriptor names. *)
Definition desc (a b c : string) : list item := if String.eqb b c then [Lab a] else [I (Exit "?")].
(** [use_entry_arg] of ontop, for a context that was not entered yet, is not
    modelled: [Nonz] says that this branch is not taken *)
Definition elf64d : list rule :=
  [(pattern "?x:; .quad ?x,.TOC.@tocbase,0; .type ?z; .text; .align ?n; ?x:", fun R N => desc (R 0) (R 1) (R 2));
   (pattern "?x:; .hidden ?z; .globl ?z; .quad ?x,.TOC.@tocbase,0; .size ?z; .type ?z; .text; .align ?n; ?x:",
      fun R N => desc (R 0) (R 1) (R 2));
   rl "ld %?r, 0(%r5)" (fun R N => [Mov (R 0) "r5.pc"]); rl "ld %?r, 8(%r5)" (fun R N => [Mov (R 0) "r5.toc"]);
   rl "ld %?r, 0(%r6)" (fun R N => [Mov (R 0) "r6.pc"]); rl "ld %?r, 8(%r6)" (fun R N => [Mov (R 0) "r6.toc"]);
   two_arms "%?r" "" "std" 8;
   rl "cmpdi %?r, 0; beq use_entry_arg; return_to_ctx:" (fun R N => [Nonz (R 0)]);
   lb "use_entry_arg:; addi %r3, %r1, 8; bctrl; ld %r7, 176(%r1); mtctr %r7; ld %r2, 0(%r1); ld %r3, 8(%r1); ld %r4, 16(%r1); b return_to_ctx"
     (fun _ => "use_entry_arg")]%nat ++ elf64.

(** ** XCOFF *)

Definition r_ (s : string) : string := append "r" s.
Definition xcoff : list rule :=
  [rl "bl .Label; .Label:; mflr ?d" (fun R N => [La "lr" "1"; Mov (r_ (R 0)) "lr"]);
   rl "addi ?d, ?d, .L_finish - .Label" (fun R N => [Need (r_ (R 1)) "1"; La (r_ (R 0)) "finish"]);
   rl "bl ._exit; nop" (fun R N => [Exit "r3"]);
   rl "cmpdi ?d, 0; beq use_entry_arg; return_to_ctx:" (fun R N => [Nonz (r_ (R 0))]);
   lb ".L_finish:" (fun _ => "finish")]%nat ++ ppc_common "?d" "r" "f".
Definition xcoff64 : list rule :=
  [(pattern "?x:; .llong ?x[PR], TOC[tc0], 0; .csect ?z; ?x:", fun R N => desc (R 0) (R 1) (R 2));
   rl "ld ?d, 0(5)" (fun R N => [Mov (r_ (R 0)) "r5.pc"]); rl "ld ?d, 8(5)" (fun R N => [Mov (r_ (R 0)) "r5.toc"]);
   rl "ld ?d, 0(6)" (fun R N => [Mov (r_ (R 0)) "r6.pc"]); rl "ld ?d, 8(6)" (fun R N => [Mov (r_ (R 0)) "r6.toc"]);
   two_arms "?d" "r" "std" 8;
   lb "use_entry_arg:; addi 3, 1, 8; bctrl; ld 7, 176(1); mtctr 7; ld 2, 0(1); ld 3, 8(1); ld 4, 16(1); b return_to_ctx"
     (fun _ => "use_entry_arg")]%nat ++ clear64 "?d" "r" ++ xcoff.
(** in 32-bit code, a register that holds 0 is stored by std as two words *)
Definition xcoff32 : list rule :=
  [(pattern "?x:; .long ?x[PR], TOC[tc0], 0; .csect ?z; ?x:", fun R N => desc (R 0) (R 1) (R 2));
   rl "lwz ?d, 0(5)" (fun R N => [Mov (r_ (R 0)) "r5.pc"]); rl "lwz ?d, 4(5)" (fun R N => [Mov (r_ (R 0)) "r5.toc"]);
   rl "lwz ?d, 0(6)" (fun R N => [Mov (r_ (R 0)) "r6.pc"]); rl "lwz ?d, 4(6)" (fun R N => [Mov (r_ (R 0)) "r6.toc"]);
   rl "li 0, 0; stw 0, ?n(?d); std 0, ?n(?d)"
     (fun R N => [Li "r0" 0; Sto 4 "r0" (r_ (R 0)) (N 0); Sto 4 "r0" (r_ (R 1)) (N 1); Sto 4 "r0" (r_ (R 1)) (N 1 + 4)]);
   two_arms "?d" "r" "stw" 4;
   lb "use_entry_arg:; addi 3, 1, 8; bctrl; lwz 7, 4(1); mtctr 7; lwz 2, 20(1); lwz 3, 8(1); lwz 4, 12(1); b return_to_ctx"
     (fun _ => "use_entry_arg"); clear32 "?d" "r"]%nat ++ xcoff.

(** ** Mach-O *)

Definition macho32 : list rule :=
  [rl "bcl 20, 31, L1; L1:; mflr ?r" (fun R N => [La "lr" "L1"; Mov (R 0) "lr"]);
   rl "bcl 20, 31, L2; L2:; mflr ?r" (fun R N => [La "lr" "L2"; Mov (R 0) "lr"]);
   rl "addi ?r, ?r, lo16(Ltrampoline - L1)" (fun R N => [Need (R 1) "L1"; La (R 0) "trampoline"]);
   rl "addi ?r, ?r, lo16(Lfinish - L1)" (fun R N => [Need (R 1) "L1"; La (R 0) "finish"]);
   rl "addis ?r, ?r, ha16(Lexitp - L2); lwz ?r, lo16(Lexitp - L2)(?r)"
     (fun R N => same (R 0) (R 3) [Need (R 1) "L2"; La (R 2) "__exit"]);
   (* Lexitp is a word that holds the address of _exit *)
   rl "mtctr ?r; li r3, 0; bctr; .const_data; .align 2; Lexitp:; .long __exit"
     (fun R N => [Mov "ctr" (R 0); Li "r3" 0; Need "ctr" "__exit"; Exit "r3"]);
   lb "Ltrampoline:" (fun _ => "trampoline"); lb "Lfinish:" (fun _ => "finish");
   tail_call "_ontop_fcontext_tail"; clear32 "?r" ""]%nat ++ ppc_common "?r" "" "".
Definition macho64 : list rule :=
  [rl "bl l1; l1:; mflr ?r" (fun R N => [La "lr" "l1"; Mov (R 0) "lr"]);
   rl "addi ?r, ?r, lo16((finish - .) + 4)" (fun R N => [Need (R 1) "l1"; La (R 0) "finish"]);
   rl "bl __exit; nop" (fun R N => [Exit "r3"]); two_arms "?r" "" "std" 8]%nat ++ clear64 "?r" "" ++ ppc_common "?r" "" "".

(** ** Syntaxes *)

Definition sx_ppc (cm : list string) (l : list rule) : syntax :=
  {| sx_comment := cm; sx_regs := regs_ppc; sx_alias := []; sx_rules := l |}.
Definition sx_ppc32_elf := sx_ppc ["#"] elf32.
Definition sx_ppc64_elfv2 := sx_ppc ["#"] elf64.
Definition sx_ppc64_elfv1 := sx_ppc ["#"] elf64d.
Definition sx_ppc64_xcoff := sx_ppc ["#"] xcoff64.
Definition sx_ppc32_xcoff := sx_ppc ["#"] xcoff32.
Definition sx_ppc32_macho := sx_ppc [";"] macho32.
Definition sx_ppc64_macho := sx_ppc [";"] macho64.
