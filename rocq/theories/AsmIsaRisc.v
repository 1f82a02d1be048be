(** * RISC-V, LoongArch, MIPS, s390x, SPARC: what the lines of the listings stand for

    Conventions as in AsmCode.v and AsmCode2.v. *)
From Coq Require Import ZArith List String Ascii.
From Verif Require Import AsmMachine AsmAbi AsmCode AsmCode2 AsmLex AsmRead AsmIsaArm.
Import ListNotations.
Open Scope string_scope.
Open Scope Z_scope.
Open Scope list_scope.

Definition risc_ign : list rule :=
  map (fun d => ign (append d " ?z"))
    [".file"; ".text"; ".globl"; ".global"; ".hidden"; ".type"; ".align"; ".size"; ".section"; ".ent"; ".end"; ".machine"].

(** ** RISC-V *)

Definition regs_riscv : list string :=
  ["sp"; "ra"] ++ numbered "a" 0 8 ++ numbered "s" 0 12 ++ numbered "fs" 0 12.
Definition riscv : list rule :=
  [rl "addi ?r, ?r, ?n" (fun R N => [Add (R 0) (R 1) (N 0)]);
   rl "andi ?r, ?r, ?n" (fun R N => [And (R 0) (R 1) (N 0)]);
   rl "mv ?r, ?r" (fun R N => [Mov (R 0) (R 1)]);
   rl "li ?r, ?n" (fun R N => [Li (R 0) (N 0)]);
   rl "lla ?r, ?x" (fun R N => [La (R 0) (R 1)]);
   rl "sd ?r, ?n(?r)" (fun R N => [Sto 8 (R 0) (R 1) (N 0)]);
   rl "fsd ?r, ?n(?r)" (fun R N => [Sto 8 (R 0) (R 1) (N 0)]);
   rl "ld ?r, ?n(?r)" (fun R N => [Ld 8 (R 0) (R 1) (N 0)]);
   rl "fld ?r, ?n(?r)" (fun R N => [Ld 8 (R 0) (R 1) (N 0)]);
   rl "jr ?r" (fun R N => [Go (R 0)]);
   rl "ret" (fun R N => [Go "ra"]);
   rl "tail _exit@plt" (fun R N => [Exit "a0"])]%nat ++ risc_ign.
Definition sx_riscv := {| sx_comment := ["#"; "//"]; sx_regs := regs_riscv; sx_alias := []; sx_rules := riscv |}.

(** ** LoongArch *)

Definition regs_loong : list string :=
  ["sp"; "ra"; "fp"] ++ numbered "a" 0 8 ++ numbered "s" 0 9 ++ numbered "fs" 0 8.
Definition loong : list rule :=
  [rl "addi.d $?r, $?r, ?n" (fun R N => [Add (R 0) (R 1) (N 0)]);
   (* bstrins.d d, zero, m, 0: clear the bits 0 to m of d *)
   rl "bstrins.d $?r, $zero, ?n, 0" (fun R N => [And (R 0) (R 0) (- 2 ^ (N 0 + 1))]);
   rl "move $?r, $?r" (fun R N => [Mov (R 0) (R 1)]);
   rl "li.d $?r, ?n" (fun R N => [Li (R 0) (N 0)]);
   rl "la.local $?r, ?x" (fun R N => [La (R 0) (R 1)]);
   rl "st.d $?r, $?r, ?n" (fun R N => [Sto 8 (R 0) (R 1) (N 0)]);
   rl "fst.d $?r, $?r, ?n" (fun R N => [Sto 8 (R 0) (R 1) (N 0)]);
   rl "ld.d $?r, $?r, ?n" (fun R N => [Ld 8 (R 0) (R 1) (N 0)]);
   rl "fld.d $?r, $?r, ?n" (fun R N => [Ld 8 (R 0) (R 1) (N 0)]);
   rl "jr $?r" (fun R N => [Go (R 0)]);
   rl "b %plt(_exit)" (fun R N => [Exit "a0"])]%nat ++ risc_ign.
Definition sx_loong := {| sx_comment := ["#"]; sx_regs := regs_loong; sx_alias := []; sx_rules := loong |}.

(** ** MIPS *)

Definition regs_mips : list string :=
  ["sp"; "ra"; "fp"; "gp"; "v0"; "v1"] ++ numbered "a" 0 4 ++ numbered "s" 0 8 ++ numbered "t" 0 10 ++ numbered "f" 0 32.
(** a constant of w bytes, as a signed number *)
Definition sgn (w z : Z) : Z := if 2 ^ (8 * w - 1) <=? z then z - 2 ^ (8 * w) else z.

(** position-independent code: .cpload sets gp to the address _gp, from t9, which
    holds the address of the function; la and dla load addresses from a table
    that they find through gp.  The function that finish jumps to is _exit. *)
Definition mips_common (w : Z) (la : string) : list rule :=
  [rl ".set noreorder; .cpload $t9; .set reorder" (fun R N => [La "gp" "_gp"]);
   rl "li $?r, ?n; and $?r, $?r, $?r"
     (fun R N => same (R 0) (R 2) [Li (R 0) (sgn w (N 0)); And (R 1) (R 3) (sgn w (N 0))]);
   rl "move $?r, $zero" (fun R N => [Li (R 0) 0]);
   rl "move $?r, $?r" (fun R N => [Mov (R 0) (R 1)]);
   rl (append la " $t9, _exit; move $a0, $zero; jr $t9")
     (fun R N => [Need "gp" "_gp"; La "t9" "_exit"; Li "a0" 0; Exit "a0"]);
   rl (append la " $?r, ?x") (fun R N => [Need "gp" "_gp"; La (R 0) (R 1)]);
   rl "s.d $?r, ?o($?r)" (fun R N => [Sto 8 (R 0) (R 1) (N 0)]);
   rl "l.d $?r, ?o($?r)" (fun R N => [Ld 8 (R 0) (R 1) (N 0)]);
   rl "jr $?r" (fun R N => [Go (R 0)])]%nat ++ risc_ign.
Definition mips32 : list rule :=
  [rl "addiu $?r, $?r, ?n" (fun R N => [Add (R 0) (R 1) (N 0)]);
   rl "sw $?r, ?o($?r)" (fun R N => [Sto 4 (R 0) (R 1) (N 0)]);
   rl "lw $?r, ?o($?r)" (fun R N => [Ld 4 (R 0) (R 1) (N 0)])]%nat ++ mips_common 4 "la".
Definition mips64 : list rule :=
  [rl "daddiu $?r, $?r, ?n" (fun R N => [Add (R 0) (R 1) (N 0)]);
   rl "sd $?r, ?o($?r)" (fun R N => [Sto 8 (R 0) (R 1) (N 0)]);
   rl "ld $?r, ?o($?r)" (fun R N => [Ld 8 (R 0) (R 1) (N 0)])]%nat ++ mips_common 8 "dla".
Definition sx_mips32 := {| sx_comment := ["#"]; sx_regs := regs_mips; sx_alias := []; sx_rules := mips32 |}.
Definition sx_mips64 := {| sx_comment := ["#"]; sx_regs := regs_mips; sx_alias := []; sx_rules := mips64 |}.

(** ** s390x *)

Definition regs_s390x : list string := numbered "r" 0 16 ++ numbered "f" 0 16.
Definition r_to (a b : string) : list string := from_to (numbered "r" 0 16) false a b.
Definition s390x : list rule :=
  [rl "aghi %?r, ?n" (fun R N => [Add (R 0) (R 0) (N 0)]);
   (* nill: and with the lowest 16 bits *)
   rl "nill %?r, ?n" (fun R N => [And (R 0) (R 0) (N 0 - 0x10000)]);
   rl "lgr %?r, %?r" (fun R N => [Mov (R 0) (R 1)]);
   rl "lghi %?r, ?n" (fun R N => [Li (R 0) (N 0)]);
   rl "larl %?r, ?x" (fun R N => [La (R 0) (R 1)]);
   rl "stg %?r, ?n(%?r)" (fun R N => [Sto 8 (R 0) (R 1) (N 0)]);
   rl "lg %?r, ?n(%?r)" (fun R N => [Ld 8 (R 0) (R 1) (N 0)]);
   rl "stmg %?r, %?r, ?n(%?r)" (fun R N => sto_seq 8 (R 2) (N 0) (r_to (R 0) (R 1)));
   rl "lmg %?r, %?r, ?n(%?r)" (fun R N => ld_seq 8 (R 2) (N 0) (r_to (R 0) (R 1)));
   rl "std %?r, ?n(%?r)" (fun R N => [Sto 8 (R 0) (R 1) (N 0)]);
   rl "ld %?r, ?n(%?r)" (fun R N => [Ld 8 (R 0) (R 1) (N 0)]);
   rl "stfpc ?n(%?r)" (fun R N => [Sto 4 "fpc" (R 0) (N 0)]);
   rl "lfpc ?n(%?r)" (fun R N => [Ld 4 "fpc" (R 0) (N 0)]);
   rl "mvghi ?n(%?r), ?n" (fun R N => [Li "zero" (N 1); Sto 8 "zero" (R 0) (N 0)]);
   (* load and test; two additions that are skipped unless the word was 0 *)
   rl "ltg %?r, ?n(%?r); jnz use_return_slot; la %?r, ?n(%?r); aghi %?r, ?n; use_return_slot:"
     (fun R N => [Ld 8 (R 0) (R 1) (N 0); Mov "cc" (R 0);
                  Addz "cc" (R 2) (R 3) (N 1); Addz "cc" (R 4) (R 4) (N 2)]);
   rl "br %?r" (fun R N => [Go (R 0)]);
   rl "brasl %r14, _exit@PLT" (fun R N => [Exit "r2"])]%nat ++ risc_ign.
Definition sx_s390x := {| sx_comment := ["#"]; sx_regs := regs_s390x; sx_alias := []; sx_rules := s390x |}.

(** ** SPARC V9 *)

(** Between [save] and [restore] the register names are those of the new window:
    %i0-%i7 are the caller's %o0-%o7, %fp is the caller's %sp.  What follows a
    [restore], and the trampoline, which is not entered through [save], have
    rules with literal registers: they come first.  See AsmCode2.v for [flushw]
    and the [restore] after it, and for the addresses in %o7. *)
Definition sparc_alias : list (string * string) :=
  [("i0", "o0"); ("i1", "o1"); ("i2", "o2"); ("i7", "o7"); ("fp", "sp");
   ("sp", "nsp"); ("o0", "no0"); ("l0", "nl0")].
Definition sparc64 : list rule :=
  [(pattern "trampoline:; ldx [%sp + ?n], %l0; jmpl %l0, %o7; nop",
      fun R N => [Lab "trampoline"; I (Ld 8 "l0" "sp" (N 0)); I (La "o7" "finish"); I (Go "l0"); Lab "finish"]);
   rl "call _exit; clr %o0; unimp" (fun R N => [Li "o0" 0; Exit "o0"]);
   (* the instruction after a jump is executed before it *)
   rl "ret; restore %o0, %g0, %o0" (fun R N => AsmCode.loads 8 "sp" sparc_win ++ [Mov "o0" "no0"; Go "o7"]);
   rl "restore %o0, %g0, %o0; jmpl %o2, %g0; nop" (fun R N => AsmCode.loads 8 "sp" sparc_win ++ [Mov "o0" "no0"; Go "o2"]);
   rl "ret; restore %i0, ?n, %o0" (fun R N => [Add "o0" "o0" (N 0); Go "o7"]);
   rl "flushw" (fun R N => AsmCode.saves 8 "sp" sparc_win);
   rl "save %sp, ?n, %sp" (fun R N => [Add "nsp" "sp" (N 0)]);
   rl "1:; rd %pc, %?r; add %?r, (?x - 1b - 8), %?r" (fun R N => same (R 0) (R 1) (same (R 1) (R 3) [La (R 0) (R 2)]));
   rl "and %?r, ?n, %?r" (fun R N => [And (R 1) (R 0) (N 0)]);
   rl "sub %?r, ?n, %?r" (fun R N => [Add (R 1) (R 0) (- N 0)]);
   rl "add %?r, ?n, %?r" (fun R N => [Add (R 1) (R 0) (N 0)]);
   rl "mov %?r, %?r" (fun R N => [Mov (R 1) (R 0)]);
   rl "stx %g0, [%?r + ?n]" (fun R N => [Li "g0" 0; Sto 8 "g0" (R 0) (N 0)]);
   rl "stx %?r, [%?r + ?n]" (fun R N => [Sto 8 (R 0) (R 1) (N 0)]);
   rl "ldx [%?r + ?n], %?r" (fun R N => [Ld 8 (R 1) (R 0) (N 0)])]%nat ++ risc_ign.
Definition sx_sparc64 := {| sx_comment := ["#"]; sx_regs := []; sx_alias := sparc_alias; sx_rules := sparc64 |}.
