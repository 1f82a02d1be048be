(** * ARM and AArch64: what the lines of the listings stand for

    GNU assembler and armasm.  Conventions as in AsmCode.v and AsmCode2.v; the
    words of the thread information block (tibXX) and the SjLj handler (sjlj) are
    registers. *)
From Coq Require Import ZArith List String Ascii.
From Verif Require Import AsmMachine AsmLex AsmRead.
Import ListNotations.
Open Scope string_scope.
Open Scope Z_scope.
Open Scope list_scope.

Definition numbered (p : string) (a n : nat) : list string :=
  map (fun i => append p (dec (Z.of_nat i))) (seq a n).

(** v1-v8 in a register list: the registers in between *)
Fixpoint from_to (l : list string) (on : bool) (a b : string) : list string :=
  match l with
  | [] => []
  | r :: l' => let on' := if on then true else String.eqb r a in
               if on' then r :: (if String.eqb r b then [] else from_to l' true a b) else from_to l' false a b
  end.
(** stores and loads at consecutive addresses, [n] bytes each *)
Fixpoint sto_seq (n : Z) (b : string) (o : Z) (l : list string) : list instr :=
  match l with [] => [] | r :: l' => Sto n r b o :: sto_seq n b (o + n) l' end.
Fixpoint ld_seq (n : Z) (b : string) (o : Z) (l : list string) : list instr :=
  match l with [] => [] | r :: l' => Ld n r b o :: ld_seq n b (o + n) l' end.

Definition arm_ign : list rule :=
  map (fun d => ign (append d " ?z"))
    [".file"; ".text"; ".globl"; ".global"; ".hidden"; ".type"; ".align"; ".balign"; ".p2align"; ".size"; ".section"; ".def";
     ".seh_proc"; ".seh_endprologue"; ".seh_endproc"; ".ascii"; ".private_extern"; ".syntax";
     "AREA"; "ALIGN"; "EXPORT"; "IMPORT"; "ENDP"; "END"] ++
  [lb "?x PROC ?z" (fun R => R 0%nat); lb "?x proc ?z" (fun R => R 0%nat);
   lb "trampoline" (fun _ => "trampoline"); lb "finish" (fun _ => "finish")].

(** ** AArch64 *)

Definition regs_a64 : list string := numbered "x" 0 31 ++ numbered "d" 0 32 ++ ["sp"].

Definition a64_common : list rule :=
  [rl "mov ?r, ?r" (fun R N => [Mov (R 0) (R 1)]);
   rl "mov ?r, #?n" (fun R N => [Li (R 0) (N 0)]);
   rl "add ?r, ?r, #?n" (fun R N => [Add (R 0) (R 1) (N 0)]);
   rl "sub ?r, ?r, #?n" (fun R N => [Add (R 0) (R 1) (- N 0)]);
   rl "sub ?r, ?r, ?r" (fun R N => [Sub (R 0) (R 1) (R 2)]);
   rl "and ?r, ?r, ?n" (fun R N => [And (R 0) (R 1) (N 0)]);
   rl "adr ?r, ?x" (fun R N => [La (R 0) (R 1)]);
   rl "stp ?r, ?r, [?r, #?n]!" (fun R N => [Add (R 2) (R 2) (N 0); Sto 8 (R 0) (R 2) 0; Sto 8 (R 1) (R 2) 8]);
   rl "stp ?r, ?r, [?r, #?n]" (fun R N => [Sto 8 (R 0) (R 2) (N 0); Sto 8 (R 1) (R 2) (N 0 + 8)]);
   rl "ldp ?r, ?r, [?r, #?n]" (fun R N => [Ld 8 (R 0) (R 2) (N 0); Ld 8 (R 1) (R 2) (N 0 + 8)]);
   rl "str xzr, [?r, #?n]" (fun R N => [Li "xzr" 0; Sto 8 "xzr" (R 0) (N 0)]);
   rl "str ?r, [?r, #?n]" (fun R N => [Sto 8 (R 0) (R 1) (N 0)]);
   rl "ldr ?r, [?r, #?n]" (fun R N => [Ld 8 (R 0) (R 1) (N 0)]);
   rl "ret ?r" (fun R N => [Go (R 0)]);
   rl "bl _exit" (fun R N => [Exit "x0"]);
   rl "bl __exit" (fun R N => [Exit "x0"]);
   (* blr leaves the address of the next instruction in x30; that is finish *)
   (pattern "blr ?r; finish:", fun R N => [I (La "x30" "finish"); I (Go (R 0)); Lab "finish"]);
   (pattern "blr ?r; finish", fun R N => [I (La "x30" "finish"); I (Go (R 0)); Lab "finish"])]%nat ++ arm_ign.

(** Windows: x18 points to the thread information block *)
Definition a64_pe : list rule :=
  [rl "ldp ?r, ?r, [x18, #?n]" (fun R N => [Mov (R 0) (tib (N 0)); Mov (R 1) (tib (N 0 + 8))]);
   rl "stp ?r, ?r, [x18, #?n]" (fun R N => [Mov (tib (N 0)) (R 0); Mov (tib (N 0 + 8)) (R 1)]);
   rl "ldr ?r, [x18, #?n]" (fun R N => [Mov (R 0) (tib (N 0))]);
   rl "str ?r, [x18, #?n]" (fun R N => [Mov (tib (N 0)) (R 0)])]%nat ++ a64_common.

Definition a64_alias : list (string * string) := [("lr", "x30"); ("fp", "x29")].
(** [#] starts immediate operands; comments are // (ELF) or ; (Mach-O, armasm) *)
Definition sx_a64_elf := {| sx_comment := ["//"; "# "]; sx_regs := regs_a64; sx_alias := a64_alias; sx_rules := a64_common |}.
Definition sx_a64_macho := {| sx_comment := [";"]; sx_regs := regs_a64; sx_alias := a64_alias; sx_rules := a64_common |}.
Definition sx_a64_clang := {| sx_comment := ["//"]; sx_regs := regs_a64; sx_alias := a64_alias; sx_rules := a64_pe |}.
Definition sx_a64_armasm := {| sx_comment := [";"]; sx_regs := regs_a64; sx_alias := a64_alias; sx_rules := a64_pe |}.

(** ** ARM *)

Definition regs_arm : list string :=
  ["a1"; "a2"; "a3"; "a4"; "a5"] ++ numbered "v" 1 8 ++ ["sp"; "lr"; "pc"] ++ numbered "d" 0 16.
Definition arm_list (a b c d : string) : list string := a :: from_to (numbered "v" 1 8) false b c ++ [d].

Definition arm_common : list rule :=
  [rl "mov ?r, ?r" (fun R N => [Mov (R 0) (R 1)]);
   rl "mov ?r, #?n" (fun R N => [Li (R 0) (N 0)]);
   rl "add ?r, ?r, #?n" (fun R N => [Add (R 0) (R 1) (N 0)]);
   rl "sub ?r, ?r, #?n" (fun R N => [Add (R 0) (R 1) (- N 0)]);
   rl "sub ?r, ?r, ?r" (fun R N => [Sub (R 0) (R 1) (R 2)]);
   rl "bic ?r, ?r, #?n" (fun R N => [And (R 0) (R 1) (Z.lnot (N 0))]);
   rl "adr ?r, ?x" (fun R N => [La (R 0) (R 1)]);
   rl "str ?r, [?r, #?n]" (fun R N => [Sto 4 (R 0) (R 1) (N 0)]);
   rl "ldr ?r, [?r, #?n]" (fun R N => [Ld 4 (R 0) (R 1) (N 0)]);
   rl "push {?r,?r-?r,?r}" (fun R N => let l := arm_list (R 0) (R 1) (R 2) (R 3) in
                                       Add "sp" "sp" (-4 * Z.of_nat (List.length l)) :: sto_seq 4 "sp" 0 l);
   rl "pop {?r,?r-?r,?r}" (fun R N => let l := arm_list (R 0) (R 1) (R 2) (R 3) in
                                      ld_seq 4 "sp" 0 l ++ [Add "sp" "sp" (4 * Z.of_nat (List.length l))]);
   rl "push {?r}" (fun R N => [Add "sp" "sp" (-4); Sto 4 (R 0) "sp" 0]);
   rl "pop {pc}" (fun R N => [Ld 4 "pc" "sp" 0; Add "sp" "sp" 4; Go "pc"]);
   rl "pop {?r}" (fun R N => [Ld 4 (R 0) "sp" 0; Add "sp" "sp" 4]);
   rl "vstmia ?r, {?r-?r}" (fun R N => sto_seq 8 (R 0) 0 (from_to (numbered "d" 0 16) false (R 1) (R 2)));
   rl "vldmia ?r, {?r-?r}" (fun R N => ld_seq 8 (R 0) 0 (from_to (numbered "d" 0 16) false (R 1) (R 2)));
   rl "bx ?r" (fun R N => [Go (R 0)]);
   rl "bl _exit" (fun R N => [Exit "a1"]);
   rl "bl __exit" (fun R N => [Exit "a1"])]%nat ++ arm_ign.

(** Mach-O: coprocessor register c13/c0/3 with its lowest two bits cleared is the
    address of thread-local storage; word 72 is the SjLj handler *)
Definition arm_macho : list rule :=
  [rl "mrc p15, 0, ?r, c13, c0, #3; bic ?r, ?r, #3" (fun R N => same (R 0) (R 1) (same (R 0) (R 2) [La (R 0) "TLS"]));
   rl "ldr ?r, [v2, #72]" (fun R N => [Need "v2" "TLS"; Mov (R 0) "sjlj"]);
   rl "str ?r, [v2, #72]" (fun R N => [Need "v2" "TLS"; Mov "sjlj" (R 0)])]%nat ++ arm_common.
(** Windows: coprocessor register c13/c0/2 is the address of the thread information block *)
Definition arm_pe : list rule :=
  [rl "mrc p15, #0, ?r, c13, c0, #2" (fun R N => [La (R 0) "TIB"]);
   rl "ldr ?r, [v1, #?n]" (fun R N => [Need "v1" "TIB"; Mov (R 0) (tib (N 0))]);
   rl "str ?r, [v1, #?n]" (fun R N => [Need "v1" "TIB"; Mov (tib (N 0)) (R 0)])]%nat ++ arm_common.

Definition sx_arm := {| sx_comment := ["@"]; sx_regs := regs_arm; sx_alias := []; sx_rules := arm_common |}.
Definition sx_arm_macho := {| sx_comment := ["@"]; sx_regs := regs_arm; sx_alias := []; sx_rules := arm_macho |}.
Definition sx_arm_pe := {| sx_comment := [";"]; sx_regs := regs_arm; sx_alias := []; sx_rules := arm_pe |}.
