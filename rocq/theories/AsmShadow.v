(** * The shadow-stack instructions in the listings

    Cet.v has the instruction sequences for shadow stacks as functions of the
    shadow stack memory ([jump_ss], [ontop_ss], [make_ss]), written by hand.  This
    file reads them from the text of the listings: a line becomes an operation on
    registers, on the words of ordinary memory, or on the shadow stack, and
    [exec] executes the operations, those on the shadow stack with the
    instructions of Cet.v.

    Simplifications: ordinary memory is a map from addresses to values, i.e.
    overlapping accesses are not considered (C26-C30 do that for the same
    listings); numbers are unbounded. *)
From Coq Require Import ZArith List String Ascii Bool Lia.
From Verif Require Import ListUtil AsmLex AsmRead AsmIsaX86 AsmDir Cet.
Import ListNotations.
Open Scope string_scope.
Open Scope Z_scope.
Open Scope list_scope.

Inductive sop :=
| SMov (d s : string)              (* register to register *)
| SImm (d : string) (n : Z)
| SAdr (d l : string)              (* address of a label *)
| SLea (d b : string) (n : Z)
| SAnd (d : string) (n : Z)
| SShl (d : string) (n : Z)
| SOr (d s : string)
| SLd (d b : string) (n : Z)
| SSt (s b : string) (n : Z)
| SRdssp (d : string)
| SRstor (b : string) (n : Z)
| SSave
| SInc (r : string)
| SCall (l : string)               (* call over one instruction, which is at address l *)
| SPush (s : string)
| SPop (b : string) (n : Z)        (* to memory *)
| SRet
| SJmp (s : string)
| SExit
| SLab (l : string).

(** what the lines stand for; as in AsmIsaX86.v *)
Definition srule := (list tok * ((nat -> string) -> (nat -> Z) -> list sop))%type.
Definition sr (s : string) (f : (nat -> string) -> (nat -> Z) -> list sop) : srule := (pattern s, f).

Definition ss_rules : list srule :=
  ([sr "rdsspq %?r" (fun R N => [SRdssp (R 0)]);
    sr "rstorssp ?o(%?r)" (fun R N => [SRstor (R 0) (N 0)]);
    sr "saveprevssp" (fun R N => [SSave]);
    sr "incsspq %?r" (fun R N => [SInc (R 0)]);
    sr "call 1f; jmp trampoline; 1:" (fun R N => [SCall "jmp trampoline"]);
    sr "call 2f; jmp *%rbp; 2:" (fun R N => [SCall "jmp *%rbp"]);
    sr "call _exit@PLT; hlt" (fun R N => [SExit]);
    sr "movq %?r, %?r" (fun R N => [SMov (R 1) (R 0)]);
    sr "movq $?n, %?r" (fun R N => [SImm (R 0) (N 0)]);
    sr "movq %fs:?n, %?r" (fun R N => [SMov (R 0) "fs"]);
    sr "movq %?r, %fs:?n" (fun R N => [SMov "fs" (R 0)]);
    sr "movq %?r, ?o(%?r)" (fun R N => [SSt (R 0) (R 1) (N 0)]);
    sr "movq ?o(%?r), %?r" (fun R N => [SLd (R 1) (R 0) (N 0)]);
    sr "leaq ?o(%?r), %?r" (fun R N => [SLea (R 1) (R 0) (N 0)]);
    sr "leaq ?x(%rip), %?r" (fun R N => [SAdr (R 1) (R 0)]);
    sr "andq $?n, %?r" (fun R N => [SAnd (R 0) (N 0)]);
    sr "orq %?r, %?r" (fun R N => [SOr (R 1) (R 0)]);
    sr "salq $?n, %?r" (fun R N => [SShl (R 0) (N 0)]);
    sr "xorq %rdi, %rdi" (fun R N => [SImm "rdi" 0]);
    sr "push %?r" (fun R N => [SPush (R 0)]);
    sr "pop ?o(%?r)" (fun R N => [SPop (R 0) (N 0)]);
    sr "stmxcsr ?o(%?r)" (fun R N => [SSt "mxcsr" (R 0) (N 0)]);
    sr "ldmxcsr ?o(%?r)" (fun R N => [SLd "mxcsr" (R 0) (N 0)]);
    sr "fnstcw ?o(%?r)" (fun R N => [SSt "x87cw" (R 0) (N 0)]);
    sr "fldcw ?o(%?r)" (fun R N => [SLd "x87cw" (R 0) (N 0)]);
    sr "jmp *%?r" (fun R N => [SJmp (R 0)]);
    sr "ret" (fun R N => [SRet]);
    sr "_CET_ENDBR" (fun R N => []);
    sr "trampoline:" (fun R N => [SLab "trampoline"]);
    sr "finish:" (fun R N => [SLab "finish"]);
    sr "jump_fcontext:" (fun R N => [SLab "jump_fcontext"]);
    sr "ontop_fcontext:" (fun R N => [SLab "ontop_fcontext"]);
    sr "make_fcontext:" (fun R N => [SLab "make_fcontext"])]
   ++ map (fun d => sr (append d " ?z") (fun _ _ => []))
        [".file"; ".text"; ".globl"; ".hidden"; ".type"; ".align"; ".size"; ".section"])%nat.

Fixpoint s_apply (rules : list srule) (ts : list tok) : option (list sop * list tok) :=
  match rules with
  | [] => None
  | (pat, f) :: rules' =>
      match matches (is_reg sx_att64) pat ts [] [] with
      | Some (rs, ns, r) => Some (f (fun i => nth i rs "") (fun i => nth i ns 0), r)
      | None => s_apply rules' ts
      end
  end.
(** None: some line is not described by a rule *)
Fixpoint s_decode (f : nat) (ts : list tok) : option (list sop) :=
  match f with
  | O => None
  | S f =>
      match ts with
      | [] => Some []
      | NL :: r => s_decode f r
      | _ => match s_apply ss_rules ts with
             | Some (l, r) => match s_decode f r with Some l' => Some (l ++ l') | None => None end
             | None => None
             end
      end
  end.

(** the operations of a file in a configuration *)
Definition sops_of (o : config) (n : string) : option (list sop) :=
  match lines_of 2 o n with
  | Some ls => match joined ls with Some ts => s_decode (S (List.length ts)) ts | None => None end
  | None => None
  end.

(** the operations after a label *)
Fixpoint s_from (n : string) (l : list sop) : option (list sop) :=
  match l with
  | [] => None
  | SLab m :: r => if String.eqb m n then Some r else s_from n r
  | _ :: r => s_from n r
  end.
Definition s_routine (o : config) (file label : string) : option (list sop) :=
  match sops_of o file with Some l => s_from label l | None => None end.

(** ** Execution *)

(** registers, words of ordinary memory, shadow stack memory, shadow stack pointer *)
Record sst := mk_sst { v_r : string -> Z; v_w : Z -> Z; v_m : Z -> Z; v_p : Z }.

Definition wrg (g : string -> Z) (d : string) (v : Z) : string -> Z := fun r => if String.eqb r d then v else g r.

(** [adr]: the addresses of labels and of the instructions after calls; [l]: the
    contexts, i.e. where shadow stacks are.  The end is a jump or a return (whose
    effect on the shadow stack is Cet.v's [i_ret], not part of these routines). *)
Fixpoint exec (adr : string -> Z) (l : list ctx) (ops : list sop) (s : sst) : outcome sst :=
  match ops with
  | [] => Odd
  | x :: r =>
      let g := v_r s in let w := v_w s in let m := v_m s in let p := v_p s in
      let reg d v := exec adr l r (mk_sst (wrg g d v) w m p) in
      match x with
      | SMov d a => reg d (g a)
      | SImm d n => reg d n
      | SAdr d a => reg d (adr a)
      | SLea d b n => reg d (g b + n)
      | SAnd d n => reg d (Z.land (g d) n)
      | SShl d n => reg d (Z.shiftl (g d) n)
      | SOr d a => reg d (Z.lor (g d) (g a))
      | SLd d b n => reg d (w (g b + n))
      | SSt a b n => exec adr l r (mk_sst g (wr w (g b + n) (g a)) m p)
      | SRdssp d => reg d p
      | SRstor b n => do y <- i_rstorssp m l p (g b + n); exec adr l r (mk_sst g w (fst y) (snd y))
      | SSave => do y <- i_saveprevssp m l p; exec adr l r (mk_sst g w (fst y) (snd y))
      | SInc a => do y <- i_incssp m l p (g a); exec adr l r (mk_sst g w m y)
      | SCall a => do y <- i_call m l p (adr a);
                   exec adr l r (mk_sst (wrg g "rsp" (g "rsp" - 8)) (wr w (g "rsp" - 8) (adr a)) (fst y) (snd y))
      | SPush a => exec adr l r (mk_sst (wrg g "rsp" (g "rsp" - 8)) (wr w (g "rsp" - 8) (g a)) m p)
      | SPop b n => exec adr l r (mk_sst (wrg g "rsp" (g "rsp" + 8)) (wr w (g b + n) (w (g "rsp"))) m p)
      | SRet => Next s
      | SJmp _ => Next s
      | SExit => Next s
      | SLab _ => exec adr l r s
      end
  end.
