(** * Shadow stacks (x86_64 control-flow enforcement) under context switches

    With __CET__ and SHADOW_STACK_SYSCALL every context has a shadow stack: memory that only call, ret
    and a few special instructions access, and that holds a second copy of the return addresses.  A
    return whose address differs from the copy is a control-protection fault; so is a switch to a
    shadow stack that has no valid restore token.

    The model: the shadow-stack instructions of the processor (Intel SDM, CET), and the instruction
    sequences under BOOST_CONTEXT_SHADOW_STACK in
      src/asm/jump_x86_64_sysv_elf_gas.S    L71-77, L85-101,
      src/asm/ontop_x86_64_sysv_elf_gas.S   L70-76, L84-94,
      src/asm/make_x86_64_sysv_elf_gas.S    L53-56, L95-131, L135-149,
    and the creation and removal of the shadow stack in fiber_fcontext.hpp L186-203, L76-81.
    User code is an adversary: a label says what the user code of a thread does next.

    Simplifications: of the ordinary stack of a context only the return addresses are kept, innermost
    first, and the 8 bytes of the context-data that hold the shadow stack pointer.  Numbers are
    unbounded.  Addresses are in units of bytes; only aligned 8-byte accesses exist ([Odd] is
    the outcome of any other, and is proved unreachable).  Signals and indirect-branch tracking
    (endbr) are not modelled. *)
From Coq Require Import List Arith ZArith Bool Lia.
From Verif Require Import ListUtil.
Import ListNotations.
Open Scope Z_scope.

Record ctx := mk_c {
  k_ret : list Z;        (* return addresses on the context's stack, innermost first *)
  k_slot : Z;            (* word 0 of the context-data: the saved shadow stack pointer *)
  k_lo : Z; k_hi : Z;    (* its shadow stack *)
  k_run : bool;          (* some thread runs it *)
  k_fresh : bool;        (* made, and not yet entered *)
  k_main : bool;         (* the context a thread was started with *)
  k_alive : bool }.      (* its stacks have not been unmapped *)

(** the labels of make_x86_64_sysv_elf_gas.S: trampoline L135, the "jmp trampoline" of L107, the
    "jmp *%rbp" of L143 *)
Record lbl := mk_lbl { l_tramp : Z; l_jmp_tramp : Z; l_jmp_rbp : Z }.

Record state := mk_s {
  s_mem : Z -> Z;                 (* shadow stack memory *)
  s_ctx : list ctx;
  s_thr : list (nat * Z) }.       (* of each thread: the running context, the shadow stack pointer *)

Inductive outcome (A : Type) :=
| Next (a : A)
| Fault      (* #CP or #GP of one of the instructions call, ret, rstorssp, saveprevssp *)
| Full       (* access outside every shadow stack: #PF *)
| Odd        (* not modelled: an access that is not aligned *)
| Invalid.   (* the label is not applicable *)
Arguments Next {A}. Arguments Fault {A}. Arguments Full {A}. Arguments Odd {A}. Arguments Invalid {A}.

Definition bind {A B} (x : outcome A) (f : A -> outcome B) : outcome B :=
  match x with Next a => f a | Fault => Fault | Full => Full | Odd => Odd | Invalid => Invalid end.
Notation "'do' x <- e ; f" := (bind e (fun x => f)) (at level 60, x name, e at level 59, f at level 60, right associativity).

(* ------------------------------------------------------------------ memory *)

Definition in_ss (c : ctx) (a : Z) : bool := k_alive c && (k_lo c <=? a) && (a + 8 <=? k_hi c).
Definition mapped (l : list ctx) (a : Z) : bool := existsb (fun c => in_ss c a) l.

Definition load (m : Z -> Z) (l : list ctx) (a : Z) : outcome Z :=
  if a mod 8 =? 0 then if mapped l a then Next (m a) else Full else Odd.
Definition wr (m : Z -> Z) (a v : Z) : Z -> Z := fun x => if x =? a then v else m x.
Definition store (m : Z -> Z) (l : list ctx) (a v : Z) : outcome (Z -> Z) :=
  if a mod 8 =? 0 then if mapped l a then Next (wr m a v) else Full else Odd.

(* ------------------------------------------------------------------ instructions *)
(** each takes the memory and the shadow stack pointer and returns the new ones *)

(** CALL: push the return address *)
Definition i_call (m : Z -> Z) (l : list ctx) (ssp ra : Z) : outcome ((Z -> Z) * Z) :=
  do m' <- store m l (ssp - 8) ra; Next (m', ssp - 8).

(** RET to the address ra found on the ordinary stack: compare and pop *)
Definition i_ret (m : Z -> Z) (l : list ctx) (ssp ra : Z) : outcome Z :=
  do v <- load m l ssp; if v =? ra then Next (ssp + 8) else Fault.

(** RSTORSSP a: the word at a must be a restore token for a + 8 (bit 0: 64-bit mode, bit 1: 0); it is
    replaced by a previous-ssp token (bit 1: 1).  Bit 2 of the token goes to CF: [Odd] if it is set. *)
Definition i_rstorssp (m : Z -> Z) (l : list ctx) (ssp a : Z) : outcome ((Z -> Z) * Z) :=
  do tok <- load m l a;
  if (tok mod 4 =? 1) && (((tok - 1) - 8) / 8 * 8 =? a) then
    if tok / 4 mod 2 =? 0 then do m' <- store m l a (ssp + 3); Next (m', a) else Odd
  else Fault.

(** SAVEPREVSSP: pop the previous-ssp token; push a restore token on the shadow stack it names *)
Definition i_saveprevssp (m : Z -> Z) (l : list ctx) (ssp : Z) : outcome ((Z -> Z) * Z) :=
  do tok <- load m l ssp;
  if tok / 2 mod 2 =? 0 then Fault
  else let old := tok - tok mod 4 in
       do m' <- store m l (old - 8) (old + 1); Next (m', ssp + 8).

(** INCSSPQ n, n > 0: pop n words; the first and the last are read *)
Definition i_incssp (m : Z -> Z) (l : list ctx) (ssp n : Z) : outcome Z :=
  do v <- load m l ssp; do w <- load m l (ssp + 8 * (n - 1)); Next (ssp + 8 * n).

(* ------------------------------------------------------------------ the assembler functions *)

(** From the read of the shadow stack pointer on: the context's own pointer goes to its context-data
    (the result), then to the target's.  jump L71-101; slot: the word 0 of the target's context-data.
    Returns memory, new shadow stack pointer, word stored in the own context-data. *)
Definition jump_ss (m : Z -> Z) (l : list ctx) (ssp slot : Z) : outcome ((Z -> Z) * Z * Z) :=
  let rcx := ssp in                                     (* L75-76 rdsspq %rcx; movq %rcx, (%rsp) *)
  let own := rcx in
  let rcx := slot in                                    (* L87 movq (%rsp), %rcx *)
  do x <- i_rstorssp m l ssp (rcx - 8);                 (* L91 *)
  do y <- i_saveprevssp (fst x) l (snd x);              (* L94 *)
  do p <- i_incssp (fst y) l (snd y) 1;                 (* L99-100 *)
  Next (fst y, p, own).

(** ontop L70-94: the same without incsspq *)
Definition ontop_ss (m : Z -> Z) (l : list ctx) (ssp slot : Z) : outcome ((Z -> Z) * Z * Z) :=
  let rcx := ssp in
  let own := rcx in
  let rcx := slot in
  do x <- i_rstorssp m l ssp (rcx - 8);
  do y <- i_saveprevssp (fst x) l (snd x);
  Next (fst y, snd y, own).

(** make L53-56, L95-131; r9: the word below the given top of the stack.  Returns memory, shadow
    stack pointer and the word stored in the context-data. *)
Definition make_ss (lb : lbl) (m : Z -> Z) (l : list ctx) (ssp r9 : Z) : outcome ((Z -> Z) * Z * Z) :=
  let r8 := ssp in                                      (* L99 rdsspq %r8 *)
  do x <- i_rstorssp m l ssp (r9 - 8);                  (* L101 *)
  do y <- i_saveprevssp (fst x) l (snd x);              (* L103 *)
  do z <- i_call (fst y) l (snd y) (l_jmp_tramp lb);    (* L106 call 1f; L111 pop takes it off the other stack *)
  let r9 := snd z in                                    (* L113 rdsspq %r9 *)
  do u <- i_rstorssp (fst z) l (snd z) (r8 - 8);        (* L115 *)
  do v <- i_saveprevssp (fst u) l (snd u);              (* L117 *)
  Next (fst v, snd v, r9).                              (* L128-130 *)

(* ------------------------------------------------------------------ threads *)

Inductive op :=
| Call (ra : Z)                      (* call with return address ra *)
| Ret                                (* return *)
| Unwind (n : nat)                   (* an exception removes n > 0 frames; the unwinder executes incsspq n *)
| Create (base size ra : Z)          (* map_shadow_stack returns base; make_fcontext is called with return address ra *)
| Jump (d : nat) (ra : Z)            (* call jump_fcontext( d) *)
| Ontop (d : nat) (ra : Z)           (* call ontop_fcontext( d) *)
| Free (d : nat).                    (* the stacks of d are unmapped *)

Definition set_run (c : ctx) (r : list Z) (b : bool) : ctx :=
  mk_c r (k_slot c) (k_lo c) (k_hi c) b false (k_main c) (k_alive c).
Definition set_ret (c : ctx) (r : list Z) : ctx :=
  mk_c r (k_slot c) (k_lo c) (k_hi c) (k_run c) (k_fresh c) (k_main c) (k_alive c).
Definition set_susp (c : ctx) (r : list Z) (slot : Z) : ctx :=
  mk_c r slot (k_lo c) (k_hi c) false false (k_main c) (k_alive c).
Definition set_dead (c : ctx) : ctx :=
  mk_c (k_ret c) (k_slot c) (k_lo c) (k_hi c) (k_run c) (k_fresh c) (k_main c) false.

(** Thread t leaves context c, whose code called jump/ontop with return address ra, for context y = d. *)
Definition leave (l : list ctx) (c d : nat) (x y : ctx) (ra own : Z) (r : list Z) : list ctx :=
  upd (upd l c (set_susp x (ra :: k_ret x) own)) d (set_run y r true).

Definition overlaps (c : ctx) (lo hi : Z) : bool := k_alive c && (k_lo c <? hi) && (lo <? k_hi c).

Definition step (lb : lbl) (s : state) (t : nat) (o : op) : outcome state :=
  let m := s_mem s in let l := s_ctx s in
  match nth_error (s_thr s) t with
  | None => Invalid
  | Some (c, ssp) =>
      match nth_error l c with
      | None => Invalid
      | Some x =>
          match o with
          | Call ra =>
              do p <- i_call m l ssp ra;
              Next (mk_s (fst p) (upd l c (set_ret x (ra :: k_ret x))) (upd (s_thr s) t (c, snd p)))
          | Ret =>
              match k_ret x with
              | [] => Invalid
              | ra :: rest =>
                  do p <- i_ret m l ssp ra;
                  match rest, k_main x with
                  | [], false =>
                      (* the context-function returns to "jmp *%rbp" L143; rbp is the address of
                         "jmp trampoline" L107 (see C40_x64_cet_refuted): L142 call 2f again *)
                      do q <- i_call m l p (l_jmp_rbp lb);
                      Next (mk_s (fst q) (upd l c (set_ret x [l_jmp_rbp lb])) (upd (s_thr s) t (c, snd q)))
                  | _, _ => Next (mk_s m (upd l c (set_ret x rest)) (upd (s_thr s) t (c, p)))
                  end
              end
          | Unwind n =>
              if (0 <? Z.of_nat n) && (Nat.ltb n (length (k_ret x))) then
                do p <- i_incssp m l ssp (Z.of_nat n);
                Next (mk_s m (upd l c (set_ret x (skipn n (k_ret x)))) (upd (s_thr s) t (c, p)))
              else Invalid
          | Create base size ra =>
              (* the system: page aligned, unused addresses, a page of distance to other shadow
                 stacks; with SHADOW_STACK_SET_TOKEN a restore token is at the end; fiber_fcontext.hpp L186-200 *)
              if (base mod 4096 =? 0) && (size mod 8 =? 0) && (16 <=? size)
                 && negb (existsb (fun y => overlaps y (base - 4096) (base + size + 4096)) l) then
                let ss_sp := base + size in                                     (* L195 *)
                let m := wr m (ss_sp - 8) (ss_sp + 1) in
                let y := mk_c [l_tramp lb] 0 base (base + size) false true false true in
                let l' := l ++ [y] in
                do p <- i_call m l' ssp ra;                                     (* call make_fcontext *)
                do q <- make_ss lb (fst p) l' (snd p) ss_sp;
                let '(m', ssp', slot) := q in
                do r <- i_ret m' l' ssp' ra;                                    (* ret, L133 *)
                Next (mk_s m' (l ++ [mk_c [l_tramp lb] slot base (base + size) false true false true])
                           (upd (s_thr s) t (c, r)))
              else Invalid
          | Jump d ra =>
              match nth_error l d with
              | None => Invalid
              | Some y =>
                  if k_alive y && negb (k_run y) then
                    do p <- i_call m l ssp ra;                                  (* call jump_fcontext *)
                    do q <- jump_ss (fst p) l (snd p) (k_slot y);
                    let '(m', ssp', own) := q in
                    if k_fresh y then
                      (* trampoline L142: call 2f *)
                      do r <- i_call m' l ssp' (l_jmp_rbp lb);
                      Next (mk_s (fst r) (leave l c d x y ra own [l_jmp_rbp lb]) (upd (s_thr s) t (d, snd r)))
                    else
                      (* jump L142 jmp *%r8: the return address is taken off the stack *)
                      Next (mk_s m' (leave l c d x y ra own (tl (k_ret y))) (upd (s_thr s) t (d, ssp')))
                  else Invalid
              end
          | Ontop d ra =>
              match nth_error l d with
              | None => Invalid
              | Some y =>
                  if k_alive y && negb (k_run y) then
                    do p <- i_call m l ssp ra;                                  (* call ontop_fcontext *)
                    do q <- ontop_ss (fst p) l (snd p) (k_slot y);
                    let '(m', ssp', own) := q in
                    (* ontop L130-135: the return address stays, jmp *%r8 to the function *)
                    Next (mk_s m' (leave l c d x y ra own (k_ret y)) (upd (s_thr s) t (d, ssp')))
                  else Invalid
              end
          | Free d =>
              (* fiber_exit, fiber_fcontext.hpp L76-81 *)
              match nth_error l d with
              | None => Invalid
              | Some y => if k_alive y && negb (k_run y) then Next (mk_s m (upd l d (set_dead y)) (s_thr s)) else Invalid
              end
          end
      end
  end.

(** threads in their first frame, on shadow stacks given by the system *)
Definition main_ctx (r : Z * Z) : ctx := mk_c [] 0 (fst r) (snd r) true false true true.
Definition init (m : Z -> Z) (regs : list (Z * Z)) : state :=
  mk_s m (map main_ctx regs) (combine (seq 0 (length regs)) (map snd regs)).

Fixpoint run (lb : lbl) (s : state) (l : list (nat * op)) : outcome state :=
  match l with
  | [] => Next s
  | (t, o) :: r => do s' <- step lb s t o; run lb s' r
  end.
