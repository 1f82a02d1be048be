(** * The fiber machine on a weak memory

    In LinkStep.v every thread sees the stores of the others at once. Processors do not work like that:
    stores wait in buffers, reach other processors late and in another order, loads return old
    values. Here each byte has its own list of stores, in an order on which all threads agree
    (coherence), and each thread has, for each byte, the last store that it has seen; it never goes
    back. Nothing else is promised: a thread may see the stores of another thread to different bytes
    in any order, early or late, or never; two threads may see the stores to different bytes in
    different orders; a store may end up before stores of other threads that its thread has not
    seen. This admits all that TSO, PSO and the store propagation of Arm and Power admit;
    it does not admit a load that returns what a later store of the same thread causes (load
    buffering).

    Threads that hand over a fiber synchronize, and with that the receiver sees what was stored
    before: [latest] in w_make, w_first and w_call is what the synchronization gives.

    [wexec tr W] says that W is a state that this machine can have after the observable events tr. *)
From Coq Require Import ZArith List String Lia Bool.
From Verif Require Import Fiber FiberSpec.
From Verif Require Import Word AsmMachine AsmSym AsmAbi AsmCheck AsmFacts AsmHist AsmIl Link LinkStep.
Import ListNotations.
Open Scope list_scope.
Open Scope Z_scope.

(** m_mem and m_wr of [k_m] are not used *)
Record weak := Weak {
  k_m : mach;
  k_msg : Z -> nat -> option Z;   (* the stores to each byte: value and position in its order; gaps are allowed *)
  k_seen : nat -> Z -> nat;       (* the position of the last store to each byte that each thread has seen *)
  k_ph : nat -> phase             (* what each thread is doing (LinkStep.v) *)
}.

(** the value of byte a for thread t; its processor and what that makes of the memory *)
Definition view (W : weak) (t : nat) (a : Z) : Z := match k_msg W a (k_seen W t a) with Some x => x | None => 0 end.
Definition wcpu (W : weak) (t : nat) : mst := St (m_reg (k_m W) t) (view W t).
(** t has seen all stores to byte a *)
Definition latest (W : weak) (t : nat) (a : Z) : Prop := forall p, (k_seen W t a < p)%nat -> k_msg W a p = None.

Definition set_regs (M : mach) (t : nat) (r : string -> Z) : mach := put_cpu M t (St r (m_mem M)).

(** thread t gets the registers r and stores the bytes [val], each at position [pos] of its order *)
Definition put_stores (W : weak) (t : nat) (r : string -> Z) (val : Z -> option Z) (pos : Z -> nat) (p : phase) : weak :=
  Weak (set_regs (k_m W) t r)
       (fun a q => match val a with Some x => if Nat.eqb q (pos a) then Some x else k_msg W a q | None => k_msg W a q end)
       (fun t' a => match val a with Some _ => if Nat.eqb t' t then pos a else k_seen W t' a | None => k_seen W t' a end)
       (fun t' => if Nat.eqb t' t then p else k_ph W t').
Definition wset_ph (W : weak) (M : mach) (t : nat) (p : phase) : weak :=
  Weak M (k_msg W) (k_seen W) (fun t' => if Nat.eqb t' t then p else k_ph W t').
(** these positions are not in use and come after what t has seen *)
Definition places (W : weak) (t : nat) (val : Z -> option Z) (pos : Z -> nat) : Prop :=
  forall a x, val a = Some x -> (k_seen W t a < pos a)%nat /\ k_msg W a (pos a) = None.

Section Weak.
  Variable A : port.
  Variable L : string -> Z.
  Variable n : nat.
  Let B := p_abi A.
  Let C := p_code A.
  Let P := ab_cpu B.

  (** no other thread is about to start or continue context d *)
  Definition wunclaimed (W : weak) (t d : nat) : Prop := forall t', t' <> t -> goal (k_ph W t') <> Some d.

  Inductive wexec : list event -> weak -> Prop :=
  | w_start M :
      (forall t, wf P (cpu_at M t)) ->
      (forall c, (c < n)%nat -> 0 < m_lo M c <= m_hi M c /\ m_hi M c <= space P) ->
      (forall c d, (c < n)%nat -> (d < n)%nat -> c <> d -> sdisj (m_lo M c) (m_hi M c) (m_lo M d) (m_hi M d)) ->
      wexec [] (Weak M (fun a p => match p with O => Some (m_mem M a) | _ => None end) (fun _ _ => O) (fun _ => Free))
  (* threads see some more stores *)
  | w_see tr W seen : wexec tr W ->
      (forall t a, (k_seen W t a <= seen t a)%nat /\ k_msg W a (seen t a) <> None) ->
      wexec tr (Weak (k_m W) (k_msg W) seen (k_ph W))
  (* any code; it does not store to what suspended calls own and what threads rely on that are
     inside a routine or between make and jump *)
  | w_code tr W t r val pos : wexec tr W -> (t < n)%nat -> ~ inside (k_ph W t) ->
      (forall x, 0 <= r x < 256 ^ rw P x) -> (forall a x, val a = Some x -> 0 <= x < 256) ->
      (forall h a, suspended tr h -> owned A (k_m W) h a -> val a = None) ->
      (forall t' a, foot A (k_m W) (k_ph W t') a -> val a = None) ->
      places W t val pos ->
      wexec tr (put_stores W t r val pos (k_ph W t))
  | w_event tr W e : wexec tr W ->
      match e with EvSwitch _ _ _ _ _ | EvAlloc _ _ => False | _ => True end -> wexec (e :: tr) W
  | w_alloc tr W c a lo hi : wexec tr W -> 0 < lo <= hi -> hi <= space P ->
      (forall d, has_stack n tr d -> sdisj lo hi (m_lo (k_m W) d) (m_hi (k_m W) d)) ->
      wexec (EvAlloc c a :: tr) (Weak (put_stack (k_m W) c lo hi) (k_msg W) (k_seen W) (k_ph W))
  (* make_fcontext is called for the stack of d *)
  | w_make tr W t d : wexec tr W -> (t < n)%nat -> k_ph W t = Free ->
      let s := wcpu W t in let c := running tr t in
      untried tr d -> wunclaimed W t d -> make_ok A s ->
      m_lo (k_m W) c <= sp A s - c_mkscr C -> sp A s + ab_up B <= m_hi (k_m W) c ->
      m_lo (k_m W) d <= mk_top A s - c_need C -> mk_top A s <= m_hi (k_m W) d ->
      (forall a, foot_make A s a -> latest W t a) ->
      wexec tr (wset_ph W (k_m W) t (Inside (RMake d) (rcode A (RMake d)) (rtramp (RMake d)) s))
  (* jump_fcontext is called with the result of make_fcontext *)
  | w_first tr W t me to h c0 : wexec tr W -> (t < n)%nat -> k_ph W t = Between (fc_ctx to) h c0 ->
      let s := wcpu W t in let c := running tr t in
      call_ok A L s -> arg_to A s = h -> on_stack A s (m_lo (k_m W) c) (m_hi (k_m W) c) ->
      (forall a, own_foot A s a -> latest W t a) ->
      wexec tr (wset_ph W (k_m W) t (Inside (RFirst me to c0) (rcode A (RFirst me to c0)) (rtramp (RFirst me to c0)) s))
  (* jump_fcontext or ontop_fcontext is called with the fcontext_t of a suspended call *)
  | w_call tr W t me to k : wexec tr W -> (t < n)%nat -> k_ph W t = Free -> k <> SwCreate ->
      let s := wcpu W t in let c := running tr t in
      suspended tr to -> wunclaimed W t (fc_ctx to) -> (how_of k = Ontop -> has_ontop A) ->
      call_ok A L s -> arg_to A s = m_at (k_m W) to -> on_stack A s (m_lo (k_m W) c) (m_hi (k_m W) c) ->
      (forall a, foot_susp A s (m_st (k_m W) to) a -> latest W t a) ->
      wexec tr (wset_ph W (k_m W) t (Inside (RSwitch me to k) (rcode A (RSwitch me to k)) (rtramp (RSwitch me to k)) s))
  (* one instruction of a routine; it stores to bytes that it accesses *)
  | w_step tr W t r i rest tramp s v val pos : wexec tr W -> (t < n)%nat -> k_ph W t = Inside r (i :: rest) tramp s ->
      step1 P L i (wcpu W t) = Some v ->
      (forall a x, val a = Some x -> touched P i (wcpu W t) a /\ x = mm v a) ->
      (forall a, val a = None -> mm v a = view W t a) ->
      places W t val pos ->
      wexec tr (put_stores W t (rg v) val pos (Inside r rest tramp s))
  (* the last instruction of jump_fcontext goes to the trampoline *)
  | w_tramp tr W t r x rest tramp s : wexec tr W -> (t < n)%nat -> k_ph W t = Inside r (Go x :: rest) tramp s ->
      goes_on A L tramp (m_reg (k_m W) t x) = true ->
      wexec tr (wset_ph W (k_m W) t (Inside r (c_tramp C) false s))
  (* make_fcontext returns *)
  | w_made tr W t d x rest tramp s : wexec tr W -> (t < n)%nat -> k_ph W t = Inside (RMake d) (Go x :: rest) tramp s ->
      wexec tr (wset_ph W (k_m W) t (Between d (m_reg (k_m W) t (ab_mkres B)) s))
  (* the last instruction of a switch *)
  | w_done tr W t r me to k c0 x rest tramp s : wexec tr W -> (t < n)%nat -> k_ph W t = Inside r (Go x :: rest) tramp s ->
      goes_on A L tramp (m_reg (k_m W) t x) = false ->
      r = RFirst me to c0 /\ k = SwCreate \/ r = RSwitch me to k ->
      wexec (EvSwitch t (running tr t) me to k :: tr) (wset_ph W (put_susp (k_m W) me (handle A s) s) t Free).
End Weak.
