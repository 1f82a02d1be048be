(** * The fiber machine, one instruction at a time

    Link.v lets a whole routine of src/asm happen at once. A routine takes many instructions, and the
    other threads do not wait for it: between any two of its instructions they may execute any code,
    allocate stacks, be inside routines themselves. [fexec tr F] says that F is a state that such a
    machine can have after the observable events tr. A switch counts as done (and becomes an event)
    when the last instruction of its routine has been executed.

    Simplifications: one instruction of the model (AsmMachine.v) is one step, and every thread sees
    the stores of the others at once and in order (the routines contain no instruction that orders
    memory accesses; it is the user who hands a fiber from one thread to another and synchronizes). *)
From Coq Require Import ZArith List String Lia Bool.
From Verif Require Import Fiber FiberSpec.
From Verif Require Import Word AsmMachine AsmSym AsmAbi AsmCheck AsmFacts AsmHist AsmIl Link.
Import ListNotations.
Open Scope list_scope.
Open Scope Z_scope.

(** the routines: make_fcontext for the stack of context d; the jump that starts the new context [to]
    (create_fiber1/2, fiber_fcontext.hpp L204-207, L245-248), for which make_fcontext was called in
    state c0; any other switch. The switches carry the suspension [me] that the call becomes. *)
Inductive routine := RMake (d : nat) | RFirst (me to : fctx) (c0 : mst) | RSwitch (me to : fctx) (k : swk).

(** what a thread is doing: code that is not a routine; such code in create_fiber1/2, between the
    return of make_fcontext (for context d, called in state c0, with result h) and the jump; a routine that was called in
    state s: [rest] is what is left of it, [tramp] says whether the trampoline may follow *)
Inductive phase :=
| Free
| Between (d : nat) (h : Z) (c0 : mst)
| Inside (r : routine) (rest : list instr) (tramp : bool) (s : mst).

(** m_wr of Link.v is not used here *)
Record fine := Fine { f_m : mach; f_ph : nat -> phase }.

Definition set_ph (F : fine) (M : mach) (t : nat) (p : phase) : fine :=
  Fine M (fun t' => if Nat.eqb t' t then p else f_ph F t').

Definition all_free (F : fine) : Prop := forall t, f_ph F t = Free.
Definition inside (p : phase) : Prop := match p with Inside _ _ _ _ => True | _ => False end.

(** the context that the thread is about to start or continue *)
Definition goal (p : phase) : option nat :=
  match p with
  | Free => None
  | Between d _ _ | Inside (RMake d) _ _ _ => Some d
  | Inside (RFirst _ to _) _ _ _ | Inside (RSwitch _ to _) _ _ _ => Some (fc_ctx to)
  end.

(** context d has got a stack and no switch has left or entered it *)
Definition untried (tr : list event) (d : nat) : Prop :=
  (exists a, In (EvAlloc d a) tr) /\ forall e, In e tr -> is_switch e = true -> ~ involves e d.

Section Step.
  Variable A : port.
  Variable L : string -> Z.
  Variable n : nat.
  Let B := p_abi A.
  Let C := p_code A.
  Let P := ab_cpu B.

  Definition rcode (r : routine) : list instr :=
    match r with RMake _ => c_make C | RFirst _ _ _ => c_jump C | RSwitch _ _ k => code_of A (how_of k) end.
  Definition rtramp (r : routine) : bool :=
    match r with RMake _ => false | RFirst _ _ _ => true | RSwitch _ _ k => tramp_of (how_of k) end.

  (** the memory that a thread in this phase relies on: nobody else may write there (AsmIl.v: the
      frame, arguments and result object of the calls; the context data that make_fcontext writes) *)
  Definition foot (M : mach) (p : phase) (a : Z) : Prop :=
    match p with
    | Free => False
    | Between _ h _ => h <= a < h + c_size C
    | Inside (RMake _) _ _ s => foot_make A s a
    | Inside (RFirst _ _ _) _ _ s => foot_new A s a
    | Inside (RSwitch _ to _) _ _ s => foot_susp A s (m_st M to) a
    end.

  (** no other thread is about to start or continue context d *)
  Definition unclaimed (F : fine) (t d : nat) : Prop := forall t', t' <> t -> goal (f_ph F t') <> Some d.

  Inductive fexec : list event -> fine -> Prop :=
  | i_start M :
      (forall t, wf P (cpu_at M t)) ->
      (forall c, (c < n)%nat -> 0 < m_lo M c <= m_hi M c /\ m_hi M c <= space P) ->
      (forall c d, (c < n)%nat -> (d < n)%nat -> c <> d -> sdisj (m_lo M c) (m_hi M c) (m_lo M d) (m_hi M d)) ->
      fexec [] (Fine M (fun _ => Free))
  (* any code that leaves alone what suspended calls own and what threads rely on that are inside a
     routine or between make and jump *)
  | i_code tr F t s : fexec tr F -> (t < n)%nat -> ~ inside (f_ph F t) -> wf P s ->
      (forall h a, suspended tr h -> owned A (f_m F) h a -> mm s a = m_mem (f_m F) a) ->
      (forall t' a, foot (f_m F) (f_ph F t') a -> mm s a = m_mem (f_m F) a) ->
      fexec tr (Fine (put_cpu (f_m F) t s) (f_ph F))
  | i_event tr F e : fexec tr F ->
      match e with EvSwitch _ _ _ _ _ | EvAlloc _ _ => False | _ => True end -> fexec (e :: tr) F
  | i_alloc tr F c a lo hi : fexec tr F -> 0 < lo <= hi -> hi <= space P ->
      (forall d, has_stack n tr d -> sdisj lo hi (m_lo (f_m F) d) (m_hi (f_m F) d)) ->
      fexec (EvAlloc c a :: tr) (Fine (put_stack (f_m F) c lo hi) (f_ph F))
  (* make_fcontext is called for the stack of d *)
  | i_make tr F t d : fexec tr F -> (t < n)%nat -> f_ph F t = Free ->
      let s := cpu_at (f_m F) t in let c := running tr t in
      untried tr d -> unclaimed F t d -> make_ok A s ->
      m_lo (f_m F) c <= sp A s - c_mkscr C -> sp A s + ab_up B <= m_hi (f_m F) c ->
      m_lo (f_m F) d <= mk_top A s - c_need C -> mk_top A s <= m_hi (f_m F) d ->
      fexec tr (set_ph F (f_m F) t (Inside (RMake d) (rcode (RMake d)) (rtramp (RMake d)) s))
  (* jump_fcontext is called with the result of make_fcontext *)
  | i_first tr F t me to h c0 : fexec tr F -> (t < n)%nat -> f_ph F t = Between (fc_ctx to) h c0 ->
      let s := cpu_at (f_m F) t in let c := running tr t in
      call_ok A L s -> arg_to A s = h -> on_stack A s (m_lo (f_m F) c) (m_hi (f_m F) c) ->
      fexec tr (set_ph F (f_m F) t (Inside (RFirst me to c0) (rcode (RFirst me to c0)) (rtramp (RFirst me to c0)) s))
  (* jump_fcontext or ontop_fcontext is called with the fcontext_t of a suspended call *)
  | i_call tr F t me to k : fexec tr F -> (t < n)%nat -> f_ph F t = Free -> k <> SwCreate ->
      let s := cpu_at (f_m F) t in let c := running tr t in
      suspended tr to -> unclaimed F t (fc_ctx to) -> (how_of k = Ontop -> has_ontop A) ->
      call_ok A L s -> arg_to A s = m_at (f_m F) to -> on_stack A s (m_lo (f_m F) c) (m_hi (f_m F) c) ->
      fexec tr (set_ph F (f_m F) t (Inside (RSwitch me to k) (rcode (RSwitch me to k)) (rtramp (RSwitch me to k)) s))
  (* one instruction of a routine *)
  | i_step tr F t r i rest tramp s v : fexec tr F -> (t < n)%nat -> f_ph F t = Inside r (i :: rest) tramp s ->
      step1 P L i (cpu_at (f_m F) t) = Some v ->
      fexec tr (set_ph F (put_cpu (f_m F) t v) t (Inside r rest tramp s))
  (* the last instruction of jump_fcontext goes to the trampoline *)
  | i_tramp tr F t r x rest tramp s : fexec tr F -> (t < n)%nat -> f_ph F t = Inside r (Go x :: rest) tramp s ->
      goes_on A L tramp (m_reg (f_m F) t x) = true ->
      fexec tr (set_ph F (f_m F) t (Inside r (c_tramp C) false s))
  (* make_fcontext returns *)
  | i_made tr F t d x rest tramp s : fexec tr F -> (t < n)%nat -> f_ph F t = Inside (RMake d) (Go x :: rest) tramp s ->
      fexec tr (set_ph F (f_m F) t (Between d (m_reg (f_m F) t (ab_mkres B)) s))
  (* the last instruction of a switch *)
  | i_done tr F t r me to k c0 x rest tramp s : fexec tr F -> (t < n)%nat -> f_ph F t = Inside r (Go x :: rest) tramp s ->
      goes_on A L tramp (m_reg (f_m F) t x) = false ->
      r = RFirst me to c0 /\ k = SwCreate \/ r = RSwitch me to k ->
      fexec (EvSwitch t (running tr t) me to k :: tr) (set_ph F (put_susp (f_m F) me (handle A s) s) t Free).
End Step.
