(** * The fiber machine on the assembler

    Fiber.v takes "switch to that suspension" as one step; AsmCode*.v model the instructions that
    make_fcontext, jump_fcontext and ontop_fcontext consist of, one processor at a time. Here both
    are put together: [exec tr M] says that M is a state of a machine with n processors (threads),
    a shared memory and one stack per context, after the observable events tr, where every switch
    of tr is performed by running the assembler code on the processor of its thread, and where
    everything else is arbitrary code. *)
From Coq Require Import ZArith List String Lia Bool.
From Verif Require Import Fiber FiberSpec.
From Verif Require Import Word AsmMachine AsmSym AsmAbi AsmCheck AsmCode AsmCode2 AsmFacts AsmHist.
Import ListNotations.
Open Scope Z_scope.

Record mach := Mach {
  m_mem : Z -> Z;                    (* memory *)
  m_reg : nat -> string -> Z;        (* registers of each thread's processor *)
  m_lo : nat -> Z; m_hi : nat -> Z;  (* the stack [lo, hi) of each context *)
  m_at : fctx -> Z;                  (* the value of the fcontext_t that denotes a suspension *)
  m_st : fctx -> mst;                (* the state in which the suspending call was made *)
  m_wr : fctx -> Z -> Prop           (* bytes that code has changed since that suspension *)
}.

(** the processor of thread t *)
Definition cpu_at (M : mach) (t : nat) : mst := St (m_reg M t) (m_mem M).

Definition fc_eqb (a b : fctx) : bool := Nat.eqb (fc_ctx a) (fc_ctx b) && Nat.eqb (fc_ver a) (fc_ver b).

(** thread t has executed: registers and memory *)
Definition put_cpu (M : mach) (t : nat) (s : mst) : mach :=
  Mach (mm s) (fun t' => if Nat.eqb t' t then rg s else m_reg M t') (m_lo M) (m_hi M) (m_at M) (m_st M) (m_wr M).
(** thread t has executed code other than the assembler routines *)
Definition put_code (M : mach) (t : nat) (s : mst) : mach :=
  Mach (mm s) (fun t' => if Nat.eqb t' t then rg s else m_reg M t') (m_lo M) (m_hi M) (m_at M) (m_st M)
       (fun h a => m_wr M h a \/ mm s a <> m_mem M a).
(** the code between make and jump in create_fiber1/2 changes the memory of s0 to that of s *)
Definition soiled (M : mach) (s0 s : mst) : mach :=
  Mach (m_mem M) (m_reg M) (m_lo M) (m_hi M) (m_at M) (m_st M) (fun h a => m_wr M h a \/ mm s a <> mm s0 a).
Definition put_stack (M : mach) (c : nat) (lo hi : Z) : mach :=
  Mach (m_mem M) (m_reg M) (fun c' => if Nat.eqb c' c then lo else m_lo M c')
       (fun c' => if Nat.eqb c' c then hi else m_hi M c') (m_at M) (m_st M) (m_wr M).
(** the call in state s of jump or ontop became suspension me *)
Definition put_susp (M : mach) (me : fctx) (h : Z) (s : mst) : mach :=
  Mach (m_mem M) (m_reg M) (m_lo M) (m_hi M) (fun x => if fc_eqb x me then h else m_at M x)
       (fun x => if fc_eqb x me then s else m_st M x) (fun x => if fc_eqb x me then clean else m_wr M x).

(** Which routine performs a switch: resume() and the entry of a context jump (fiber_fcontext.hpp
    L95, L207, L248, L326); ~fiber(), resume_with() and the exit of a context use ontop (L298, L103,
    L339). *)
Definition how_of (k : swk) : how :=
  match k with SwCreate | SwJump => Jump | SwUnwind | SwOntop _ | SwExit => Ontop end.

(** c is a thread's own context or has got a stack, and its stack has not been given back *)
Definition has_stack (n : nat) (tr : list event) (c : nat) : Prop :=
  ((c < n)%nat \/ exists a, In (EvAlloc c a) tr) /\ ~ freed tr c.

Section Link.
  Variable A : port.
  Variable L : string -> Z.
  Variable n : nat.
  Let B := p_abi A.
  Let C := p_code A.
  Let P := ab_cpu B.

  (** the space that the call owns as which h is suspended *)
  Definition owned (M : mach) (h : fctx) (a : Z) : Prop := m_at M h <= a < m_at M h + own_len A.

  Inductive exec : list event -> mach -> Prop :=
  (* n threads with disjoint stacks *)
  | x_start M :
      (forall t, wf P (cpu_at M t)) ->
      (forall c, (c < n)%nat -> 0 < m_lo M c <= m_hi M c /\ m_hi M c <= space P) ->
      (forall c d, (c < n)%nat -> (d < n)%nat -> c <> d -> sdisj (m_lo M c) (m_hi M c) (m_lo M d) (m_hi M d)) ->
      exec [] M
  (* any code, of the library or of the user, that leaves alone what suspended calls own *)
  | x_code tr M t s : exec tr M -> (t < n)%nat -> wf P s ->
      (forall h a, suspended tr h -> owned M h a -> mm s a = m_mem M a) ->
      exec tr (put_code M t s)
  (* events that are neither switches nor allocations of stacks *)
  | x_event tr M e : exec tr M ->
      match e with EvSwitch _ _ _ _ _ | EvAlloc _ _ => False | _ => True end -> exec (e :: tr) M
  (* the allocator returns memory that is not part of any other stack *)
  | x_alloc tr M c a lo hi : exec tr M -> 0 < lo <= hi -> hi <= space P ->
      (forall d, has_stack n tr d -> sdisj lo hi (m_lo M d) (m_hi M d)) ->
      exec (EvAlloc c a :: tr) (put_stack M c lo hi)
  (* create_fiber1/2 (fiber_fcontext.hpp L168-208, L211-249): make_fcontext with the top of the new
     stack; then code (ending in the call of jump) that leaves alone what suspended calls own and
     the new context data; then jump to it *)
  | x_create tr M t from me to pc s0 s pc' t' : exec tr M -> (t < n)%nat ->
      let s00 := cpu_at M t in let d := fc_ctx to in
      make_ok A s00 -> m_lo M from <= sp A s00 - c_mkscr C -> sp A s00 + ab_up B <= m_hi M from ->
      m_lo M d <= mk_top A s00 - c_need C -> mk_top A s00 <= m_hi M d ->
      run P L (c_make C) s00 = Goto pc s0 ->
      wf P s ->
      (forall h a, suspended tr h -> owned M h a -> mm s a = mm s0 a) ->
      (forall a, rg s0 (ab_mkres B) <= a < rg s0 (ab_mkres B) + c_size C -> mm s a = mm s0 a) ->
      call_ok A L s -> arg_to A s = rg s0 (ab_mkres B) -> on_stack A s (m_lo M from) (m_hi M from) ->
      switch A L Jump s = Goto pc' t' ->
      exec (EvSwitch t from me to SwCreate :: tr) (put_susp (put_cpu (soiled M s0 s) t t') me (handle A s) s)
  (* all other switches: a call of jump or ontop with the fcontext_t of the target *)
  | x_switch tr M t from me to k pc t' : exec tr M -> (t < n)%nat -> k <> SwCreate ->
      let s := cpu_at M t in
      call_ok A L s -> arg_to A s = m_at M to -> on_stack A s (m_lo M from) (m_hi M from) ->
      switch A L (how_of k) s = Goto pc t' ->
      exec (EvSwitch t from me to k :: tr) (put_susp (put_cpu M t t') me (handle A s) s).
End Link.
