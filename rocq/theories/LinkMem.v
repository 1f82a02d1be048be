(** * Records and stack allocators on the machine

    Link.v lets the stack of a context be any piece of memory. Here it is what create_fiber1/2 make of
    the block that a stack allocator returned (Layout.v): control structure (record) at the top, 64
    bytes, stack. [lexec tr M blk] says that M is a state of the machine of Link.v after the events tr,
    where context c lives in the block [blk c], and where

    - the constructor of a fiber writes the stack_context into the record before it calls
      make_fcontext with the top of the computed stack, and passes the record as data pointer;
    - a finished context passes its own record to fiber_exit;
    - everything else is arbitrary code that leaves alone what suspended calls own, and those bytes of
      the records (and of the gap below them) that are constant from construction until the stack is
      given back: [keep], which contains at least the member sctx_.

    All other assumptions of Link.v about addresses are consequences (P_LinkMem.v). *)
From Coq Require Import ZArith List String Lia Bool.
From Verif Require Import Fiber FiberSpec Layout.
From Verif Require Import Word AsmMachine AsmSym AsmAbi AsmCheck AsmCode AsmCode2 AsmFacts AsmHist Link.
Import ListNotations.
Open Scope Z_scope.

(** the bytes of a block: sctx.sp is one past its end (stack_context.hpp L24-37) *)
Definition blk_lo (b : preallocated) : Z := sc_sp (pa_sctx b) - sc_size (pa_sctx b).
Definition blk_hi (b : preallocated) : Z := sc_sp (pa_sctx b).
Definition bdisj (b b' : preallocated) : Prop := blk_hi b <= blk_lo b' \/ blk_hi b' <= blk_lo b.

(** create_fiber1 (fiber_fcontext.hpp L167-184) places everything as create_fiber2 does with
    preallocated( sctx.sp, sctx.size, sctx) *)
Definition whole (s : stack_context) : preallocated := mk_palloc (sc_sp s) (sc_size s) s.

(** the record of context c is constructed and its stack has not been given back *)
Definition has_record (tr : list event) (c : nat) : Prop :=
  (exists t from me to, In (EvSwitch t from me to SwCreate) tr /\ fc_ctx to = c) /\ ~ freed tr c.

Section LinkMem.
  Variable A : port.
  Variable L : string -> Z.
  Variable n : nat.                 (* threads *)
  Variable rs : nat -> Z.           (* sizeof( fiber_record< .. >) of each context *)
  Variable off : nat -> Z.          (* offset of its member sctx_ *)
  Variable keep : nat -> Z -> Prop. (* offsets, relative to the record, of the bytes that are constant *)
  Let B := p_abi A.
  Let C := p_code A.
  Let P := ab_cpu B.
  Definition bits : Z := 8 * cwb (ab_cpu (p_abi A)).

  (** the member sctx_ = { size, sp } lies in the record and is constant; constant bytes lie in the
      record or in the 64 bytes below it *)
  Definition keep_ok : Prop := forall c,
    0 <= off c /\ off c + 2 * cwb P <= rs c /\
    (forall o, off c <= o < off c + 2 * cwb P -> keep c o) /\ (forall o, keep c o -> -64 <= o < rs c).

  (** fiber_fcontext.hpp L210-225 *)
  Definition lay (c : nat) (b : preallocated) : layout := create_fiber2_layout bits (rs c) b.
  Definition rec_at (c : nat) (b : preallocated) : Z := lo_storage (lay c b).

  (** fiber_record::sctx_ (fiber_fcontext.hpp L116) of the record at address p *)
  Definition sctx_in (m : Z -> Z) (c : nat) (p : Z) : stack_context :=
    mk_sctx (load (cbig P) m (p + off c) (cwb P)) (load (cbig P) m (p + off c + cwb P) (cwb P)).

  (** the block is large enough for record, gap, alignment and the context data of make_fcontext *)
  Definition block_ok (c : nat) (b : preallocated) : Prop :=
    0 < blk_lo b /\ 0 <= sc_size (pa_sctx b) /\ blk_hi b < space P /\
    blk_lo b + rs c + 64 + 255 + c_need C <= pa_sp b <= blk_hi b.

  Inductive lexec : list event -> mach -> (nat -> preallocated) -> Prop :=
  (* n threads with disjoint stacks *)
  | l_start M blk :
      (forall t, wf P (cpu_at M t)) ->
      (forall c, (c < n)%nat -> m_lo M c = blk_lo (blk c) /\ m_hi M c = blk_hi (blk c) /\
                                0 < blk_lo (blk c) <= blk_hi (blk c) /\ blk_hi (blk c) < space P) ->
      (forall c d, (c < n)%nat -> (d < n)%nat -> c <> d -> bdisj (blk c) (blk d)) ->
      lexec [] M blk
  (* any code *)
  | l_code tr M blk t s : lexec tr M blk -> (t < n)%nat -> wf P s ->
      (forall h a, suspended tr h -> owned A M h a -> mm s a = m_mem M a) ->
      (forall c a, has_record tr c -> keep c (a - rec_at c (blk c)) -> mm s a = m_mem M a) ->
      lexec tr (put_code M t s) blk
  | l_event tr M blk e : lexec tr M blk ->
      match e with EvSwitch _ _ _ _ _ | EvAlloc _ _ => False | _ => True end -> lexec (e :: tr) M blk
  (* salloc.allocate() (fiber_fcontext.hpp L169), or the block given by the user (L211): it overlaps no
     block that has not been given back *)
  | l_alloc tr M blk c a b : lexec tr M blk -> block_ok c b ->
      (forall d, has_stack n tr d -> bdisj b (blk d)) ->
      lexec (EvAlloc c a :: tr) (put_stack M c (lo_bottom (lay c b)) (lo_top (lay c b)))
            (fun d => if Nat.eqb d c then b else blk d)
  (* create_fiber1/2, L171-208, L213-249 *)
  | l_create tr M blk t from me to pc s0 s pc' t' : lexec tr M blk -> (t < n)%nat ->
      let s00 := cpu_at M t in let d := fc_ctx to in let p := rec_at d (blk d) in
      (* ::new (storage) Record{ sctx, ...}; make_fcontext( stack_top, size, & fiber_entry< Record >) *)
      sctx_in (m_mem M) d p = pa_sctx (blk d) ->
      mk_top A s00 = lo_top (lay d (blk d)) ->
      m_lo M from <= sp A s00 - c_mkscr C -> sp A s00 + ab_up B <= m_hi M from ->
      run P L (c_make C) s00 = Goto pc s0 ->
      wf P s ->
      (forall h a, suspended tr h -> owned A M h a -> mm s a = mm s0 a) ->
      (forall a, rg s0 (ab_mkres B) <= a < rg s0 (ab_mkres B) + c_size C -> mm s a = mm s0 a) ->
      (forall c a, has_record tr c \/ c = d -> keep c (a - rec_at c (blk c)) -> mm s a = mm s0 a) ->
      (* jump_fcontext( fctx, record) *)
      call_ok A L s -> arg_to A s = rg s0 (ab_mkres B) -> arg_data A s = p ->
      on_stack A s (m_lo M from) (m_hi M from) ->
      switch A L Jump s = Goto pc' t' ->
      lexec (EvSwitch t from me to SwCreate :: tr) (put_susp (put_cpu (soiled M s0 s) t t') me (handle A s) s) blk
  | l_switch tr M blk t from me to k pc t' : lexec tr M blk -> (t < n)%nat -> k <> SwCreate ->
      let s := cpu_at M t in
      call_ok A L s -> arg_to A s = m_at M to -> on_stack A s (m_lo M from) (m_hi M from) ->
      (* ontop_fcontext( t.fctx, rec, fiber_exit< Rec >) (L103): rec is the data pointer of fiber_entry *)
      (k = SwExit -> arg_data A s = rec_at from (blk from)) ->
      switch A L (how_of k) s = Goto pc t' ->
      lexec (EvSwitch t from me to k :: tr) (put_susp (put_cpu M t t') me (handle A s) s) blk.
End LinkMem.
