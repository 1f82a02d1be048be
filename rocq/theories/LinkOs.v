(** * Fibers, stack allocators and the operating system

    LinkMem.v assumes that the blocks of the stack allocators do not overlap. Here they come from the
    allocator classes of the library (Alloc.v: fixedsize, pooled, protected, segmented), whose memory
    comes from malloc, mmap, VirtualAlloc, ..., and go back to them. [oexec tr M blk w oth] is the machine of
    LinkMem.v together with the state w of the memory source; [oth] are the blocks that the rest of the
    program has got from it.

    - a stack is obtained by allocate() of allocator a, of class [kind a] and size [ssize a]; nothing is
      assumed about the block except the contract of malloc/mmap/VirtualAlloc (answer_ok), and that it is
      large enough;
    - a stack is given back by deallocate() with the stack_context that is in the record at that time;
    - the rest of the program may allocate, free (its own blocks) and touch memory as it likes. *)
From Coq Require Import ZArith List String Lia Bool Permutation.
From Verif Require Import Fiber FiberSpec Layout Alloc AllocFacts.
From Verif Require Import Word AsmMachine AsmSym AsmAbi AsmCheck AsmCode AsmCode2 AsmFacts AsmHist Link LinkMem.
Import ListNotations.
Open Scope Z_scope.

(** which allocator the stack of context c is from *)
Fixpoint alloc_of (tr : list event) (c : nat) : option nat :=
  match tr with
  | [] => None
  | EvAlloc d a :: old => if Nat.eqb d c then Some a else alloc_of old c
  | _ :: old => alloc_of old c
  end.

Section LinkOs.
  Variable A : port.
  Variable L : string -> Z.
  Variable n : nat.                 (* threads *)
  Variable rs : nat -> Z.           (* sizeof( fiber_record< .. >) of each context *)
  Variable off : nat -> Z.          (* offset of its member sctx_ *)
  Variable keep : nat -> Z -> Prop. (* offsets of the bytes that are constant *)
  Variable pg : Z.                  (* page size of the system *)
  Variable kind : nat -> akind.     (* class of each allocator object *)
  Variable ssize : nat -> Z.        (* its size_ *)
  Let B := p_abi A.
  Let C := p_code A.
  Let P := ab_cpu B.

  (** the stack of context c as the memory source sees it; the stacks of threads are mapped by the system *)
  Definition entry (tr : list event) (blk : nat -> preallocated) (c : nat) : akind * stack_context :=
    (match alloc_of tr c with Some a => kind a | None => KFixedMmap end, pa_sctx (blk c)).

  (** the block is large enough for record, gap, alignment and the context data of make_fcontext *)
  Definition large (c : nat) (b : preallocated) : Prop :=
    blk_lo b + rs c + 64 + 255 + c_need C <= pa_sp b <= blk_hi b.

  Inductive oexec : list event -> mach -> (nat -> preallocated) -> world -> list (akind * stack_context) -> Prop :=
  (* the system has started n threads and the program has already done something *)
  | o_start M blk boot w oth :
      (forall t, wf P (cpu_at M t)) ->
      (forall c, (c < n)%nat -> m_lo M c = blk_lo (blk c) /\ m_hi M c = blk_hi (blk c)) ->
      Forall (sane (bits A) pg) boot -> wrun (bits A) world0 boot = WOk w ->
      Permutation (w_out w) (map (entry [] blk) (seq 0 n) ++ oth) ->
      oexec [] M blk w oth
  (* any code *)
  | o_code tr M blk w oth t s : oexec tr M blk w oth -> (t < n)%nat -> wf P s ->
      (forall h a, suspended tr h -> owned A M h a -> mm s a = m_mem M a) ->
      (forall c a, has_record tr c -> keep c (a - rec_at A rs c (blk c)) -> mm s a = m_mem M a) ->
      oexec tr (put_code M t s) blk w oth
  (* the rest of the program calls allocators, or touches memory *)
  | o_other tr M blk w oth o w' oth' : oexec tr M blk w oth -> sane (bits A) pg o ->
      (wstep (bits A) w o = WOk w' \/ wstep (bits A) w o = WBadAlloc w' \/ wstep (bits A) w o = WFault w') ->
      match o with
      | OAlloc _ _ (Some _) _ => exists e, w_out w' = e :: w_out w /\ oth' = e :: oth
      | OAlloc _ _ None _ | OAccess _ _ => oth' = oth
      | ODealloc i => exists e, nth_error (w_out w) i = Some e /\ Permutation oth (e :: oth')
      end ->
      oexec tr M blk w' oth'
  | o_event tr M blk w oth e : oexec tr M blk w oth ->
      match e with EvSwitch _ _ _ _ _ | EvAlloc _ _ | EvFree _ _ _ => False | _ => True end -> oexec (e :: tr) M blk w oth
  (* sctx = salloc.allocate() (fiber_fcontext.hpp L169), or before the call of the constructor (L211) *)
  | o_alloc tr M blk w oth c a p w' b : oexec tr M blk w oth ->
      sane (bits A) pg (OAlloc (kind a) (ssize a) (Some p) true) ->
      wstep (bits A) w (OAlloc (kind a) (ssize a) (Some p) true) = WOk w' ->
      w_out w' = (kind a, pa_sctx b) :: w_out w -> large c b ->
      oexec (EvAlloc c a :: tr) (put_stack M c (lo_bottom (lay A rs c b)) (lo_top (lay A rs c b)))
            (fun d => if Nat.eqb d c then b else blk d) w' oth
  (* salloc.deallocate( sctx) (L134) with sctx = p->sctx_ (L130) of the record of c *)
  | o_free tr M blk w oth c a on i w' : oexec tr M blk w oth ->
      nth_error (w_out w) i = Some (kind a, sctx_in A off (m_mem M) c (rec_at A rs c (blk c))) ->
      wstep (bits A) w (ODealloc i) = WOk w' ->
      oexec (EvFree c a on :: tr) M blk w' oth
  (* create_fiber1/2, as in LinkMem.v *)
  | o_create tr M blk w oth t from me to pc s0 s pc' t' : oexec tr M blk w oth -> (t < n)%nat ->
      let s00 := cpu_at M t in let d := fc_ctx to in let p := rec_at A rs d (blk d) in
      sctx_in A off (m_mem M) d p = pa_sctx (blk d) ->
      mk_top A s00 = lo_top (lay A rs d (blk d)) ->
      m_lo M from <= sp A s00 - c_mkscr C -> sp A s00 + ab_up B <= m_hi M from ->
      run P L (c_make C) s00 = Goto pc s0 ->
      wf P s ->
      (forall h a, suspended tr h -> owned A M h a -> mm s a = mm s0 a) ->
      (forall a, rg s0 (ab_mkres B) <= a < rg s0 (ab_mkres B) + c_size C -> mm s a = mm s0 a) ->
      (forall c a, has_record tr c \/ c = d -> keep c (a - rec_at A rs c (blk c)) -> mm s a = mm s0 a) ->
      call_ok A L s -> arg_to A s = rg s0 (ab_mkres B) -> arg_data A s = p ->
      on_stack A s (m_lo M from) (m_hi M from) ->
      switch A L Jump s = Goto pc' t' ->
      oexec (EvSwitch t from me to SwCreate :: tr) (put_susp (put_cpu (soiled M s0 s) t t') me (handle A s) s) blk w oth
  | o_switch tr M blk w oth t from me to k pc t' : oexec tr M blk w oth -> (t < n)%nat -> k <> SwCreate ->
      let s := cpu_at M t in
      call_ok A L s -> arg_to A s = m_at M to -> on_stack A s (m_lo M from) (m_hi M from) ->
      (k = SwExit -> arg_data A s = rec_at A rs from (blk from)) ->
      switch A L (how_of k) s = Goto pc t' ->
      oexec (EvSwitch t from me to k :: tr) (put_susp (put_cpu M t t') me (handle A s) s) blk w oth.
End LinkOs.
