(** * The fiber machine on the assembler, with signals

    The machine of Link.v, but the routines of src/asm are interrupted any number of times, between any two
    instructions, by signal handlers (AsmSig.v). A handler runs on the stack that the stack pointer designates: it
    overwrites anything on that stack below the stack pointer. Elsewhere it may write what any code may write ([W] are
    the bytes that the handlers of one call may write; like other code they leave alone what suspended calls own). A
    handler does not switch contexts. *)
From Coq Require Import ZArith List String Lia Bool.
From Verif Require Import Fiber FiberSpec.
From Verif Require Import Word AsmMachine AsmSym AsmAbi AsmCheck AsmCode AsmCode2 AsmFacts AsmHist AsmIl Link AsmSig AsmSig2.
Import ListNotations.
Open Scope list_scope.
Open Scope Z_scope.

(** the call in state s of jump or ontop on thread t became suspension me; it arrived in state u; meanwhile handlers
    may have written W *)
Definition put_sig (M : mach) (t : nat) (me : fctx) (h : Z) (s u : mst) (W : Z -> Prop) : mach :=
  Mach (mm u) (fun t' => if Nat.eqb t' t then rg u else m_reg M t') (m_lo M) (m_hi M)
       (fun x => if fc_eqb x me then h else m_at M x) (fun x => if fc_eqb x me then s else m_st M x)
       (fun x a => if fc_eqb x me then W a else m_wr M x a \/ W a).
(** handlers may have written W, and code has changed the memory of s0 to that of s *)
Definition spoiled (M : mach) (W : Z -> Prop) (s0 s : mst) : mach :=
  Mach (m_mem M) (m_reg M) (m_lo M) (m_hi M) (m_at M) (m_st M) (fun h a => m_wr M h a \/ W a \/ mm s a <> mm s0 a).

Section Link.
  Variable A : port.
  Variable L : string -> Z.
  Variable n : nat.
  Local Notation B := (p_abi A).
  Local Notation C := (p_code A).
  Local Notation P := (ab_cpu (p_abi A)).

  (** handlers that interrupt code on one of the given stacks *)
  Definition signals (stacks : list (Z * Z)) (W : Z -> Prop) : mst -> (Z -> Z) -> Prop :=
    handler (ab_sp B) stacks (fun a => ~ W a).

  Inductive sexec : list event -> mach -> Prop :=
  (* as in Link.v *)
  | s_start M :
      (forall t, wf P (cpu_at M t)) ->
      (forall c, (c < n)%nat -> 0 < m_lo M c <= m_hi M c /\ m_hi M c <= space P) ->
      (forall c d, (c < n)%nat -> (d < n)%nat -> c <> d -> sdisj (m_lo M c) (m_hi M c) (m_lo M d) (m_hi M d)) ->
      sexec [] M
  | s_code tr M t s : sexec tr M -> (t < n)%nat -> wf P s ->
      (forall h a, suspended tr h -> owned A M h a -> mm s a = m_mem M a) ->
      sexec tr (put_code M t s)
  | s_event tr M e : sexec tr M ->
      match e with EvSwitch _ _ _ _ _ | EvAlloc _ _ => False | _ => True end -> sexec (e :: tr) M
  | s_alloc tr M c a lo hi : sexec tr M -> 0 < lo <= hi -> hi <= space P ->
      (forall d, has_stack n tr d -> sdisj lo hi (m_lo M d) (m_hi M d)) ->
      sexec (EvAlloc c a :: tr) (put_stack M c lo hi)
  (* make_fcontext, interrupted; code; jump_fcontext, interrupted. There is some space left on both stacks. *)
  | s_create tr M t from me to W0 pc u0 s W pc' u : sexec tr M -> (t < n)%nat ->
      let s00 := cpu_at M t in let d := fc_ctx to in
      make_ok A s00 -> m_lo M from < sp A s00 - c_mkscr C -> sp A s00 + ab_up B <= m_hi M from ->
      m_lo M d + c_frame C < mk_top A s00 - c_need C -> mk_top A s00 <= m_hi M d ->
      (forall h a, suspended tr h -> owned A M h a -> ~ W0 a) -> (forall a, foot_make A s00 a -> ~ W0 a) ->
      irun P L (signals [(m_lo M from, m_hi M from)] W0) (c_make C) s00 (Goto pc u0) ->
      wf P s ->
      (forall h a, suspended tr h -> owned A M h a -> mm s a = mm u0 a) ->
      (forall a, rg u0 (ab_mkres B) <= a < rg u0 (ab_mkres B) + c_size C -> mm s a = mm u0 a) ->
      call_ok A L s -> arg_to A s = rg u0 (ab_mkres B) -> roomy A s (m_lo M from) (m_hi M from) ->
      (forall h a, suspended tr h -> owned A M h a -> ~ W a) -> (forall a, foot_new A s a -> ~ W a) ->
      iswitch A L (signals [(m_lo M from, m_hi M from); (m_lo M d, m_hi M d)] W) Jump s (Goto pc' u) ->
      sexec (EvSwitch t from me to SwCreate :: tr) (put_sig (spoiled M W0 u0 s) t me (handle A s) s u W)
  (* all other switches: a call of jump or ontop, interrupted *)
  | s_switch tr M t from me to k W pc u : sexec tr M -> (t < n)%nat -> k <> SwCreate ->
      let s := cpu_at M t in let d := fc_ctx to in
      call_ok A L s -> arg_to A s = m_at M to -> roomy A s (m_lo M from) (m_hi M from) ->
      (forall h a, suspended tr h -> owned A M h a -> ~ W a) -> (forall a, foot_susp A s (m_st M to) a -> ~ W a) ->
      iswitch A L (signals [(m_lo M from, m_hi M from); (m_lo M d, m_hi M d)] W) (how_of k) s (Goto pc u) ->
      sexec (EvSwitch t from me to k :: tr) (put_sig M t me (handle A s) s u W).
End Link.
