(** * Calling conventions and the specification of the three stubs

    This file says what the documentation of a calling convention says (which
    registers a callee must preserve, where arguments, return addresses and
    results are) and what the users of [jump_fcontext], [ontop_fcontext] and
    [make_fcontext] rely on, for any processor.  It mentions no instruction. *)
From Coq Require Import ZArith List String Lia Bool.
From Verif Require Import AsmMachine.
Import ListNotations.
Open Scope Z_scope.

(** Where a value is at a function boundary. *)
Inductive place :=
| PReg (r : string)
| PMem (b : string) (o n : Z).      (* n bytes at register b + o *)

Definition pl (P : cpu) (s : mst) (p : place) : Z :=
  match p with
  | PReg r => rg s r
  | PMem b o n => load (cbig P) (mm s) ((rg s b + o) mod space P) n
  end.

(** A calling convention.  [transfer_t] is a struct of two pointers
    (include/boost/context/detail/fcontext.hpp:23-26). *)
Record abi := Abi {
  ab_cpu : cpu;
  ab_sp : string;                   (* stack pointer *)
  ab_saved : list string;           (* registers a callee must preserve *)
  ab_ctl : list string;             (* control registers among them that a new context inherits *)
  ab_ret : place;                   (* return address at function entry *)
  ab_pop : Z;                       (* the return of a function returning transfer_t adds this to sp *)
  ab_pop0 : Z;                      (* ditto for functions returning a pointer or nothing *)
  ab_up : Z;                        (* bytes at and above sp at entry that belong to the call *)
  ab_wr : Z;                        (* how many of them a callee may write *)
  ab_home : Z;                      (* bytes above sp, after return, a callee may have written *)
  ab_to : place; ab_data : place; ab_fn : place;  (* the arguments of jump and ontop *)
  ab_hidden : option place;         (* hidden pointer to the result, at entry *)
  ab_hidret : option string;        (* register that must hold that pointer at return *)
  ab_res : place * place;           (* the transfer_t result, if there is no hidden pointer *)
  ab_ent : place * place;           (* the argument of void fn(transfer_t) *)
  ab_ont : place * place;           (* the argument of transfer_t fn(transfer_t) *)
  ab_mksp : place; ab_mkfn : place; (* first and third argument of make_fcontext *)
  ab_mkres : string;                (* pointer result *)
  ab_jmp : list string;             (* further registers that jump restores (TOC pointer) *)
  ab_align : Z; ab_bias : Z         (* (sp + bias) mod align = 0 at function entry *)
}.

(** The code of one port and the constants of its context data. *)
Record code := Code {
  c_jump : list instr; c_ontop : list instr; c_make : list instr;
                                    (* c_ontop is [] if ontop is not modelled *)
  c_tramp : list instr;             (* [] if the port needs no trampoline *)
  c_finish : list instr;
  c_frame : Z;                      (* bytes pushed by jump and ontop *)
  c_hid : Z;                        (* where the hidden pointer is saved in the frame *)
  c_size : Z;                       (* bytes make uses *)
  c_mkoff : Z; c_mkal : Z;          (* below top + mkoff, rounded down to a multiple of mkal *)
  c_mkscr : Z;                      (* bytes below sp that make uses as scratch *)
  c_fin : list (Z * Z * string);    (* words above sp that finish relies on *)
  c_tail : option (string * place);  (* Some (l, p): ontop does not go to fn itself but to the
                                       compiled function l, which finds fn in p *)
  c_spslot : option Z     (* offset of the word of the context data in which the stack
                             pointer of the caller is kept (sparc64) *)
}.

(** what make takes from the top of the stack, including alignment *)
Definition c_need (C : code) : Z := c_size C - c_mkoff C + c_mkal C - 1.

Record port := Port { p_name : string; p_abi : abi; p_code : code }.

Section Spec.
  Variable A : port.
  Let B := p_abi A.
  Let C := p_code A.
  Let P := ab_cpu B.

  Definition sp (s : mst) : Z := rg s (ab_sp B).
  Definition arg_to (s : mst) : Z := pl P s (ab_to B).
  Definition arg_data (s : mst) : Z := pl P s (ab_data B).
  Definition arg_fn (s : mst) : Z := pl P s (ab_fn B).
  Definition ret_addr (s : mst) : Z := pl P s (ab_ret B).
  Definition hidden (s : mst) : option Z := option_map (pl P s) (ab_hidden B).
  Definition mk_top (s : mst) : Z := pl P s (ab_mksp B).
  Definition mk_fn (s : mst) : Z := pl P s (ab_mkfn B).

  Definition has_ontop : Prop := c_ontop C <> [].

  (** where ontop goes, and where the function given to it is then: it is
      entered directly, or (ppc32) by a compiled tail that calls it *)
  Definition ontop_pc (L : string -> Z) (s : mst) : Z :=
    match c_tail C with None => arg_fn s | Some (l, _) => L l end.
  Definition ontop_fn (s t : mst) : Prop :=
    match c_tail C with None => True | Some (_, p) => pl P t p = arg_fn s end.

  (** the handle under which the caller of jump/ontop in state [s] is known *)
  Definition handle (s : mst) : Z := sp s - c_frame C.

  (** the transfer_t that the caller in state [s] finds when its call returned
      in state [t] *)
  Definition result (s t : mst) : Z * Z :=
    match hidden s with
    | None => (pl P t (fst (ab_res B)), pl P t (snd (ab_res B)))
    | Some H => (load (cbig P) (mm t) H (cwb P), load (cbig P) (mm t) (H + cwb P) (cwb P))
    end.

  Definition pair_at (t : mst) (p : place * place) : Z * Z := (pl P t (fst p), pl P t (snd p)).

  Definition disj (a n b m : Z) : Prop := a + n <= b \/ b + m <= a.

  Inductive how := Jump | Ontop.

  Variable L : string -> Z.

  (** the labels are addresses *)
  Definition labels_ok : Prop := forall l, 0 <= L l < space P.

  (** calling jump_fcontext or ontop_fcontext in state [s]: run the code, and
      the trampoline if the new context starts there *)
  Definition switch (h : how) (s : mst) : outcome :=
    match h with
    | Ontop => run P L (c_ontop C) s
    | Jump =>
        match run P L (c_jump C) s with
        | Goto pc t =>
            if match c_tramp C with [] => false | _ => pc =? L "trampoline"%string end
            then run P L (c_tramp C) t else Goto pc t
        | o => o
        end
    end.

  (** a state in which jump or ontop may be called: the stack pointer is
      aligned, there is room for the frame, and the caller is not the stub *)
  Definition call_ok (s : mst) : Prop :=
    wf P s /\ c_frame C <= sp s /\ sp s + ab_up B < space P /\
    (sp s + ab_bias B) mod ab_align B = 0 /\ ret_addr s <> L "trampoline"%string.

  (** the stack space the call in state [s] uses *)
  Definition own_len : Z := c_frame C + ab_up B.

  (** a state in which make_fcontext may be called *)
  Definition make_ok (s : mst) : Prop :=
    wf P s /\ c_mkscr C <= sp s /\ sp s + ab_up B < space P /\ c_need C <= mk_top s < space P /\
    disj (sp s - c_mkscr C) (c_mkscr C + ab_up B) (mk_top s - c_need C) (c_need C).

  Inductive origin :=
  | Made (s : mst)          (* by make_fcontext, called in state s *)
  | Susp (s : mst).         (* by calling jump or ontop in state s *)

  (** the caller's frame does not overlap the target's context data and the
      target's result object *)
  Definition apart (s : mst) (h : Z) (o : origin) : Prop :=
    match o with
    | Made _ => disj (handle s) own_len h (c_size C)
    | Susp s1 =>
        disj (handle s) own_len h own_len /\
        match hidden s1 with
        | None => True
        | Some H => 0 < H /\ H + 2 * cwb P <= space P /\
                    disj H (2 * cwb P) (handle s) own_len /\ disj H (2 * cwb P) h own_len
        end
    end.

  (** [context m h o]: in memory [m], [h] is the handle of a context with
      origin [o], that is, its context data is still as it was created. *)
  Inductive context : (Z -> Z) -> Z -> origin -> Prop :=
  | ctx_made s pc t m :
      make_ok s -> run P L (c_make C) s = Goto pc t ->
      (forall a, rg t (ab_mkres B) <= a < rg t (ab_mkres B) + c_size C -> m a = mm t a) ->
      context m (rg t (ab_mkres B)) (Made s)
  | ctx_susp s k o pc t m :
      call_ok s -> context (mm s) (arg_to s) o -> apart s (arg_to s) o ->
      (k = Ontop -> exists s', o = Susp s') ->
      switch k s = Goto pc t ->
      (forall a, handle s <= a < handle s + own_len -> m a = mm t a) ->
      context m (handle s) (Susp s).

  (** the words of memory a switch from [s] to a context may change *)
  Definition untouched (s : mst) (h : Z) (o : origin) (k : how) (a : Z) : Prop :=
    ~ (handle s <= a < sp s + ab_wr B) /\
    match o with
    | Made _ => ~ (h <= a < h + c_size C)
    | Susp s1 =>
        match hidden s1 with
        | None => True
        | Some H => ~ (H <= a < H + 2 * cwb P)
        end /\
        (k = Ontop -> ~ (h <= a < h + own_len))
    end.

  (** "[t] is the state after the call in state [s] returned": the return
      address is reached with the stack popped and the saved registers intact *)
  Definition returned (s : mst) (o : outcome) (t : mst) : Prop :=
    o = Goto (ret_addr s) t /\ sp t = sp s + ab_pop B /\
    (forall r, In r (ab_saved B) -> rg t r = rg s r).
End Spec.

