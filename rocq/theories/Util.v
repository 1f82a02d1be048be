(** * Utilities: Schwarz counter, prefetch_range, exchange, tuple head/tail, apply, invoke,
      disable_overload, split pointers

    Models src/fiber.cpp (src/continuation.cpp is the same text with other names), and the headers
    include/boost/context/detail/{prefetch,config,exchange,tuple,index_sequence,apply,invoke,disable_overload}.hpp,
    fiber_ucontext.hpp L70-74 and L338-343, src/asm/jump_x86_64_sysv_elf_gas.S L125-140 (ILP32). *)
From Coq Require Import ZArith List Bool Arith Lia.
From Verif Require Import ListUtil Word.
Import ListNotations.
Open Scope nat_scope.

(* ------------------------------------------------------------------ Schwarz counter *)

(** One thread: [counter] L25 (std::size_t of width b), [fib_current_rec] L24, and the heap of
    activation records: records are numbered in the order of their creation; each is a main-context
    record (made by the default constructor) or the record of a fiber (made by create_fiber1). *)
Record sc := mk_sc {
  sc_counter : Z;
  sc_cur : option nat;                   (* fib_current_rec: None = zero-initialized *)
  sc_heap : list (bool * bool) }.        (* record number i: (is main-context record, not yet deleted) *)

Inductive sc_op :=
| ScCtor                    (* fiber_activation_record_initializer() L28-32 *)
| ScDtor                    (* ~fiber_activation_record_initializer() L34-39 *)
| ScNewFiber                (* create_fiber1: a record that is not a main context *)
| ScSwitch (r : nat).       (* resume(): current() = r, fiber_ucontext.hpp L140-144 *)

Inductive sc_out := ScNext (s : sc) | ScAssert | ScBad.   (* ScBad: null or dangling pointer dereferenced *)

Definition sc_init : sc := mk_sc 0%Z None [].

Definition sc_step (b : Z) (s : sc) (o : sc_op) : sc_out :=
  match o with
  | ScCtor =>
      let c := sc_counter s in
      let c' := wadd b c 1 in                                                          (* counter++ L29 *)
      if Z.eqb c 0
      then ScNext (mk_sc c' (Some (length (sc_heap s))) (sc_heap s ++ [(true, true)])) (* L30 *)
      else ScNext (mk_sc c' (sc_cur s) (sc_heap s))
  | ScDtor =>
      let c' := wsub b (sc_counter s) 1 in                                             (* --counter L35 *)
      if Z.eqb c' 0 then
        match sc_cur s with
        | None => ScBad
        | Some r =>
            match nth_error (sc_heap s) r with
            | Some (m, true) =>
                if m then ScNext (mk_sc c' (Some r) (upd (sc_heap s) r (m, false)))    (* L37; the pointer is not reset *)
                else ScAssert                                                          (* L36 *)
            | _ => ScBad
            end
        end
      else ScNext (mk_sc c' (sc_cur s) (sc_heap s))
  | ScNewFiber => ScNext (mk_sc (sc_counter s) (sc_cur s) (sc_heap s ++ [(false, true)]))
  | ScSwitch r =>
      match nth_error (sc_heap s) r with
      | Some (_, true) => ScNext (mk_sc (sc_counter s) (Some r) (sc_heap s))
      | _ => ScBad
      end
  end.

Fixpoint sc_run (b : Z) (s : sc) (l : list sc_op) : sc_out :=
  match l with
  | [] => ScNext s
  | o :: r => match sc_step b s o with ScNext s' => sc_run b s' r | x => x end
  end.

(* ------------------------------------------------------------------ prefetch_range *)

(** config.hpp L117, L119 *)
Definition cacheline_length : Z := 64.
Definition prefetch_stride : Z := 4 * cacheline_length.

(** the loop L62-66 started at vp touches exactly the addresses of the list, in that order, and stops *)
Inductive prefetches (b : Z) (fin : Z) : Z -> list Z -> Prop :=
| pf_stop vp : ~ (vp < fin)%Z -> prefetches b fin vp []
| pf_more vp l : (vp < fin)%Z -> prefetches b fin (wadd b vp prefetch_stride) l -> prefetches b fin vp (vp :: l).

(** prefetch_range L57-68; pointers compare as unsigned integers *)
Definition prefetch_range (b addr len : Z) (l : list Z) : Prop := prefetches b (wadd b addr len) addr l.

(* ------------------------------------------------------------------ exchange *)

(** Objects live in a store; [moved v] is the value an object is left with when v is moved out of it. *)
Section Exchange.
  Context {V : Type} (moved : V -> V).
  Definition store := nat -> V.
  Definition st_set (s : store) (l : nat) (v : V) : store := fun k => if Nat.eqb k l then v else s k.
  (** the argument nv: an lvalue, an rvalue reference to an object, or a temporary *)
  Inductive arg := ALval (l : nat) | ARval (l : nat) | ATemp (v : V).
  (** exchange L24-28; [ov] is the value returned *)
  Definition exchange (s : store) (t : nat) (nv : arg) : V * store :=
    let ov := s t in
    let s1 := st_set s t (moved ov) in                       (* T ov = std::move( t) L25 *)
    match nv with                                            (* t = std::forward< U >( nv) L26 *)
    | ALval l => (ov, st_set s1 t (s1 l))
    | ARval l => (ov, st_set (st_set s1 l (moved (s1 l))) t (s1 l))
    | ATemp v => (ov, st_set s1 t v)
    end.
End Exchange.

(* ------------------------------------------------------------------ tuples, apply, invoke *)

(** A tuple is the list of its elements.  [None]: does not compile (static_assert, or std::get out of range). *)
Section Tuples.
  Context {V : Type}.
  Definition get (s : list V) (i : nat) : option V := nth_error s i.
  Fixpoint all {A} (l : list (option A)) : option (list A) :=
    match l with
    | [] => Some []
    | Some a :: r => option_map (cons a) (all r)
    | None :: _ => None
    end.
  (** index_sequence.hpp L31-34 *)
  Definition make_index_sequence (n : nat) : list nat := seq 0 n.
  (** tuple.hpp head_impl L25-37 ; n = sizeof...(T) *)
  Definition head_impl (s : list V) (idx : list nat) : option (list V) := all (map (get s) idx).
  (** tuple.hpp tail_impl L39-53 *)
  Definition tail_impl (s : list V) (i1 i2 : list nat) : option (list V) :=
    let Idx := length i1 - length i2 in all (map (fun i => get s (Idx + i)) i2).
  (** tuple_head::operator= L69-79 *)
  Definition head_assign (n : nat) (s : list V) : option (list V) :=
    if Nat.leb n (length s) then head_impl s (make_index_sequence n) else None.
  (** tuple_tail::operator= L96-107 *)
  Definition tail_assign (n : nat) (s : list V) : option (list V) :=
    if Nat.leb n (length s) then tail_impl s (make_index_sequence (length s)) (make_index_sequence n) else None.
  (** the elements read (moved from, in the && overloads), in order *)
  Definition head_reads (n : nat) : list nat := make_index_sequence n.
  Definition tail_reads (m n : nat) : list nat := map (fun i => (m - n) + i) (make_index_sequence n).

  (** callables: a function, or a pointer to a member (function or data) of class C *)
  Context {R : Type}.
  Inductive callable := CFun (f : list V -> R) | CMem (f : V -> list V -> R).
  (** std::mem_fn: the first argument designates the object; at least one argument *)
  Definition mem_fn (f : V -> list V -> R) (args : list V) : option R :=
    match args with o :: r => Some (f o r) | [] => None end.
  (** invoke.hpp L25-41 *)
  Definition invoke (fn : callable) (args : list V) : option R :=
    match fn with
    | CMem f => mem_fn f args
    | CFun f => Some (f args)
    end.
  (** apply_impl L35-49, apply L51-61 of apply.hpp *)
  Definition apply_impl (fn : callable) (tpl : list V) (idx : list nat) : option R :=
    match all (map (get tpl) idx) with Some args => invoke fn args | None => None end.
  Definition apply (fn : callable) (tpl : list V) : option R :=
    apply_impl fn tpl (make_index_sequence (length tpl)).
End Tuples.

(* ------------------------------------------------------------------ disable_overload *)

(** Types as far as std::decay and std::is_base_of look at them. *)
Inductive ty :=
| TClass (n : nat)               (* class types *)
| TBase (n : nat)                (* fundamental, enumeration, union ... types *)
| TConst (t : ty) | TVolatile (t : ty)
| TPtr (t : ty) | TLref (t : ty) | TRref (t : ty)
| TArray (t : ty) (n : nat)
| TFun (r : ty) (a : list ty).

Definition remove_ref (t : ty) : ty := match t with TLref t | TRref t => t | _ => t end.
Fixpoint remove_cv (t : ty) : ty := match t with TConst t | TVolatile t => remove_cv t | _ => t end.
Definition decay_nonref (t : ty) : ty :=
  match t with
  | TArray u _ => TPtr u
  | TFun r a => TPtr (TFun r a)
  | _ => remove_cv t
  end.
Definition decay (t : ty) : ty := decay_nonref (remove_ref t).
(** direct bases of each class; is_base_of is reflexive on classes and transitive ([meta.rel]) *)
Inductive is_base_of (bases : nat -> list nat) : ty -> ty -> Prop :=
| ib_refl x : is_base_of bases (TClass x) (TClass x)
| ib_step x y z : In y (bases z) -> is_base_of bases (TClass x) (TClass y) -> is_base_of bases (TClass x) (TClass z).
(** disable_overload.hpp L25-32: the overload takes part iff not is_base_of< X, decay< Y > > *)
Definition overload_enabled (bases : nat -> list nat) (X Y : ty) : Prop := ~ is_base_of bases X (decay Y).

(* ------------------------------------------------------------------ split pointers *)

Open Scope Z_scope.
(** fiber_ucontext.hpp L339-343: the two 32-bit arguments of makecontext *)
Definition split_ptr (integer : Z) : Z * Z :=
  (wrap 32 (Z.land (Z.shiftr integer 32) 0xFFFFFFFF), wrap 32 integer).
(** fiber_ucontext.hpp L71-74 *)
Definition join_ptr (data_high data_low : Z) : Z := Z.lor (wrap 64 (Z.shiftl (wrap 64 data_high) 32)) data_low.

(** jump_x86_64_sysv_elf_gas.S L129-132 (_ILP32): salq $32, %rsi; orq %rsi, %rax *)
Definition pack_ilp32 (rax rsi : Z) : Z := Z.lor rax (wrap 64 (Z.shiftl rsi 32)).
(** the C++ caller: a struct of two 32-bit pointers returned (passed) in one register, System V ABI:
    the first member in the low half *)
Definition unpack_ilp32 (r : Z) : Z * Z := (wrap 32 r, wrap 32 (Z.shiftr r 32)).
