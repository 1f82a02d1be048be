(** * Windows fibers: the calls of the operating system made by fiber_winfib.hpp

    include/boost/context/fiber_winfib.hpp (line numbers below are of that file; continuation_winfib.hpp has
    the same calls) is the ucontext implementation with swapcontext() replaced by SwitchToFiber() and
    makecontext() by CreateFiber(): resume(), resume_with(), run(), ~fiber() and deallocate() have the
    same statements in the same order.  So its histories are the histories of Uctx.v in which no construction
    fails after the stack was allocated (there is no getcontext() that could report an error,
    L244-277).  This file adds a machine that consumes such a history and makes the calls of the operating
    system.

    The operating system is part of the environment; its functions are modelled after the documentation of
    the Windows API.  A call whose outcome the documentation leaves undefined, or that kills a thread, is [None].
    CreateFiber() allocates a stack of its own; the stack given by the stack allocator only holds the
    activation record. *)
From Coq Require Import List Arith Bool.
From Verif Require Import Uctx UctxSpec.
Import ListNotations.

Record os := mk_os {
  o_cur : nat -> option nat;     (* the fiber a thread executes; None: not converted to a fiber *)
  o_live : nat -> bool }.        (* the fiber exists *)

Record wst := mk_w {
  w_os : os;
  w_fib : nat -> option nat;     (* member [fiber] of the record of a context L66; None = nullptr *)
  w_rec : nat -> option nat;     (* fib_current_rec of a thread, src/fiber.cpp L24; None: initializer has not run *)
  w_del : list nat }.            (* fibers deleted, newest first *)

Definition set (A : Type) (f : nat -> A) (i : nat) (x : A) (j : nat) : A := if Nat.eqb j i then x else f j.
Arguments set {A}.

(** what happens: an event of the run, or thread t ends: its thread_local objects are destroyed *)
Inductive witem := WEv (e : event) | WEnd (t : nat).

Section Win.
  Variable n : nat.                  (* number of threads *)
  Variable pre : nat -> bool.        (* the thread was a fiber before it used the library *)
  Variable conv_ok : nat -> bool.    (* ConvertThreadToFiber() succeeds on thread t *)
  Variable create_ok : nat -> bool.  (* CreateFiber() succeeds for context c *)

  (** some thread executes fiber f *)
  Definition busy (o : os) (f : nat) : bool :=
    existsb (fun t => match o_cur o t with Some g => Nat.eqb g f | None => false end) (seq 0 n).

  (** ConvertThreadToFiber(): the fiber, called t here; nullptr if this fails.  Called if the thread is not a fiber. *)
  Definition convert_thread (o : os) (t : nat) : os * option nat :=
    if conv_ok t then (mk_os (set (o_cur o) t (Some t)) (set (o_live o) t true), Some t) else (o, None).
  (** ConvertFiberToThread(): the thread is no fiber any more; fails, without effect, if it was none. *)
  Definition convert_fiber (o : os) (t : nat) : os :=
    match o_cur o t with
    | Some f => mk_os (set (o_cur o) t None) (set (o_live o) f false)
    | None => o
    end.
  (** CreateFiber(): a new fiber, called c; or nullptr *)
  Definition create (o : os) (c : nat) : os * option nat :=
    if create_ok c then (mk_os (o_cur o) (set (o_live o) c true), Some c) else (o, None).
  (** SwitchToFiber(): undefined unless the thread is a fiber, the target exists and no thread executes it *)
  Definition switch_to (o : os) (t : nat) (p : option nat) : option os :=
    match o_cur o t, p with
    | Some _, Some f => if o_live o f && negb (busy o f) then Some (mk_os (set (o_cur o) t (Some f)) (o_live o)) else None
    | _, _ => None
    end.
  (** DeleteFiber(): ends the thread that executes the fiber; undefined if there is no such fiber *)
  Definition delete (o : os) (p : option nat) : option os :=
    match p with
    | Some f => if o_live o f && negb (busy o f) then Some (mk_os (o_cur o) (set (o_live o) f false)) else None
    | None => None
    end.

  (** current() (src/fiber.cpp L45-50): the first call on a thread runs the initializer L28-32, which creates the
      record of the main context: constructor L78-94 of fiber_winfib.hpp.  (The counter of
      src/fiber.cpp is 0 before and 1 after: there is one initializer per thread.)  Both variants of the
      constructor are the same: a fiber is taken as it is, another thread is converted. *)
  Definition current (w : wst) (t : nat) : wst :=
    match w_rec w t with
    | Some _ => w
    | None =>
        match o_cur (w_os w) t with
        | Some f => mk_w (w_os w) (set (w_fib w) t (Some f)) (set (w_rec w) t (Some t)) (w_del w)
        | None =>
            let (o, p) := convert_thread (w_os w) t in
            mk_w o (set (w_fib w) t p) (set (w_rec w) t (Some t)) (w_del w)
        end
    end.

  Definition wstep (w : wst) (i : witem) : option wst :=
    match i with
    | WEv (EvAlloc c _) =>        (* create_fiber1 L244-259, create_fiber2 L262-277 *)
        let (o, p) := create (w_os w) c in
        Some (mk_w o (set (w_fib w) c p) (w_rec w) (w_del w))
    | WEv (EvFail _) => None      (* cannot happen *)
    | WEv (EvSwitch t _ d _) =>   (* resume L116-130, resume_with L133-176 *)
        let w := current w t in
        match switch_to (w_os w) t (w_fib w d) with
        | Some o => Some (mk_w o (w_fib w) (set (w_rec w) t (Some d)) (w_del w))
        | None => None
        end
    | WEv (EvFree d _ _) =>       (* destroy L200-207, destructor L101-107 *)
        match delete (w_os w) (w_fib w d) with
        | Some o => Some (mk_w o (w_fib w) (w_rec w) (match w_fib w d with Some f => f :: w_del w | None => w_del w end))
        | None => None
        end
    | WEv _ => Some w
    | WEnd t =>                   (* src/fiber.cpp L34-39, destructor L101-107 of fiber_winfib.hpp *)
        match w_rec w t with
        | None => Some w
        | Some c => if Nat.ltb c n then Some (mk_w (convert_fiber (w_os w) t) (w_fib w) (w_rec w) (w_del w)) else None
        end
    end.

  Definition winit : wst :=
    mk_w (mk_os (fun t => if pre t then Some t else None) (fun t => Nat.ltb t n && pre t))
         (fun _ => None) (fun _ => None) [].

  (** items newest first *)
  Fixpoint wins (l : list witem) : option wst :=
    match l with
    | [] => Some winit
    | i :: old => match wins old with Some w => wstep w i | None => None end
    end.
End Win.

(* ------------------------------------------------------------------ specification *)

Fixpoint wevents (l : list witem) : list event :=
  match l with [] => [] | WEv e :: old => e :: wevents old | WEnd _ :: old => wevents old end.
(** thread t has called a function of the library that switches *)
Definition used (tr : list event) (t : nat) : Prop := exists c d k, In (EvSwitch t c d k) tr.
Definition ended (l : list witem) (t : nat) : Prop := In (WEnd t) l.
(** A thread ends once, in the context it was started in, and does nothing afterwards. *)
Fixpoint ends_ok (n : nat) (l : list witem) : Prop :=
  match l with
  | [] => True
  | WEnd t :: old => ends_ok n old /\ t < n /\ ~ ended old t /\ running (wevents old) t = t
  | WEv (EvSwitch t _ _ _) :: old => ends_ok n old /\ ~ ended old t
  | _ :: old => ends_ok n old
  end.
