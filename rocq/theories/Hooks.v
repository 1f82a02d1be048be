(** * Sanitizer and split-stack hooks of the ucontext implementation

    include/boost/context/fiber_ucontext.hpp (line numbers below are of that file; continuation_ucontext.hpp
    has the same hooks) informs AddressSanitizer and ThreadSanitizer about every context switch, and
    saves and restores the split-stack state.  The hooks do not influence control flow, so they are
    modelled as a machine that consumes the history of a run of Uctx.v, with which user activities that
    concern the hooks are interleaved.

    The runtime libraries are part of the environment.  Their functions are modelled after the documented
    behaviour: sanitizer/common_interface_defs.h (__sanitizer_start_switch_fiber,
    __sanitizer_finish_switch_fiber), sanitizer/tsan_interface.h, libgcc's generic-morestack. *)
From Coq Require Import List Arith Bool ZArith.
From Verif Require Import Uctx UctxSpec.
Import ListNotations.

(* ------------------------------------------------------------------ AddressSanitizer, per thread *)

Record asan := mk_a {
  a_stack : Z * Z;              (* bottom and size of the stack ASan believes the thread runs on *)
  a_next : option (Z * Z);      (* announced stack, while a switch is under way *)
  a_fake : option nat }.        (* the fake stack (storage of use-after-return checks) in use *)

(** __sanitizer_start_switch_fiber( save, bottom, size): an error if a switch is under way.  The current
    fake stack is stored in *save, or destroyed if save is nullptr; none is in use afterwards. *)
Definition start_switch (a : asan) (target : Z * Z) : option asan :=
  match a_next a with
  | Some _ => None
  | None => Some (mk_a (a_stack a) (Some target) None)
  end.
(** __sanitizer_finish_switch_fiber( saved, bottom_old, size_old): an error if no switch is under way.  The
    given fake stack, unless it is nullptr, becomes the current one; the old bounds are stored. *)
Definition finish_switch (a : asan) (saved : option nat) : option (asan * (Z * Z)) :=
  match a_next a with
  | None => None
  | Some b => Some (mk_a b None (match saved with Some f => Some f | None => a_fake a end), a_stack a)
  end.

(* ------------------------------------------------------------------ threads and records *)

Record thr := mk_t {
  t_asan : asan;
  t_tsan : option nat;      (* ThreadSanitizer's current fiber; None = nullptr *)
  t_seg : nat }.            (* contents of the thread's split-stack state *)

(** members of fiber_activation_record: fake_stack, stack_bottom, stack_size L92-96, tsan_fiber L99,
    sctx.segments_ctx, terminated L90.  The fiber that __tsan_create_fiber returns for context c is
    called c, that of thread t's main context t. *)
Record hrec := mk_h {
  h_fake : option nat;
  h_stack : Z * Z;
  h_fiber : option nat;
  h_seg : nat;
  h_term : bool }.

Record hst := mk_hs {
  s_t : nat -> thr;
  s_c : nat -> hrec;
  s_gone : list nat;                  (* fake stacks destroyed *)
  s_unfib : list (option nat);        (* arguments of __tsan_destroy_fiber, newest first *)
  s_unseg : list (nat * nat) }.       (* contexts deallocated and the segments_ctx given to deallocate() *)

Definition put {A} (f : nat -> A) (i : nat) (x : A) (j : nat) : A := if Nat.eqb j i then x else f j.

(** what the hooks see: an event of the run, or an activity of the user code that thread t executes: ASan
    creates fake stack f if none is in use; the split stack grows or shrinks (new contents v) *)
Inductive item := IEv (e : event) | IFake (t f : nat) | ISeg (t v : nat).

Section Hooks.
  Variable B : nat -> Z * Z.     (* the stacks of the contexts: bottom and size *)
  Variable seg0 : nat -> nat.    (* initial split-stack contents: __splitstack_makecontext in segmented_stack::allocate *)

  (** create_fiber1 L342-348 / create_fiber2 L391-397; the members are initialised to null L93-95, L99 first and
      set after getcontext() succeeded: [EvFail] below takes this back *)
  Definition new_rec (c : nat) : hrec := mk_h None (B c) (Some c) (seg0 c) false.
  Definition fail_rec (x : hrec) : hrec := mk_h (h_fake x) (0%Z, 0%Z) None (h_seg x) (h_term x).

  (** resume L146-166, resume_with L210-228, run L279-283; [c] leaves, [d] arrives on thread t.
      L149: [terminated] is the flag of d.  For ~fiber it is false, tested just before, L459. *)
  Definition hswitch (s : hst) (t c d : nat) (k : swk) : option hst :=
    let th := s_t s t in
    (* run L300 *)
    let xc := s_c s c in
    let xc := match k with SwExit => mk_h (h_fake xc) (h_stack xc) (h_fiber xc) (h_seg xc) true | _ => xc end in
    let xd := s_c s d in
    (* L146-147, L212-213 *)
    let xc := mk_h (h_fake xc) (h_stack xc) (h_fiber xc) (t_seg th) (h_term xc) in
    let seg := h_seg xd in
    (* L149-153, L216 *)
    let kill := match k with SwOntop _ | SwUnwind => false | _ => h_term xd end in
    let xc := if kill then xc else mk_h (a_fake (t_asan th)) (h_stack xc) (h_fiber xc) (h_seg xc) (h_term xc) in
    let gone := if kill then match a_fake (t_asan th) with Some f => [f] | None => [] end else [] in
    match start_switch (t_asan th) (h_stack xd) with
    | None => None
    | Some a1 =>
        (* L156, L219 *)
        let fib := h_fiber xd in
        (* L162-164, L225-227, L280-282: current() = d, current()->from = c *)
        match finish_switch a1 (h_fake xd) with
        | None => None
        | Some (a2, old) =>
            let xc := mk_h (h_fake xc) old (h_fiber xc) (h_seg xc) (h_term xc) in
            Some (mk_hs (put (s_t s) t (mk_t a2 fib seg)) (put (s_c s) c xc) (gone ++ s_gone s) (s_unfib s) (s_unseg s))
        end
    end.

  Definition hook (s : hst) (i : item) : option hst :=
    match i with
    | IEv (EvAlloc c _) => Some (mk_hs (s_t s) (put (s_c s) c (new_rec c)) (s_gone s) (s_unfib s) (s_unseg s))
    | IEv (EvFail c) => Some (mk_hs (s_t s) (put (s_c s) c (fail_rec (s_c s c))) (s_gone s) (s_unfib s) (s_unseg s))
    | IEv (EvSwitch t c d k) => hswitch s t c d k
    | IEv (EvFree d _ _) =>      (* destroy L258-265, create_fiber1 L323-324: ~fiber_activation_record L125-130, then deallocate *)
        Some (mk_hs (s_t s) (s_c s) (s_gone s) (h_fiber (s_c s d) :: s_unfib s) ((d, h_seg (s_c s d)) :: s_unseg s))
    | IEv _ => Some s
    | IFake t f =>
        let th := s_t s t in
        let a := t_asan th in
        let a' := mk_a (a_stack a) (a_next a) (match a_fake a with Some g => Some g | None => Some f end) in
        Some (mk_hs (put (s_t s) t (mk_t a' (t_tsan th) (t_seg th))) (s_c s) (s_gone s) (s_unfib s) (s_unseg s))
    | ISeg t v =>
        let th := s_t s t in
        Some (mk_hs (put (s_t s) t (mk_t (t_asan th) (t_tsan th) v)) (s_c s) (s_gone s) (s_unfib s) (s_unseg s))
    end.

  (** Threads start on their own stacks; the record of a main context L107-120 knows the thread's TSan
      fiber, but not its stack *)
  Definition hinit : hst :=
    mk_hs (fun t => mk_t (mk_a (B t) None None) (Some t) (seg0 t))
          (fun c => mk_h None (0%Z, 0%Z) (Some c) 0 false) [] [] [].

  (** items newest first *)
  Fixpoint hooks (l : list item) : option hst :=
    match l with
    | [] => Some hinit
    | i :: old => match hooks old with Some s => hook s i | None => None end
    end.
End Hooks.

(* ------------------------------------------------------------------ specification *)

(** the history of the run *)
Fixpoint events (l : list item) : list event :=
  match l with [] => [] | IEv e :: old => e :: events old | _ :: old => events old end.
(** user activities happen on the n threads *)
Definition items_ok (n : nat) (l : list item) : Prop :=
  forall i, In i l -> match i with IFake t _ | ISeg t _ => t < n | IEv _ => True end.

(** Every context has a private fake stack: the first one that was created by code running on it. *)
Fixpoint own_fake (l : list item) (c : nat) : option nat :=
  match l with
  | [] => None
  | IFake t f :: old =>
      if Nat.eqb (running (events old) t) c then match own_fake old c with Some g => Some g | None => Some f end
      else own_fake old c
  | _ :: old => own_fake old c
  end.
(** Every context has private split-stack contents: what code running on it made of the initial ones. *)
Fixpoint own_seg (seg0 : nat -> nat) (l : list item) (c : nat) : nat :=
  match l with
  | [] => seg0 c
  | ISeg t v :: old => if Nat.eqb (running (events old) t) c then v else own_seg seg0 old c
  | _ :: old => own_seg seg0 old c
  end.
