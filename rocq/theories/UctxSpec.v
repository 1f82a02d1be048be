(** * Specification vocabulary for the ucontext implementation

    Predicates on histories of observable events (newest first); no function of the machine is used. *)
From Coq Require Import List Arith Bool.
From Verif Require Import Uctx.
Import ListNotations.

(** P holds of every event of the history, given the events before it *)
Definition always (P : event -> list event -> Prop) (tr : list event) : Prop :=
  forall new e old, tr = new ++ e :: old -> P e old.

(** the context-function of c has been invoked / has been left *)
Definition entered (tr : list event) (c : nat) : Prop := exists r, In (EvEnter c r) tr.
Definition done (tr : list event) (c : nat) : Prop := exists r, In (EvDone c r) tr.
(** a destructor has asked context c to unwind *)
Definition unwound (tr : list event) (c : nat) : Prop := exists t from, In (EvSwitch t from c SwUnwind) tr.
Definition freed (tr : list event) (c : nat) : Prop := exists a on, In (EvFree c a on) tr.

(** The context that thread t executes (thread t starts in its main context, which has number t). *)
Fixpoint running (tr : list event) (t : nat) : nat :=
  match tr with
  | [] => t
  | EvSwitch t' _ to _ :: old => if Nat.eqb t' t then to else running old t
  | _ :: old => running old t
  end.

(** Injected functions being executed on c, innermost first. *)
Fixpoint injected (tr : list event) (c : nat) : list nat :=
  match tr with
  | [] => []
  | EvOntop c' g _ :: old => if Nat.eqb c' c then g :: injected old c else injected old c
  | EvOntopRet c' _ _ :: old | EvOntopExn c' _ _ :: old => if Nat.eqb c' c then tl (injected old c) else injected old c
  | _ :: old => injected old c
  end.

(** ** Well-behaved users

    The implementation differs from the fcontext one, and from the documentation, if a fiber is
    destroyed before it was started, if a context that is being unwound resumes a fiber, or if a
    finished context is resumed (operator bool is false).  [calm]: none of this happens.  The
    theorems named _refuted show that each clause is needed. *)
Definition calm_ev (e : event) (old : list event) : Prop :=
  match e with
  | EvSwitch _ from to k =>
      match k with
      | SwUnwind => entered old to
      | SwJump | SwOntop _ => ~ unwound old from /\ ~ done old to
      | SwExit => ~ done old to
      end
  | _ => True
  end.
Definition calm (tr : list event) : Prop := always calm_ev tr.

(** a main context: one that has no stack of its own *)
Definition main_ctx (tr : list event) (c : nat) : Prop := forall a, ~ In (EvAlloc c a) tr.

(** In addition: functions are injected only into started contexts, and they neither throw nor switch
    (nor destroy a fiber that is not finished). *)
Definition calm_inject_ev (e : event) (old : list event) : Prop :=
  match e with
  | EvSwitch _ from to k =>
      injected old from = [] /\ match k with SwOntop _ => entered old to \/ main_ctx old to | _ => True end
  | EvOntopExn _ _ _ => False
  | _ => True
  end.
Definition calm_inject (tr : list event) : Prop := always calm_inject_ev tr.

(* ------------------------------------------------------------------ records and stacks *)

(** Life of an activation record and its stack: freed at most once, with the allocator it came from,
    after its context finished (or when its construction failed), by code running on another
    context; nothing executes on it afterwards. *)
Definition executes (e : event) (c : nat) : Prop :=
  match e with
  | EvEnter c' _ | EvOntop c' _ _ | EvOntopRet c' _ _ | EvOntopExn c' _ _
  | EvThrow c' _ | EvResumed c' _ | EvRaised c' _ | EvDestroyed c' | EvDone c' _ => c' = c
  | EvFree _ _ on => on = c
  | EvSwitch _ from to _ => from = c \/ to = c
  | EvCtor (OnCtx c') _ => c' = c
  | EvDtor (OnCtx c') _ => c' = c
  | _ => False
  end.
Definition release_rule (e : event) (old : list event) : Prop :=
  (forall c, freed old c -> ~ executes e c) /\
  match e with
  | EvFree c a on =>
      In (EvAlloc c a) old /\ ~ freed old c /\ on <> c /\ (done old c \/ In (EvFail c) old)
  | _ => True
  end.

(* ------------------------------------------------------------------ switches *)

Definition actor (e : event) : option nat :=
  match e with
  | EvEnter c _ | EvOntop c _ _ | EvOntopRet c _ _ | EvOntopExn c _ _ | EvThrow c _ | EvResumed c _
  | EvRaised c _ | EvDestroyed c | EvDone c _ | EvFree _ _ c => Some c
  | _ => None
  end.
(** With n threads: a switch leaves the context its thread was executing, for one that no thread
    executes; code only runs on contexts that some thread executes. *)
Definition thread_rule (n : nat) (e : event) (old : list event) : Prop :=
  match e with
  | EvSwitch t from to k => t < n /\ running old t = from /\ forall t', t' < n -> running old t' <> to
  | _ => True
  end /\
  forall c, actor e = Some c -> exists t, t < n /\ running old t = c.

(** What happens directly after a switch.  resume(): the suspended call of the target returns a handle to
    the switching context, or the target's context-function is invoked with it; ~fiber(): the suspended
    call throws the unwind request; resume_with(g): g is invoked on the target with that handle; end of a
    context: the suspended call returns a handle to the finished context, the context-function is
    invoked with it, or the destructor that asked for it continues. *)
Definition next_rule (e : event) (old : list event) : Prop :=
  match hd_error old with
  | Some (EvSwitch _ from to SwJump) => e = EvResumed to (Some from) \/ e = EvEnter to (Some from)
  | Some (EvSwitch _ from to SwUnwind) => e = EvRaised to (XForced (Some from))
  | Some (EvSwitch _ from to (SwOntop g)) => e = EvOntop to g (Some from)
  | Some (EvSwitch _ from to SwExit) =>
      e = EvResumed to (Some from) \/ e = EvEnter to (Some from) \/ (e = EvDestroyed to /\ unwound old from)
  | _ => True
  end.

(** An injected function runs because of exactly one resume_with, directly after its switch. *)
Definition ontop_rule (e : event) (old : list event) : Prop :=
  match e with
  | EvOntop c g me => exists t from, hd_error old = Some (EvSwitch t from c (SwOntop g)) /\ me = Some from
  | EvOntopRet c g _ | EvOntopExn c g _ => hd_error (injected old c) = Some g
  | _ => True
  end.

(* ---- counting *)
Definition is_ontop (c g : nat) (e : event) : bool :=
  match e with EvOntop c' g' _ => Nat.eqb c' c && Nat.eqb g' g | _ => false end.
Definition is_inject (c g : nat) (e : event) : bool :=
  match e with EvSwitch _ _ c' (SwOntop g') => Nat.eqb c' c && Nat.eqb g' g | _ => false end.
(** how often injected function g was invoked on c / passed to resume_with for c *)
Definition invocations (tr : list event) (c g : nat) : nat := length (filter (is_ontop c g) tr).
Definition injections (tr : list event) (c g : nat) : nat := length (filter (is_inject c g) tr).

(** Entered at most once, and by a switch of resume() or resume_with(); left at most once, and only after it
    was entered. *)
Definition life_rule (e : event) (old : list event) : Prop :=
  match e with
  | EvEnter c _ => ~ entered old c /\ exists t from k, hd_error old = Some (EvSwitch t from c k) /\ k <> SwUnwind
  | EvDone c _ => ~ done old c /\ entered old c
  | EvSwitch _ from to SwExit => In (EvDone from (Some to)) old
  | _ => True
  end.

(* ------------------------------------------------------------------ handles *)

Definition opt_list {A} (x : option A) : list A := match x with Some a => [a] | None => [] end.
Definition exn_handles (e : exn) : list nat := match e with XForced p => opt_list p | XUser _ => [] end.
(** The handles that exist in a state: values of live fiber objects, return values and unwind requests
    on their way, and those the library holds while it finishes or releases a context. *)
Definition frame_handles (f : frame) : list nat :=
  match f with
  | FU u => match uf_mode u with
            | MRet r => opt_list r
            | MLand e | MUnw e => exn_handles e
            | MRun => []
            end ++ match uf_caught u with Some e => exn_handles e | None => [] end
  | FFin r | FTmp r => opt_list r
  | FRel d _ => [d]
  | _ => []
  end.
Definition var_handles (v : var) : list nat := match v with VLive _ (Some h) => [h] | _ => [] end.
Definition handles (s : state) : list nat :=
  flat_map (fun x => flat_map frame_handles (r_frames x)) (s_rec s) ++ flat_map var_handles (s_vars s).

(* ------------------------------------------------------------------ objects *)

(** objects living on the stack of c (including those of its function object), last constructed first *)
Fixpoint stack_objs (tr : list event) (c : nat) : list obj :=
  match tr with
  | [] => []
  | EvCtor (OnCtx c') o :: old => if Nat.eqb c' c then o :: stack_objs old c else stack_objs old c
  | EvDtor (OnCtx c') o :: old => if Nat.eqb c' c then tl (stack_objs old c) else stack_objs old c
  | _ :: old => stack_objs old c
  end.

(** Objects: constructed once, destroyed at most once; those on a stack in reverse order of
    construction, and all of them before the stack is freed. *)
Definition object_rule (e : event) (old : list event) : Prop :=
  match e with
  | EvCtor p o => forall p', ~ In (EvCtor p' o) old
  | EvDtor (OnCtx c) o =>
      hd_error (stack_objs old c) = Some o /\ In (EvCtor (OnCtx c) o) old /\ (forall p, ~ In (EvDtor p o) old)
  | EvDtor OnHeap o => In (EvCtor OnHeap o) old /\ (forall p, ~ In (EvDtor p o) old)
  | EvFree c _ _ =>
      stack_objs old c = [] /\ forall o, In (EvCtor (OnCtx c) o) old -> In (EvDtor (OnCtx c) o) old
  | _ => True
  end.

(* ------------------------------------------------------------------ results of calls, exceptions *)

(** where an exception that is seen on context c comes from: thrown by code running on c, or the
    unwind request of a destructor for c *)
Definition origin (tr : list event) (c : nat) (e : exn) : Prop :=
  match e with
  | XUser e => In (EvThrow c e) tr
  | XForced p => exists t m, p = Some m /\ In (EvSwitch t m c SwUnwind) tr
  end.

(** How a suspended call ends: it returns a handle to the context that switched to it (by resume() or
    by finishing), directly after that switch, or what the injected function returned, directly after
    that; it throws the unwind request of the destructor that switched to it, or what the injected
    function threw; and a destructor continues directly after the context it asked to unwind has
    finished. *)
Definition result_rule (e : event) (old : list event) : Prop :=
  match e with
  | EvResumed c r =>
      (exists t from k, hd_error old = Some (EvSwitch t from c k) /\ (k = SwJump \/ k = SwExit) /\ r = Some from) \/
      (exists g, hd_error old = Some (EvOntopRet c g r))
  | EvRaised c x =>
      (exists t from, hd_error old = Some (EvSwitch t from c SwUnwind) /\ x = XForced (Some from)) \/
      (exists g, hd_error old = Some (EvOntopExn c g x))
  | EvDestroyed c =>
      exists t from, hd_error old = Some (EvSwitch t from c SwExit) /\ exists t', In (EvSwitch t' c from SwUnwind) old
  | _ => True
  end /\
  match hd_error old with
  | Some (EvOntopRet c g r) => e = EvResumed c r
  | Some (EvOntopExn c g x) => e = EvRaised c x
  | _ => True
  end.
(** Exceptions do not cross contexts; a context that was asked to unwind finishes by switching to the
    destructor that asked. *)
Definition exn_rule (e : event) (old : list event) : Prop :=
  match e with
  | EvRaised c x | EvOntopExn c _ x => origin old c x
  | EvDone c r => unwound old c -> exists t m, r = Some m /\ In (EvSwitch t m c SwUnwind) old
  | _ => True
  end.
