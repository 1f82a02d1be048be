(** Specification vocabulary for the fiber properties: predicates on histories of observable events.
    It uses only the event type of Fiber.v, no function of the machine.

    A history is a list of events, newest first. *)
From Coq Require Import List Arith Bool.
From Verif Require Import Fiber.
Import ListNotations.

(** P holds of every event of the history, given the events before it *)
Definition always (P : event -> list event -> Prop) (tr : list event) : Prop :=
  forall new e old, tr = new ++ e :: old -> P e old.

(** P holds of every event of the history, given the events after it (oldest of them last) *)
Definition always_after (P : event -> list event -> Prop) (tr : list event) : Prop :=
  forall new e old, tr = new ++ e :: old -> P e new.

(* ------------------------------------------------------------------ suspensions *)

(** h is the suspension of a context that left its processor by a switch (not by terminating) *)
Definition created (tr : list event) (h : fctx) : Prop :=
  exists t from to k, In (EvSwitch t from h to k) tr /\ k <> SwExit.
(** some switch has continued suspension h *)
Definition consumed (tr : list event) (h : fctx) : Prop :=
  exists t from me k, In (EvSwitch t from me h k) tr.
(** h denotes a context that is suspended and has not been continued since *)
Definition suspended (tr : list event) (h : fctx) : Prop := created tr h /\ ~ consumed tr h.

(** context c has left its stack for good *)
Definition exited (tr : list event) (c : nat) : Prop := exists t me to, In (EvSwitch t c me to SwExit) tr.
(** the stack of c has been deallocated *)
Definition freed (tr : list event) (c : nat) : Prop := exists a on, In (EvFree c a on) tr.
(** the context-function of c has been invoked *)
Definition entered (tr : list event) (c : nat) : Prop := exists r, In (EvEnter c r) tr.

(** the destructor call that became suspension m asked context c to unwind *)
Definition unwinds (tr : list event) (m : fctx) (c : nat) : Prop :=
  exists t from to, In (EvSwitch t from m to SwUnwind) tr /\ fc_ctx to = c.
Definition unwound (tr : list event) (c : nat) : Prop := exists m, unwinds tr m c.

(** the context that thread t executes *)
Fixpoint running (tr : list event) (t : nat) : nat :=
  match tr with
  | [] => t
  | EvSwitch t' _ _ to _ :: old => if Nat.eqb t' t then fc_ctx to else running old t
  | _ :: old => running old t
  end.

(** contexts that take part in an event *)
Definition involves (e : event) (c : nat) : Prop :=
  match e with
  | EvAlloc c' _ | EvRecord c' | EvEnter c' _ | EvOntop c' _ _ | EvOntopRet c' _ _ | EvOntopExn c' _ _
  | EvThrow c' _ | EvResumed c' _ | EvRaised c' _ | EvDestroyed c' | EvDone c' _ => c' = c
  | EvFree c' _ on => c' = c \/ on = c
  | EvSwitch _ from _ to _ => from = c \/ fc_ctx to = c
  | EvCtor (OnCtx c') _ | EvDtor (OnCtx c') _ => c' = c
  | EvCtor OnHeap _ | EvDtor OnHeap _ => False
  end.

(** events that are actions of code executing on the stack of c, or that let such code execute *)
Definition executes (e : event) (c : nat) : Prop :=
  match e with
  | EvEnter c' _ | EvOntop c' _ _ | EvOntopRet c' _ _ | EvOntopExn c' _ _
  | EvThrow c' _ | EvResumed c' _ | EvRaised c' _ | EvDestroyed c' | EvDone c' _ => c' = c
  | EvFree _ _ on => on = c
  | EvSwitch _ from _ to _ => from = c \/ fc_ctx to = c
  | EvCtor (OnCtx c') _ => c' = c
  | _ => False
  end.

(* ------------------------------------------------------------------ suspended calls *)

(** The calls of c that have been suspended and have not returned, innermost first. A switch away
    from c suspends a call; [EvResumed], [EvRaised], [EvDestroyed] and [EvEnter] end one;
    [EvDone]/termination end all. *)
Fixpoint open_calls (tr : list event) (c : nat) : list fctx :=
  match tr with
  | [] => []
  | EvSwitch _ from me _ k :: old =>
      if Nat.eqb from c then match k with SwExit => [] | _ => me :: open_calls old c end
      else open_calls old c
  | EvResumed c' _ :: old | EvRaised c' _ :: old | EvDestroyed c' :: old | EvEnter c' _ :: old =>
      if Nat.eqb c' c then tl (open_calls old c) else open_calls old c
  | EvDone c' _ :: old => if Nat.eqb c' c then [] else open_calls old c
  | _ :: old => open_calls old c
  end.

(** how a suspended call ends: it returns a handle (for [EvEnter]: the context-function gets it), it
    throws, or (a destructor) it just continues *)
Inductive result := Ret (r : hopt) | Exn (e : exn) | Continues.
Definition completes (e : event) : option (nat * result) :=
  match e with
  | EvResumed c r | EvEnter c r => Some (c, Ret r)
  | EvRaised c x => Some (c, Exn x)
  | EvDestroyed c => Some (c, Continues)
  | _ => None
  end.

(* ------------------------------------------------------------------ objects *)

(** objects living on the stack of c (including those of its function object), last constructed first *)
Fixpoint stack_objs (tr : list event) (c : nat) : list obj :=
  match tr with
  | [] => []
  | EvCtor (OnCtx c') o :: old => if Nat.eqb c' c then o :: stack_objs old c else stack_objs old c
  | EvDtor (OnCtx c') o :: old => if Nat.eqb c' c then tl (stack_objs old c) else stack_objs old c
  | _ :: old => stack_objs old c
  end.

(* ------------------------------------------------------------------ injected functions *)

(** injected functions being executed on c, innermost first *)
Fixpoint injected (tr : list event) (c : nat) : list nat :=
  match tr with
  | [] => []
  | EvOntop c' g _ :: old => if Nat.eqb c' c then g :: injected old c else injected old c
  | EvOntopRet c' _ _ :: old | EvOntopExn c' _ _ :: old => if Nat.eqb c' c then tl (injected old c) else injected old c
  | _ :: old => injected old c
  end.

(* ------------------------------------------------------------------ handles *)

(** The handles that exist in a state: values of live fiber objects, return values and exceptions
    on their way, and the values the library itself holds in fiber_entry. *)
Definition exn_handles (e : exn) : list fctx := match e with EForced h => [h] | EUser _ => [] end.
Definition opt_list {A} (x : option A) : list A := match x with Some a => [a] | None => [] end.
Definition frame_handles (f : frame) : list fctx :=
  match f with
  | FU u => match uf_mode u with
            | MRet r => opt_list r
            | MLand e | MUnw e => exn_handles e
            | MRun => []
            end ++ match uf_caught u with Some e => exn_handles e | None => [] end
  | FEntry0 h => [h]
  | FEntry3 r => opt_list r
  | _ => []
  end.
Definition var_handles (v : var) : list fctx := match v with VLive _ (Some h) => [h] | _ => [] end.
Definition handles (s : state) : list fctx :=
  flat_map (fun cx => flat_map frame_handles (cx_frames cx)) (s_ctxs s) ++ flat_map var_handles (s_vars s).

(* ------------------------------------------------------------------ switches *)

Definition is_switch (e : event) : bool := match e with EvSwitch _ _ _ _ _ => true | _ => false end.

(** Switches are one-shot: the suspension that a switch creates is new, and it continues a suspension
    that has not been continued before; that one was created by an earlier switch, except that the
    first switch into a new context starts it. *)
Definition switch_rule (e : event) (old : list event) : Prop :=
  match e with
  | EvSwitch t from me to k =>
      fc_ctx me = from /\ (forall t' c' h' k', ~ In (EvSwitch t' c' me h' k') old) /\ ~ consumed old me /\
      ~ consumed old to /\
      match k with
      | SwCreate => forall e c, In e old -> is_switch e = true -> involves e c -> c <> fc_ctx to
      | _ => created old to
      end
  | _ => True
  end.

(** context whose code performs an event *)
Definition actor (e : event) : option nat :=
  match e with
  | EvEnter c _ | EvOntop c _ _ | EvOntopRet c _ _ | EvOntopExn c _ _ | EvThrow c _ | EvResumed c _
  | EvRaised c _ | EvDestroyed c | EvDone c _ | EvFree _ _ c => Some c
  | _ => None
  end.
(** With n threads: a switch leaves the context that its thread was executing, for one that no thread
    executes; code only runs on contexts that some thread executes. *)
Definition thread_rule (n : nat) (e : event) (old : list event) : Prop :=
  match e with
  | EvSwitch t from me to k => t < n /\ running old t = from /\ forall t', t' < n -> running old t' <> fc_ctx to
  | _ => True
  end /\
  forall c, actor e = Some c -> exists t, t < n /\ running old t = c.

(** What happens directly after a switch. resume(): the suspended call of the target returns a handle
    to the switching context (for a context that has not been started: its context-function is invoked
    with that handle); ~fiber(): the suspended call throws the unwind request (not started: the
    context is left at once); resume_with(g): g is invoked on the target with that handle.
    And after an injected function has ended: the suspended call returns the same handle / throws the
    same exception. After a stack has been freed: the suspended call that the finished context
    switched to returns an empty fiber (a destructor: continues). *)
Definition next_rule (e : event) (old : list event) : Prop :=
  match hd_error old with
  | Some (EvSwitch _ _ me to SwJump) => e = EvResumed (fc_ctx to) (Some me) \/ e = EvEnter (fc_ctx to) (Some me)
  | Some (EvSwitch _ _ me to SwUnwind) => e = EvRaised (fc_ctx to) (EForced me) \/ e = EvDone (fc_ctx to) (Some me)
  | Some (EvSwitch _ _ me to (SwOntop g)) => e = EvOntop (fc_ctx to) g me
  | Some (EvOntopRet c g r) => e = EvResumed c r \/ e = EvEnter c r
  | Some (EvOntopExn c g x) => e = EvRaised c x \/ exists h, x = EForced h /\ e = EvDone c (Some h)
  | Some (EvRecord c) => exists a on, e = EvFree c a on
  | Some (EvFree _ _ on) => e = EvResumed on None \/ e = EvEnter on None \/ e = EvDestroyed on
  | _ => True
  end.
(** the next_rule of the newest event is not pending *)
Definition settled (tr : list event) : Prop :=
  match tr with
  | EvSwitch _ _ _ _ (SwJump | SwUnwind | SwOntop _) :: _ | EvOntopRet _ _ _ :: _ | EvOntopExn _ _ _ :: _
  | EvRecord _ :: _ | EvFree _ _ _ :: _ => False
  | _ => True
  end.

(** An injected function runs because of exactly one resume_with, directly after its switch; injected
    functions on one context end in reverse order. *)
Definition ontop_rule (e : event) (old : list event) : Prop :=
  match e with
  | EvOntop c g me => exists t from to, hd_error old = Some (EvSwitch t from me to (SwOntop g)) /\ fc_ctx to = c
  | EvOntopRet c g _ | EvOntopExn c g _ => hd_error (injected old c) = Some g
  | _ => True
  end.

(* ------------------------------------------------------------------ life of a context-function *)

(** Entered at most once, not after the context was asked to unwind and not after it was left. Left at
    most once; a context that was asked to unwind is left for the destructor that asked; otherwise its
    function has been entered. The only switch away from a finished context is its termination, and goes
    where that says; to a suspended destructor a switch goes only from the context it unwinds. *)
Definition life_rule (e : event) (old : list event) : Prop :=
  match e with
  | EvEnter c _ => ~ entered old c /\ ~ unwound old c /\ (forall r, ~ In (EvDone c r) old)
  | EvDone c r =>
      (forall r', ~ In (EvDone c r') old) /\ (entered old c \/ unwound old c) /\
      (unwound old c -> exists m, r = Some m /\ unwinds old m c)
  | EvSwitch t from me to k =>
      (k = SwExit -> In (EvDone from (Some to)) old) /\
      (forall r, In (EvDone from r) old -> k = SwExit /\ r = Some to) /\
      (forall c, unwinds old to c -> k = SwExit /\ from = c)
  | _ => True
  end.

(** where an exception that is seen on context c comes from *)
Definition origin (tr : list event) (c : nat) (e : exn) : Prop :=
  match e with EUser e => In (EvThrow c e) tr | EForced m => unwinds tr m c end.
(** Exceptions do not cross contexts: a user exception that leaves an injected function or a resume
    call of c was thrown by code running on c; the unwind request belongs to c. *)
Definition exn_rule (e : event) (old : list event) : Prop :=
  match e with
  | EvRaised c x | EvOntopExn c _ x => origin old c x
  | _ => True
  end.

(* ------------------------------------------------------------------ how a suspended call ends *)

(** A suspended call ends exactly as the switch that continued it says. Event e ends the innermost
    suspended call h of context c:
    - h was continued by exactly one switch, from context [from], which became suspension [me];
    - resume():        the call returns a handle to [me], immediately;
    - ~fiber():        the call throws the unwind request, immediately;
    - termination of [from]: the call returns an empty fiber (or, if h is a call of a destructor,
      just continues), immediately after the stack of [from] has been freed;
    - resume_with(g):  the call returns what g returned, or throws what g threw, immediately after g
      ended on c.
    A call continues without a result exactly if it is a destructor's. *)
Definition completion_rule (e : event) (old : list event) : Prop :=
  match completes e with
  | None => True
  | Some (c, res) =>
      exists h o, open_calls old c = h :: o /\
      (exists t1 to1 k1, In (EvSwitch t1 c h to1 k1) old /\ (res = Continues <-> k1 = SwUnwind)) /\
      exists t from me k, In (EvSwitch t from me h k) old /\
      match k with
      | SwCreate => False
      | SwJump => res = Ret (Some me) /\ hd_error old = Some (EvSwitch t from me h k)
      | SwUnwind => res = Exn (EForced me) /\ hd_error old = Some (EvSwitch t from me h k)
      | SwExit => (res = Ret None \/ res = Continues) /\ exists a, hd_error old = Some (EvFree from a c)
      | SwOntop g => (exists r, res = Ret r /\ hd_error old = Some (EvOntopRet c g r)) \/
                     (exists x, res = Exn x /\ hd_error old = Some (EvOntopExn c g x))
      end
  end.

(* ------------------------------------------------------------------ stacks *)

(** Life of a stack: allocated once, for a context that did not exist before; nothing executes on it
    after its context has left it for good; it is freed at most once, with the allocator it came
    from, by code running on the context that was switched to; nothing involves it after that. *)
Definition stack_rule (e : event) (old : list event) : Prop :=
  (forall c, exited old c -> ~ executes e c) /\
  (forall c, freed old c -> ~ involves e c) /\
  match e with
  | EvAlloc c a => forall e', In e' old -> ~ involves e' c
  | EvRecord c => ~ In (EvRecord c) old
  | EvFree c a on =>
      In (EvAlloc c a) old /\ hd_error old = Some (EvRecord c) /\ ~ freed old c /\
      exists t me to, In (EvSwitch t c me to SwExit) old /\ fc_ctx to = on /\ on <> c
  | _ => True
  end.

(** Objects: constructed once, destroyed at most once; those on a stack in reverse order of
    construction, and all of them before the stack is freed. *)
Definition object_rule (e : event) (old : list event) : Prop :=
  match e with
  | EvCtor p o => forall p', ~ In (EvCtor p' o) old
  | EvDtor (OnCtx c) o =>
      hd_error (stack_objs old c) = Some o /\ In (EvCtor (OnCtx c) o) old /\ (forall p, ~ In (EvDtor p o) old)
  | EvDtor OnHeap o => In (EvCtor OnHeap o) old /\ (forall p, ~ In (EvDtor p o) old)
  | EvFree c _ _ =>
      stack_objs old c = [] /\ forall o, In (EvCtor (OnCtx c) o) old -> In (EvDtor (OnCtx c) o) old
  | _ => True
  end.

(* ------------------------------------------------------------------ continuing a suspended call stack *)

(** How the call stack of a suspended context looks right after a switch has continued it (me: the
    suspension of the context that switched, c: that context, v: the fiber object that is created).
    Only the suspended call on top is affected: it returns a new fiber or throws the unwind request
    into its caller; or the context-function is invoked / the context left; or the injected function,
    or the library's release of a finished context, is put on top. *)
Inductive continued (c : nat) (me : fctx) (v : nat) : swk -> list frame -> list frame -> Prop :=
| ct_returns w f rest (Hw : w = FResume \/ (exists g, w = FResumeW g) \/ w = FCreate) :
    continued c me v SwJump (w :: FU f :: rest)
      (FU (mk_uf (uf_kind f) (OFib v :: uf_objs f) (uf_mode f) (uf_caught f)) :: rest)
| ct_starts : continued c me v SwJump [FEntry1] [FU (mk_uf KCtx [OFib v] MRun None); FEntry2]
| ct_throws w f rest (Hw : w = FResume \/ (exists g, w = FResumeW g)) :
    continued c me v SwUnwind (w :: FU f :: rest)
      (FU (mk_uf (uf_kind f) (uf_objs f) (MLand (EForced me)) (uf_caught f)) :: rest)
| ct_left : continued c me v SwUnwind [FEntry1] [FEntry3 (Some me)]
| ct_injected g fs : continued c me v (SwOntop g) fs (FU (mk_uf (KOntop g) [OFib v] MRun None) :: FOntop :: fs)
| ct_release fs : continued c me v SwExit fs (FExit c :: fs).
