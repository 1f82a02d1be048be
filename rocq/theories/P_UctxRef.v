(** * Where the ucontext (and winfib) implementation departs from the properties

    Each theorem exhibits a run of the machine of Uctx.v, which the kernel computes; one thread.  The
    conclusions use only the history (UctxSpec.v) and the outcome. *)
From Coq Require Import List Arith Bool.
From Verif Require Import ListUtil Uctx UctxSpec.
Import ListNotations.

Definition u (l : list uop) : list (nat * label) := map (fun o => (0, LUser o)) l.
Definition tau (n : nat) : list (nat * label) := repeat (0, LTau) n.
Definition final (l : list (nat * label)) : state := match run (init 1) l with Next s => s | _ => init 1 end.

Ltac reached r := exists (final r); split; [exists r; vm_compute; reflexivity|].

(** C33: destroying a fiber that was never started runs its context-function.
    main: { fiber f{fn}; }  -- the destructor switches to the new context, which enters fn. *)
Theorem C33_destroy_unstarted_refuted :
  exists s, reachable 1 s /\
  exists t from c arg old, s_tr s = EvCtor (OnCtx c) (OFib 1) :: EvEnter c arg :: EvSwitch t from c SwUnwind :: old /\ ~ entered old c.
Proof.
  reached (u [UCreate 0 [] CrOk; UScope]).
  exists 0, 0, 1, (Some 0). eexists. split; [vm_compute; reflexivity|].
  intros (r & H). simpl in H. intuition discriminate.
Qed.

(** C33: a function injected into a never-started fiber does not run before the context-function:
    the context-function (2nd event) is entered directly after the switch of resume_with; the
    injected function runs only when the context is resumed for the second time. *)
Theorem C33_inject_unstarted_refuted :
  exists s, reachable 1 s /\
  exists c g t from arg arg' new mid old,
    s_tr s = new ++ EvOntop c g arg' :: mid ++ EvEnter c arg :: EvSwitch t from c (SwOntop g) :: old /\
    ~ entered old c /\ (forall a, ~ In (EvOntop c g a) (mid ++ old)) /\
    (exists a b, In (EvSwitch a c b SwJump) mid).
Proof.
  reached (u [UCreate 0 [] CrOk; UResumeWith 0 7; UResume 1; UResume 2]).
  exists 1, 7, 0, 0, (Some 0), (Some 0), [EvCtor (OnCtx 1) (OFib 3)].
  exists [EvSwitch 0 0 1 SwJump; EvCtor (OnCtx 0) (OFib 2); EvResumed 0 (Some 1); EvSwitch 0 1 0 SwJump; EvCtor (OnCtx 1) (OFib 1)].
  eexists. split; [vm_compute; reflexivity|].
  split; [|split].
  - intros (r & H). simpl in H. intuition discriminate.
  - intros a H. simpl in H. intuition discriminate.
  - exists 0, 0. simpl. auto.
Qed.

(** C35: an injected function that throws is executed again at the next plain resume(): one
    resume_with, two invocations. *)
Theorem C35_throwing_refuted :
  exists s, reachable 1 s /\
  exists c g e, In (EvOntopExn c g e) (s_tr s) /\ injections (s_tr s) c g = 1 /\ invocations (s_tr s) c g = 2.
Proof.
  reached (u [UNewFib true; UCreate 0 [] CrOk; UResume 1; UResume 2; UResumeWith 3 7; UMoveAssign 0 4; UThrow 5]
           ++ tau 2 ++ u [UCatch; UEndCatch; UResume 0; UResume 5]).
  exists 1, 7, (XUser 5). vm_compute. auto 20.
Qed.

(** C35: an injected function that switches is executed again, on top of itself, when its context is
    resumed: two invocations, neither has returned. *)
Theorem C35_switching_refuted :
  exists s, reachable 1 s /\
  exists c g, injections (s_tr s) c g = 1 /\ invocations (s_tr s) c g = 2 /\ injected (s_tr s) c = [g; g].
Proof.
  reached (u [UCreate 0 [] CrOk; UResume 0; UResume 1; UResumeWith 2 7; UResume 3; UResume 4]).
  exists 1, 7. vm_compute. auto.
Qed.

(** C34: the library accesses a record after it was deallocated.  main destroys a never-started fiber
    d, whose function is entered and resumes x; x destroys the handle of d, so d finishes and its
    record is freed; when x resumes main, main's destructor reads the freed record (L462). *)
Definition uaf := u [UNewFib true; UCreate 0 [] CrOk; UCreate 0 [] CrOk; UScope; UMoveAssign 0 3; UResume 1; UScope; UPropagate] ++ tau 4.
Theorem C34_use_after_free_refuted :
  exists s, reachable 1 s /\ freed (s_tr s) 2 /\
    (exists rest, option_map r_frames (nth_error (s_rec s) 0) = Some (FDt 2 :: rest)) /\
    exists tr, step s 0 (LUser (UResume 0)) = UB tr.
Proof.
  reached uaf. split; [|split].
  - exists 0, 1. vm_compute. auto.
  - eexists. vm_compute. reflexivity.
  - eexists. vm_compute. reflexivity.
Qed.

(** C33: a context that is being unwound cannot resume other fibers: its suspended resume() throws
    forced_unwind although only one fiber referring to it was destroyed.  Context 1 is destroyed
    by main, catches the unwind request, resumes context 2, which resumes it. *)
Theorem C33_resume_while_unwinding_refuted :
  exists s, reachable 1 s /\
  exists t from old, s_tr s = EvRaised 1 (XForced (Some from)) :: EvSwitch t from 1 SwJump :: old /\
    In (EvRaised 1 (XForced (Some 0))) old /\ from <> 0.
Proof.
  reached (u [UCreate 0 [] CrOk; UCreate 0 [] CrOk; UResume 0; UResume 2; UScope; UCatch; UResume 1; UResume 4]).
  exists 0, 2. eexists. split; [vm_compute; reflexivity|]. simpl. split; [auto 20|discriminate].
Qed.

(** C33: the same in the destructor of a local object of the context being unwound ends the process
    (an exception leaves a destructor), although no user code threw anything. *)
Definition dtor_run := u [UCreate 0 [] CrOk; UCreate 0 [] CrOk; UResume 0; UNewUsr; UResume 2; UScope; UPropagate]
                         ++ tau 1 ++ u [UResume 1; UResume 4; UPropagate].
Theorem C33_resume_in_destructor_refuted :
  exists s, reachable 1 s /\ (forall c e, ~ In (EvThrow c e) (s_tr s)) /\ step s 0 LTau = Terminate.
Proof.
  reached dtor_run. split.
  - intros c e H. vm_compute in H. intuition discriminate.
  - vm_compute. reflexivity.
Qed.

(** C33: the handle of a main context is destroyed without any effect: nothing refers to the suspended
    main context any more, which has not been asked to unwind.  (The fcontext implementation throws
    forced_unwind in the main context.) *)
Theorem C33_main_handle_lost_refuted :
  exists s, reachable 1 s /\ entered (s_tr s) 1 /\ ~ unwound (s_tr s) 0 /\ running (s_tr s) 0 = 1 /\ handles s = [].
Proof.
  reached (u [UCreate 0 [] CrOk; UResume 0; UScope]). split; [|split].
  - exists (Some 0). vm_compute. auto 10.
  - intros (t & f & H). vm_compute in H. intuition discriminate.
  - vm_compute. auto.
Qed.

(** C14: a context-function that returns a fiber whose operator bool is false, because it refers to a
    finished context, is not detected before the switch: the finished context is resumed. *)
Definition fin_run := u [UNewFib true; UCreate 0 [] CrOk; UCreate 0 [] CrOk; UResume 1; UReturn (Some 3)] ++ tau 3
                        ++ u [UResume 2].
Theorem C14_ucontext_refuted :
  exists s s', reachable 1 s /\
    (exists b, get_var s 4 = Some (b, Some 1)) /\ valid s (Some 1) = false /\
    run s ((0, LUser (UReturn (Some 4))) :: tau 3) = Next s' /\
    (exists old, s_tr s' = EvResumed 1 (Some 2) :: EvSwitch 0 2 1 SwExit :: old) /\ done (s_tr s) 1.
Proof.
  exists (final fin_run), (final (fin_run ++ u [UReturn (Some 4)] ++ tau 3)).
  split; [exists fin_run; vm_compute; reflexivity|].
  split; [exists false; vm_compute; reflexivity|].
  split; [vm_compute; reflexivity|].
  split; [vm_compute; reflexivity|].
  split.
  - eexists. vm_compute. reflexivity.
  - exists (Some 0). vm_compute. auto 20.
Qed.
