(** * The tests of the library, run on the models

    test/test_fiber.cpp (test_callcc.cpp has the same tests with other names) as
    programs, and two interpreters: one runs a program on the model of the
    fcontext implementation (Fiber.v), the other one on the model of the ucontext
    implementation (Uctx.v).  Every check of the test must hold.  This validates
    the models against the expectations the authors of the library wrote down;
    nothing is proved from it.

    Left out: tests of what the models do not describe (values computed by the
    functions, std::bind, scanf, printf, Windows exceptions), preallocated stacks
    (P_Memory.v). *)
From Coq Require Import List Arith Bool String.
From Verif Require Fiber Uctx.
Import ListNotations.
Open Scope string_scope.
Open Scope list_scope.

(** ** Test programs *)

(** One operation of whatever code runs next.  Fiber variables have names. *)
Inductive top :=
| Create (x : string)                  (* fiber x{ fn }; *)
| New (x : string)                     (* fiber x; *)
| NewHeap (x : string)                 (* a fiber that is not an automatic object *)
| Resume (x : string)                  (* ... std::move( x).resume() ... *)
| ResumeWith (x : string)              (* ... std::move( x).resume_with( fn) ... *)
| Assign (x : string)                  (* x = the fiber just returned *)
| Param (x : string)                   (* the parameter of this function is x *)
| Move (x y : string)                  (* x = std::move( y); *)
| Ret (x : string)                     (* return std::move( x); *)
| Object                               (* an object with a destructor: Y y; *)
| Scope                                (* end of the scope of the last object *)
| Throw | Catch | Pass | Rethrow
| Full (x : string) | Empty (x : string)     (* BOOST_CHECK( x); BOOST_CHECK( ! x); *)
| Destroyed (n : nat)                  (* so many objects Y were destroyed so far *)
| Freed (n : nat).                     (* so many stacks were given back so far *)

Definition env := string -> nat.
Definition bind (e : env) (x : string) (v : nat) : env := fun y => if String.eqb y x then v else e y.

(** ** On the fcontext model *)

Definition f_user (s : Fiber.state) : bool :=
  match nth_error (Fiber.s_thr s) 0 with
  | Some c => match Fiber.frames_of s c with
              | Fiber.FU f :: _ => match Fiber.uf_mode f with Fiber.MRun | Fiber.MLand _ => true | _ => false end
              | _ => false
              end
  | None => false
  end.
Definition f_dtor (s : Fiber.state) : bool :=
  match nth_error (Fiber.s_thr s) 0 with
  | Some c => match Fiber.frames_of s c with
              | Fiber.FU f :: _ => match Fiber.uf_kind f, Fiber.uf_mode f with Fiber.KDtor _, Fiber.MRun => true | _, _ => false end
              | _ => false
              end
  | None => false
  end.
(** let the library, and the destructors of the objects, run until other user code is on top *)
Fixpoint f_tau (n : nat) (s : Fiber.state) : option Fiber.state :=
  match n with
  | O => None
  | S k => if f_dtor s then
             match Fiber.step s 0 (Fiber.LUser (Fiber.UReturn None)) with Fiber.Next s' => f_tau k s' | _ => None end
           else if f_user s then Some s else
           match Fiber.step s 0 Fiber.LTau with Fiber.Next s' => f_tau k s' | _ => None end
  end.
Definition f_do (s : Fiber.state) (o : Fiber.uop) : option Fiber.state :=
  match Fiber.step s 0 (Fiber.LUser o) with Fiber.Next s' => f_tau 60 s' | _ => None end.
Definition f_count (p : Fiber.event -> bool) (s : Fiber.state) : nat := List.length (filter p (Fiber.s_tr s)).

Definition f_step (s : Fiber.state) (e : env) (o : top) : option (Fiber.state * env) :=
  let same r := match r with Some s' => Some (s', e) | None => None end in
  let tmp s k := match Fiber.tmp_of s 0 with Some v => k v | None => None end in
  let chk (b : bool) := if b then Some (s, e) else None in
  let named x r := match r with Some s' => tmp s' (fun v => Some (s', bind e x v)) | None => None end in
  match o with
  | Create x => named x (f_do s (Fiber.UCreate 0 [] true))
  | New x => named x (f_do s (Fiber.UNewFib false))
  | NewHeap x => match f_do s (Fiber.UNewFib true) with
                 | Some s' => Some (s', bind e x (List.length (Fiber.s_vars s)))
                 | None => None
                 end
  | Resume x => same (f_do s (Fiber.UResume (e x)))
  | ResumeWith x => same (f_do s (Fiber.UResumeWith (e x) 0))
  | Assign x => tmp s (fun v => same (match f_do s (Fiber.UMoveAssign (e x) v) with
                                      | Some s' => f_do s' Fiber.UScope | None => None end))
  | Param x => tmp s (fun v => Some (s, bind e x v))
  | Move x y => same (f_do s (Fiber.UMoveAssign (e x) (e y)))
  | Ret x => same (f_do s (Fiber.UReturn (Some (e x))))
  | Object => same (f_do s Fiber.UNewUsr)
  | Scope => same (f_do s Fiber.UScope)
  | Throw => same (f_do s (Fiber.UThrow 1))
  | Catch => same (f_do s Fiber.UCatch)
  | Pass => same (f_do s Fiber.UPropagate)
  | Rethrow => same (f_do s Fiber.URethrow)
  | Full x => chk (match Fiber.get_var s (e x) with Some (_, Some _) => true | _ => false end)
  | Empty x => chk (match Fiber.get_var s (e x) with Some (_, None) => true | _ => false end)
  | Destroyed n => chk (Nat.eqb n (f_count (fun x => match x with Fiber.EvDtor _ (Fiber.OUsr _) => true | _ => false end) s))
  | Freed n => chk (Nat.eqb n (f_count (fun x => match x with Fiber.EvFree _ _ _ => true | _ => false end) s))
  end.

Fixpoint f_play (s : Fiber.state) (e : env) (l : list top) : bool :=
  match l with
  | [] => true
  | o :: r => match f_step s e o with Some (s', e') => f_play s' e' r | None => false end
  end.
Definition f_pass (l : list top) : bool := f_play (Fiber.init 1) (fun _ => 99) l.

(** ** On the ucontext model *)

Definition u_frames (s : Uctx.state) (c : nat) : list Uctx.frame :=
  match nth_error (Uctx.s_rec s) c with Some r => Uctx.r_frames r | None => [] end.
Definition u_user (s : Uctx.state) : bool :=
  match nth_error (Uctx.s_thr s) 0 with
  | Some c => match u_frames s c with
              | Uctx.FU f :: _ => match Uctx.uf_mode f with Uctx.MRun | Uctx.MLand _ => true | _ => false end
              | _ => false
              end
  | None => false
  end.
Definition u_dtor (s : Uctx.state) : bool :=
  match nth_error (Uctx.s_thr s) 0 with
  | Some c => match u_frames s c with
              | Uctx.FU f :: _ => match Uctx.uf_kind f, Uctx.uf_mode f with Uctx.KDtor _, Uctx.MRun => true | _, _ => false end
              | _ => false
              end
  | None => false
  end.
Fixpoint u_tau (n : nat) (s : Uctx.state) : option Uctx.state :=
  match n with
  | O => None
  | S k => if u_dtor s then
             match Uctx.step s 0 (Uctx.LUser (Uctx.UReturn None)) with Uctx.Next s' => u_tau k s' | _ => None end
           else if u_user s then Some s else
           match Uctx.step s 0 Uctx.LTau with Uctx.Next s' => u_tau k s' | _ => None end
  end.
Definition u_do (s : Uctx.state) (o : Uctx.uop) : option Uctx.state :=
  match Uctx.step s 0 (Uctx.LUser o) with Uctx.Next s' => u_tau 60 s' | _ => None end.
Definition u_tmp (s : Uctx.state) : option nat :=
  match nth_error (Uctx.s_thr s) 0 with
  | Some c => match u_frames s c with
              | Uctx.FU f :: _ => match Uctx.uf_objs f with Uctx.OFib v :: _ => Some v | _ => None end
              | _ => None
              end
  | None => None
  end.
Definition u_count (p : Uctx.event -> bool) (s : Uctx.state) : nat := List.length (filter p (Uctx.s_tr s)).

Definition u_step (s : Uctx.state) (e : env) (o : top) : option (Uctx.state * env) :=
  let same r := match r with Some s' => Some (s', e) | None => None end in
  let tmp s k := match u_tmp s with Some v => k v | None => None end in
  let chk (b : bool) := if b then Some (s, e) else None in
  let named x r := match r with Some s' => tmp s' (fun v => Some (s', bind e x v)) | None => None end in
  match o with
  | Create x => named x (u_do s (Uctx.UCreate 0 [] Uctx.CrOk))
  | New x => named x (u_do s (Uctx.UNewFib false))
  | NewHeap x => match u_do s (Uctx.UNewFib true) with
                 | Some s' => Some (s', bind e x (List.length (Uctx.s_vars s)))
                 | None => None
                 end
  | Resume x => same (u_do s (Uctx.UResume (e x)))
  | ResumeWith x => same (u_do s (Uctx.UResumeWith (e x) 0))
  | Assign x => tmp s (fun v => same (match u_do s (Uctx.UMoveAssign (e x) v) with
                                      | Some s' => u_do s' Uctx.UScope | None => None end))
  | Param x => tmp s (fun v => Some (s, bind e x v))
  | Move x y => same (u_do s (Uctx.UMoveAssign (e x) (e y)))
  | Ret x => same (u_do s (Uctx.UReturn (Some (e x))))
  | Object => same (u_do s Uctx.UNewUsr)
  | Scope => same (u_do s Uctx.UScope)
  | Throw => same (u_do s (Uctx.UThrow 1))
  | Catch => same (u_do s Uctx.UCatch)
  | Pass => same (u_do s Uctx.UPropagate)
  | Rethrow => same (u_do s Uctx.URethrow)
  | Full x => chk (match Uctx.get_var s (e x) with Some (_, h) => Uctx.valid s h | _ => false end)
  | Empty x => chk (match Uctx.get_var s (e x) with Some (_, h) => negb (Uctx.valid s h) | _ => false end)
  | Destroyed n => chk (Nat.eqb n (u_count (fun x => match x with Uctx.EvDtor _ (Uctx.OUsr _) => true | _ => false end) s))
  | Freed n => chk (Nat.eqb n (u_count (fun x => match x with Uctx.EvFree _ _ _ => true | _ => false end) s))
  end.

Fixpoint u_play (s : Uctx.state) (e : env) (l : list top) : bool :=
  match l with
  | [] => true
  | o :: r => match u_step s e o with Some (s', e') => u_play s' e' r | None => false end
  end.
Definition u_pass (l : list top) : bool := u_play (Uctx.init 1) (fun _ => 99) l.

(** ** The tests *)

(** Code of main at the margin, code of fibers indented.  A call that switches
    ends a line; the next line is the code that runs then. *)

(** test_fiber.cpp:133-157 *)
Definition test_move : list top :=
  [Create "f1"; Resume "f1";                                  (* 137-143 *)
     Param "f"; Resume "f";                                   (* 139-140 *)
   Assign "f1"; Full "f1"; New "f2"; Empty "f2";              (* 143-147 *)
   Move "f2" "f1"; Empty "f1"; Full "f2"; Resume "f2";        (* 148-152 *)
     Assign "f"; Ret "f";                                     (* 140-142 *)
   Assign "f2"; Empty "f1"; Empty "f2";                       (* 152-156 *)
   Scope; Scope; Freed 1].

(** test_fiber.cpp:167-182 *)
Definition test_exception : list top :=
  [Create "f"; Resume "f";
     Param "g"; Ret "g";                                      (* the exception does not leave the function *)
   Assign "f"; Empty "f"; Scope; Freed 1].

(** test_fiber.cpp:199-211, 159-165, 387-435: a function that returns its argument *)
Definition test_fp : list top :=
  [Create "f"; Resume "f"; Param "g"; Ret "g"; Assign "f"; Empty "f"; Scope; Freed 1].

(** test_fiber.cpp:213-231 *)
Definition test_stacked : list top :=
  [Create "f"; Resume "f";                                    (* 216, 228 *)
     Param "g"; Create "f1"; Resume "f1";                     (* 218-223 *)
       Param "h"; Ret "h";                                    (* 220-221 *)
     Assign "f1"; Empty "f1"; Ret "g";                        (* 223-225 *)
   Assign "f"; Empty "f"; Scope; Freed 2].                         (* 228-231 *)

(** test_fiber.cpp:252-270: the loop runs until the fiber is destroyed *)
Definition test_ontop1 : list top :=
  [Create "f"; Resume "f";                                    (* 254-261 *)
     Param "g"; Resume "g";                                   (* 257 *)
   Assign "f"; ResumeWith "f";                                (* 267 *)
       Param "a"; Ret "a";                                    (* 263-266, on top of the fiber *)
     Assign "g"; Full "g"; Resume "g";                        (* 257 *)
   Assign "f"; Full "f"; Freed 0; Scope;                      (* 268-270 *)
     Pass;                                                    (* forced_unwind *)
   Freed 1].

(** test_fiber.cpp:271-285: the injected function hands over an empty fiber *)
Definition test_ontop2 : list top :=
  [New "f1"; Create "f"; Resume "f";                          (* 272-278 *)
     Param "g"; Resume "g";                                   (* 274 *)
   Assign "f"; ResumeWith "f";                                (* 279 *)
       Param "a"; Move "f1" "a"; Empty "a"; Ret "a";          (* 281-282 *)
     Assign "g"; Empty "g"; Full "f1"; Ret "f1";              (* 275-276 *)
   Assign "f"; Empty "f"; Empty "f1"; Scope; Scope; Freed 1].

(** test_fiber.cpp:287-312: the injected function throws an exception that carries
    its fiber ("ex.f", which is not an automatic object) *)
Definition test_ontop_exception : list top :=
  [Create "f"; Resume "f";                                    (* 290-302 *)
     Param "g"; Resume "g";                                   (* 293-294 *)
   Assign "f"; ResumeWith "f";                                (* 305 *)
       Param "a"; NewHeap "ex.f"; Move "ex.f" "a"; Throw;     (* 307 *)
     Catch; Full "ex.f"; Ret "ex.f";                          (* 296-298 *)
   Assign "f"; Empty "f"; Empty "ex.f"; Scope; Freed 1].

(** test_fiber.cpp:314-359, three blocks *)
Definition test_termination1 : list top :=
  [Create "f"; Resume "f";                                    (* 317-323 *)
     Param "g"; Object; Resume "g";                           (* 319-320 *)
   Assign "f"; Destroyed 0; Scope;                            (* 324-325 *)
     Pass;
   Destroyed 1; Freed 1;                                      (* 326 *)
   Create "f"; Resume "f";                                    (* 330-335 *)
     Param "g"; Ret "g";
   Assign "f"; Empty "f"; Scope; Freed 2;                     (* 336-338 *)
   Create "f"; Resume "f";                                    (* 343-350 *)
     Param "g"; Resume "g";                                   (* 346 *)
   Assign "f"; Full "f"; Resume "f";                          (* 351-355 *)
     Assign "g"; Ret "g";
   Assign "f"; Empty "f"; Scope; Freed 3; Destroyed 1].  (* 356-359 *)

(** test_fiber.cpp:361-385 *)
Definition test_termination2 : list top :=
  [Create "f"; Resume "f";                                    (* 365-378 *)
     Param "g"; Object; Resume "g";                           (* 367-370 *)
   Assign "f"; Destroyed 0; Resume "f";                       (* 379-381 *)
     Assign "g"; Resume "g";                                  (* 371-373 *)
   Assign "f"; Full "f"; Destroyed 0; Scope;                  (* 382 *)
     Pass;
   Destroyed 1; Freed 1].                                     (* 383-384 *)

(** test_fiber.cpp:447-479 *)
Definition test_goodcatch : list top :=
  [Create "f"; Resume "f";                                    (* 451-470 *)
     Param "g"; Object; Resume "g";                           (* 453-455 *)
   Assign "f"; Destroyed 0; Resume "f";                       (* 471-473 *)
     Assign "g"; Resume "g";                                  (* 455-458 *)
   Assign "f"; Destroyed 0; Scope;                            (* 474-476 *)
     Catch; Rethrow;                                          (* 459-461 *)
   Destroyed 1; Freed 1].                                     (* 477-478 *)

(** test_fiber.cpp:481-512 (disabled there, "#if 0"): the function swallows
    forced_unwind, which the documentation forbids; the models stop with a
    violation *)
Definition test_badcatch : list top :=
  [Create "f"; Resume "f"; Param "g"; Object; Resume "g"; Assign "f"; Scope; Catch; Ret "g"].

Definition tests : list (list top) :=
  [test_move; test_exception; test_fp; test_stacked; test_ontop1; test_ontop2; test_ontop_exception;
   test_termination1; test_termination2; test_goodcatch].

Example fcontext_passes : forallb f_pass tests = true.
Proof. vm_compute. reflexivity. Qed.

Example ucontext_passes : forallb u_pass tests = true.
Proof. vm_compute. reflexivity. Qed.

Example badcatch_is_a_violation : f_pass test_badcatch = false /\ u_pass test_badcatch = false.
Proof. vm_compute. auto. Qed.

(** The checks bite: if any single check of any test is reversed, the test fails. *)
Definition reversed (o : top) : option top :=
  match o with
  | Full x => Some (Empty x) | Empty x => Some (Full x)
  | Destroyed n => Some (Destroyed (S n)) | Freed n => Some (Freed (S n))
  | _ => None
  end.
Fixpoint reversals (pre l : list top) : list (list top) :=
  match l with
  | [] => []
  | o :: r => match reversed o with Some o' => [pre ++ o' :: r] | None => [] end ++ reversals (pre ++ [o]) r
  end.
Example checks_bite :
  forallb (fun t => negb (f_pass t) && negb (u_pass t)) (flat_map (reversals []) tests) = true /\
  List.length (flat_map (reversals []) tests) = 46.
Proof. vm_compute. auto. Qed.
