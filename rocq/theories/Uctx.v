(** * The ucontext machine: [fiber] on top of makecontext/swapcontext

    Models include/boost/context/fiber_ucontext.hpp; line numbers are those of that file.
    fiber_winfib.hpp has the same control structure (SwitchToFiber for swapcontext, L117-126,
    L133-172, L226-246, L318-327, L344-376), and so has continuation_ucontext.hpp.  Any number of
    threads and contexts.  As in Fiber.v user code is an adversary: the label says which API
    operation the user code on top of the running context performs next; [LTau] is library code.

    A [fiber] holds a plain pointer to an activation record; records and contexts are numbered alike.

    Simplifications: as in Fiber.v (exception state per context, one handled exception per frame,
    steps of different threads are atomic).  The closure object of an injected function is an
    identifier; overwriting record->ontop while it executes is not flagged.  Sanitizer and
    split-stack hooks are modelled in Hooks.v. *)
From Coq Require Import List Arith Bool.
From Verif Require Import ListUtil.
Import ListNotations.

(** fiber::ptr_, L424 ([None] = nullptr) *)
Definition hopt := option nat.

Inductive obj := OFib (v : nat) | OUsr (u : nat).

(** user exceptions and detail::forced_unwind L244-250 (member [from]) *)
Inductive exn := XUser (e : nat) | XForced (p : hopt).

Inductive mode := MRun | MLand (e : exn) | MRet (r : hopt) | MUnw (e : exn).
Inductive ukind := KMain | KCtx | KOntop (g : nat) | KPlain | KDtor (u : nat).
Record uframe := mk_uf {
  uf_kind : ukind; uf_objs : list obj; uf_mode : mode; uf_caught : option exn }.

(** stack frames, top first *)
Inductive frame :=
| FU (f : uframe)
| FStart                   (* fiber_entry_func L70-82, not yet entered *)
| FRes                     (* fiber::resume L483-497 / resume_with L500-516, in swapcontext *)
| FDt (d : nat)            (* fiber::~fiber L457-466 of a fiber with ptr_ = d, in ptr_->resume() *)
| FOnt                     (* L493/L512: in ontop( ptr) *)
| FRun                     (* fiber_capture_record::run L291, in the context-function *)
| FFin (p : hopt)          (* run L297-301 with c.ptr_ = p *)
| FRunEnd                  (* run L301, in std::move( c).resume() *)
| FTmp (p : hopt)          (* run L301: the temporary returned by resume() is to be destroyed *)
| FAssert                  (* run L302 *)
| FRel (d : nat) (fail : bool).
    (* fail = false: deallocate() L274-277, destroy() L258-265 of record d;
       fail = true: create_fiber1 L322-328, the same after a failed getcontext() *)

(** fiber_activation_record L84-91, fiber_capture_record L253-256 *)
Record rcd := mk_r {
  r_frames : list frame;         (* the stack that uctx refers to *)
  r_main : bool;                 (* main_ctx *)
  r_from : hopt;                 (* from *)
  r_ontop : option nat;          (* ontop *)
  r_term : bool;                 (* terminated *)
  r_force : bool;                (* force_unwind *)
  r_alive : bool;                (* the record and its stack have not been deallocated *)
  r_alloc : option nat;          (* salloc_ *)
  r_caps : list obj }.           (* objects inside fn_ *)

Inductive var := VDead | VLive (heap : bool) (h : hopt).

(** why control leaves a context: resume(), ~fiber, resume_with( g), end of run() *)
Inductive swk := SwJump | SwUnwind | SwOntop (g : nat) | SwExit.

Inductive place := OnCtx (c : nat) | OnHeap.

Inductive event :=
| EvAlloc (c a : nat)                    (* stack of c obtained from allocator a *)
| EvFail (c : nat)                       (* getcontext() for c failed *)
| EvFree (c a on : nat)                  (* stack of c given to deallocate() of a by code running on [on] *)
| EvSwitch (t from to : nat) (k : swk)   (* thread t leaves context [from] and continues [to] *)
| EvEnter (c : nat) (arg : hopt)         (* context-function of c invoked *)
| EvOntop (c g : nat) (arg : hopt)       (* injected function g invoked on c *)
| EvOntopRet (c g : nat) (r : hopt)
| EvOntopExn (c g : nat) (e : exn)
| EvThrow (c e : nat)                    (* user exception thrown (0: bad_alloc, 1: system_error) *)
| EvResumed (c : nat) (r : hopt)         (* suspended resume/resume_with of c returns r *)
| EvRaised (c : nat) (e : exn)           (* suspended resume/resume_with of c throws e *)
| EvDestroyed (c : nat)                  (* a suspended ~fiber of c continues *)
| EvDone (c : nat) (r : hopt)            (* context-function of c left: next context r *)
| EvCtor (p : place) (o : obj)
| EvDtor (p : place) (o : obj).

Record state := mk_s {
  s_rec : list rcd;
  s_vars : list var;
  s_thr : list nat;            (* fiber_activation_record::current() of each thread *)
  s_nusr : nat;
  s_tr : list event }.         (* newest first *)

Inductive outcome :=
| Next (s : state)
| UB (tr : list event)          (* undefined behaviour inside the library (use after free, dead context) *)
| AssertFail (tr : list event)  (* a BOOST_ASSERT of the library fails; tr: history up to this point *)
| Terminate       (* std::terminate *)
| Violation       (* the user swallowed forced_unwind *)
| Invalid.        (* the label is not applicable in this state *)

Inductive cap := CapFib (v : nat) | CapUsr.
(** what happens inside create_fiber1: success, allocate() throws, getcontext() fails *)
Inductive cres := CrOk | CrNoStack | CrNoCtx.

Inductive uop :=
| UNewFib (heap : bool)
| UNewUsr
| UCreate (a : nat) (caps : list cap) (r : cres)
| UMoveCtor (src : nat) (heap : bool)
| UMoveAssign (dst src : nat)
| USwap (a b : nat)
| UDelete (v : nat)
| UScope
| UResume (src : nat)
| UResumeWith (src g : nat)
| UCall
| UReturn (v : option nat)
| UThrow (e : nat)
| UCatch | UPropagate | UEndCatch | URethrow.

Inductive label := LTau | LUser (o : uop).

(* ------------------------------------------------------------------ state access *)

Definition set_frames (x : rcd) (fs : list frame) : rcd :=
  mk_r fs (r_main x) (r_from x) (r_ontop x) (r_term x) (r_force x) (r_alive x) (r_alloc x) (r_caps x).
Definition set_from (x : rcd) (p : hopt) : rcd :=
  mk_r (r_frames x) (r_main x) p (r_ontop x) (r_term x) (r_force x) (r_alive x) (r_alloc x) (r_caps x).
Definition set_ontop (x : rcd) (g : option nat) : rcd :=
  mk_r (r_frames x) (r_main x) (r_from x) g (r_term x) (r_force x) (r_alive x) (r_alloc x) (r_caps x).
Definition set_force (x : rcd) (b : bool) : rcd :=
  mk_r (r_frames x) (r_main x) (r_from x) (r_ontop x) (r_term x) b (r_alive x) (r_alloc x) (r_caps x).
Definition set_caps (x : rcd) (l : list obj) : rcd :=
  mk_r (r_frames x) (r_main x) (r_from x) (r_ontop x) (r_term x) (r_force x) (r_alive x) (r_alloc x) l.
(** run L297-300 *)
Definition set_done (x : rcd) (fs : list frame) : rcd :=
  mk_r fs (r_main x) None None true false (r_alive x) (r_alloc x) (r_caps x).
(** destroy L262-264 *)
Definition set_dead (x : rcd) : rcd :=
  mk_r [] (r_main x) (r_from x) (r_ontop x) (r_term x) (r_force x) false (r_alloc x) [].

Definition put_rec (s : state) (c : nat) (x : rcd) : state :=
  mk_s (upd (s_rec s) c x) (s_vars s) (s_thr s) (s_nusr s) (s_tr s).
Definition put_var (s : state) (v : nat) (x : var) : state :=
  mk_s (s_rec s) (upd (s_vars s) v x) (s_thr s) (s_nusr s) (s_tr s).
Definition add_var (s : state) (x : var) : state :=
  mk_s (s_rec s) (s_vars s ++ [x]) (s_thr s) (s_nusr s) (s_tr s).
Definition emit (s : state) (e : event) : state :=
  mk_s (s_rec s) (s_vars s) (s_thr s) (s_nusr s) (e :: s_tr s).
Definition put_frames (s : state) (c : nat) (fs : list frame) : state :=
  match nth_error (s_rec s) c with
  | Some x => put_rec s c (set_frames x fs)
  | None => s
  end.
Definition set_mode (f : uframe) (m : mode) : uframe :=
  mk_uf (uf_kind f) (uf_objs f) m (uf_caught f).
Definition set_objs (f : uframe) (l : list obj) : uframe :=
  mk_uf (uf_kind f) l (uf_mode f) (uf_caught f).
Definition set_caught (f : uframe) (x : option exn) (m : mode) : uframe :=
  mk_uf (uf_kind f) (uf_objs f) m x.

(* ------------------------------------------------------------------ arriving at a context *)

(** fiber::resume / resume_with return { ptr } with ptr = p (L496, L515) to the frames fs below them:
    user code gets a new fiber; run() L301 a temporary *)
Definition ret_to (s : state) (c : nat) (fs : list frame) (p : hopt) : outcome :=
  match fs with
  | FU f :: rest =>
      let v := length (s_vars s) in
      Next (put_frames (emit (emit (add_var s (VLive false p)) (EvResumed c p)) (EvCtor (OnCtx c) (OFib v)))
                       c (FU (set_objs f (OFib v :: uf_objs f)) :: rest))
  | FRunEnd :: rest => Next (put_frames (emit s (EvResumed c p)) c (FTmp p :: FAssert :: rest))
  | _ => UB (s_tr s)
  end.

(** an exception leaves fiber::resume / resume_with; run() L301 is called by the noexcept
    fiber_entry_func L76 *)
Definition raise_to (s : state) (c : nat) (fs : list frame) (e : exn) : outcome :=
  match fs with
  | FU f :: rest => Next (put_frames (emit s (EvRaised c e)) c (FU (set_mode f (MLand e)) :: rest))
  | FRunEnd :: _ => Terminate
  | _ => UB (s_tr s)
  end.

(** Control arrives at context d, which is current():
    - fiber_entry_func L70-82 -> run() L285-291: the context-function is invoked with Ctx{ from };
    - swapcontext in resume L160-170 / resume_with L222-232: ptr = exchange( from, nullptr); then
      fiber::resume L490-496 / resume_with L509-515: unwind, or run the injected function, or return;
    - swapcontext in ~fiber L461: the pointer is ignored; L462 assert, L464 deallocate(). *)
Definition arrive (s : state) (d : nat) : outcome :=
  match nth_error (s_rec s) d with
  | None => UB (s_tr s)
  | Some x =>
      match r_frames x with
      | FStart :: rest =>
          let v := length (s_vars s) in
          Next (put_frames (emit (emit (add_var s (VLive false (r_from x))) (EvEnter d (r_from x)))
                                 (EvCtor (OnCtx d) (OFib v)))
                           d (FU (mk_uf KCtx [OFib v] MRun None) :: FRun :: rest))
      | FRes :: rest =>
          let p := r_from x in
          let s1 := put_rec s d (set_from x None) in
          if r_force x then raise_to s1 d rest (XForced p)                              (* L490-491 *)
          else match r_ontop x with
               | Some g =>                                                              (* L492-493 *)
                   let v := length (s_vars s) in
                   Next (put_frames (emit (emit (add_var s1 (VLive false p)) (EvOntop d g p)) (EvCtor (OnCtx d) (OFib v)))
                                    d (FU (mk_uf (KOntop g) [OFib v] MRun None) :: FOnt :: rest))
               | None => ret_to s1 d rest p
               end
      | FDt e :: rest =>
          match nth_error (s_rec s) e with
          | Some y =>
              if r_alive y then
                if r_term y then                                                        (* L462 *)
                  Next (put_frames (emit (put_rec s d (set_from x None)) (EvDestroyed d)) d (FRel e false :: rest))
                else AssertFail (s_tr s)
              else UB (s_tr s)
          | None => UB (s_tr s)
          end
      | _ => UB (s_tr s)
      end
  end.

(** resume L139-161 / resume_with L173-222, called by context c of thread t on record d: sets from,
    current(), and for ~fiber force_unwind (L460), for resume_with ontop (L181-209); swapcontext.
    Continuing a context that is not suspended, or a deallocated one, is undefined behaviour. *)
Definition switch (s : state) (t c d : nat) (k : swk) : outcome :=
  match nth_error (s_rec s) d with
  | None => UB (s_tr s)
  | Some y =>
      if r_alive y && negb (existsb (Nat.eqb d) (s_thr s)) then
        let y1 := set_from y (Some c) in
        let y2 := match k with
                  | SwOntop g => set_ontop y1 (Some g)
                  | SwUnwind => set_force y1 true
                  | _ => y1
                  end in
        arrive (mk_s (upd (s_rec s) d y2) (s_vars s) (upd (s_thr s) t d) (s_nusr s) (EvSwitch t c d k :: s_tr s)) d
      else UB (s_tr s)
  end.

(* ------------------------------------------------------------------ destroying an object *)

(** ~fiber L457-466 of a fiber with ptr_ = h, executed by context c of thread t; fs: the frames of c *)
Definition drop (s : state) (t c : nat) (fs : list frame) (h : hopt) : outcome :=
  match h with
  | None => Next (put_frames s c fs)
  | Some d =>
      match nth_error (s_rec s) d with
      | None => UB (s_tr s)
      | Some y =>
          if r_alive y then
            if r_main y then Next (put_frames s c fs)                                   (* L458 *)
            else if r_term y then Next (put_frames s c (FRel d false :: fs))            (* L464 *)
            else switch (put_frames s c (FDt d :: fs)) t c d SwUnwind                   (* L460-461 *)
          else UB (s_tr s)
      end
  end.

Definition destroy (s : state) (t c : nat) (fs : list frame) (p : place) (o : obj) : outcome :=
  match o with
  | OUsr u => Next (put_frames (emit s (EvDtor p o)) c (FU (mk_uf (KDtor u) [] MRun None) :: fs))
  | OFib v =>
      match nth_error (s_vars s) v with
      | Some (VLive _ h) => drop (put_var (emit s (EvDtor p o)) v VDead) t c fs h
      | _ => UB (s_tr s)
      end
  end.

(* ------------------------------------------------------------------ leaving a user frame *)

(** clear current()->ontop, L494/L513 *)
Definition clear_ontop (s : state) (c : nat) : state :=
  match nth_error (s_rec s) c with
  | Some x => put_rec s c (set_ontop x None)
  | None => s
  end.

Definition leave_ret (s : state) (c : nat) (f : uframe) (rest : list frame) (r : hopt) : outcome :=
  match uf_kind f, rest with
  | KPlain, FU _ :: _ => Next (put_frames s c rest)
  | KDtor _, _ => Next (put_frames s c rest)
  | KCtx, FRun :: rest' => Next (put_frames (emit s (EvDone c r)) c (FFin r :: rest'))         (* L289-292 *)
  | KOntop g, FOnt :: rest' => ret_to (clear_ontop (emit s (EvOntopRet c g r)) c) c rest' r    (* L493-496 *)
  | _, _ => UB (s_tr s)
  end.

Definition leave_exn (s : state) (c : nat) (f : uframe) (rest : list frame) (e : exn) : outcome :=
  match uf_kind f, rest with
  | KPlain, FU g :: rest' => Next (put_frames s c (FU (set_mode g (MLand e)) :: rest'))
  | KDtor _, _ => Terminate
  | KMain, _ => Terminate
  | KCtx, FRun :: rest' =>
      match e with
      | XForced p => Next (put_frames (emit s (EvDone c p)) c (FFin p :: rest'))               (* L293-295 *)
      | XUser _ => Terminate                                                                   (* noexcept L76 *)
      end
  | KOntop g, FOnt :: rest' => raise_to (emit s (EvOntopExn c g e)) c rest' e    (* L493: ontop is not cleared *)
  | _, _ => UB (s_tr s)
  end.

(* ------------------------------------------------------------------ library steps *)

(** destroy() L258-265: ~fiber_capture_record (the captured objects), then salloc.deallocate( sctx) *)
Definition rel_step (s : state) (t c d : nat) (fail : bool) (rest : list frame) : outcome :=
  match nth_error (s_rec s) d with
  | None => UB (s_tr s)
  | Some y =>
      if r_alive y then
        match r_caps y with
        | o :: l => destroy (put_rec s d (set_caps y l)) t c (FRel d fail :: rest) (OnCtx d) o
        | [] =>
            match r_alloc y with
            | None => UB (s_tr s)
            | Some a =>
                let s1 := emit (put_rec s d (set_dead y)) (EvFree d a c) in
                if fail then
                  match rest with
                  | FU f :: rest' =>                                                    (* L325-327 *)
                      Next (put_frames (emit s1 (EvThrow c 1)) c (FU (set_mode f (MLand (XUser 1))) :: rest'))
                  | _ => UB (s_tr s)
                  end
                else Next (put_frames s1 c rest)
            end
        end
      else UB (s_tr s)
  end.

Definition tau_step (s : state) (t c : nat) (fs : list frame) : outcome :=
  match fs with
  | FU f :: rest =>
      match uf_mode f with
      | MRet r =>
          match uf_objs f with
          | o :: l => destroy s t c (FU (set_objs f l) :: rest) (OnCtx c) o
          | [] => leave_ret s c f rest r
          end
      | MUnw e =>
          match uf_objs f with
          | o :: l => destroy s t c (FU (set_objs f l) :: rest) (OnCtx c) o
          | [] => leave_exn s c f rest e
          end
      | _ => Invalid
      end
  | FFin p :: rest =>                                                                   (* L297-301 *)
      match p with
      | None => AssertFail (s_tr s)                                                              (* L484 *)
      | Some d =>
          match nth_error (s_rec s) c with
          | Some x => switch (put_rec s c (set_done x (FRes :: FRunEnd :: rest))) t c d SwExit
          | None => UB (s_tr s)
          end
      end
  | FTmp p :: rest => drop s t c rest p
  | FAssert :: _ => AssertFail (s_tr s)                                                          (* L302 *)
  | FRel d fail :: rest => rel_step s t c d fail rest
  | _ => UB (s_tr s)
  end.

(* ------------------------------------------------------------------ user operations *)

Definition get_var (s : state) (v : nat) : option (bool * hopt) :=
  match nth_error (s_vars s) v with Some (VLive b h) => Some (b, h) | _ => None end.

Fixpoint do_caps (s : state) (d : nat) (l : list cap) (acc : list obj) : option (state * list obj) :=
  match l with
  | [] => Some (s, acc)
  | CapUsr :: r =>
      let o := OUsr (s_nusr s) in
      do_caps (mk_s (s_rec s) (s_vars s) (s_thr s) (S (s_nusr s)) (EvCtor (OnCtx d) o :: s_tr s)) d r (o :: acc)
  | CapFib v :: r =>
      match get_var s v with
      | Some (b, h) =>
          let o := OFib (length (s_vars s)) in
          do_caps (emit (add_var (put_var s v (VLive b None)) (VLive false h)) (EvCtor (OnCtx d) o)) d r (o :: acc)
      | None => None
      end
  end.

(** construct a new automatic or heap fiber with value h *)
Definition new_fib (s : state) (c : nat) (f : uframe) (rest : list frame) (heap : bool) (h : hopt) : outcome :=
  let v := length (s_vars s) in
  let s1 := add_var s (VLive heap h) in
  if heap then Next (put_frames (emit s1 (EvCtor OnHeap (OFib v))) c (FU f :: rest))
  else Next (put_frames (emit s1 (EvCtor (OnCtx c) (OFib v))) c (FU (set_objs f (OFib v :: uf_objs f)) :: rest)).

(** create_fiber1 L307-356: no context switch; the new context starts in fiber_entry_func.
    A failed getcontext() (L322-328) destroys the record, frees the stack and throws. *)
Definition do_create (s : state) (c : nat) (f : uframe) (rest : list frame) (a : nat) (l : list cap) (ok : bool) : outcome :=
  let d := length (s_rec s) in
  match do_caps (emit s (EvAlloc d a)) d l [] with
  | None => Invalid
  | Some (s1, caps) =>
      let y := mk_r [FStart] false None None false false true (Some a) caps in
      let s2 := mk_s (s_rec s1 ++ [y]) (s_vars s1) (s_thr s1) (s_nusr s1) (s_tr s1) in
      if ok then new_fib s2 c f rest false (Some d)
      else Next (put_frames (emit s2 (EvFail d)) c (FRel d true :: FU f :: rest))
  end.

Definition forced_caught (f : uframe) : bool :=
  match uf_caught f with Some (XForced _) => true | _ => false end.

Definition user_step (s : state) (t c : nat) (f : uframe) (rest : list frame) (o : uop) : outcome :=
  match uf_mode f with
  | MRun =>
      match o with
      | UNewFib heap => new_fib s c f rest heap None
      | UNewUsr =>
          let u := OUsr (s_nusr s) in
          Next (put_frames (mk_s (s_rec s) (s_vars s) (s_thr s) (S (s_nusr s)) (EvCtor (OnCtx c) u :: s_tr s))
                           c (FU (set_objs f (u :: uf_objs f)) :: rest))
      | UCreate a l CrOk => do_create s c f rest a l true
      | UCreate a l CrNoCtx => do_create s c f rest a l false
      | UCreate _ _ CrNoStack =>
          Next (put_frames (emit s (EvThrow c 0)) c (FU (set_mode f (MLand (XUser 0))) :: rest))    (* L310 *)
      | UMoveCtor src heap =>                                                            (* L471-473 *)
          match get_var s src with
          | Some (b, h) => new_fib (put_var s src (VLive b None)) c f rest heap h
          | None => Invalid
          end
      | UMoveAssign dst src =>                                                           (* L475-481 *)
          match get_var s dst, get_var s src with
          | Some (bd, hd), Some (bs, hs) =>
              if Nat.eqb dst src then Next s
              else drop (put_var (put_var s src (VLive bs None)) dst (VLive bd hs)) t c (FU f :: rest) hd
          | _, _ => Invalid
          end
      | USwap a b =>                                                                     (* L557-559 *)
          match get_var s a, get_var s b with
          | Some (ba, ha), Some (bb, hb) =>
              Next (put_var (put_var s a (VLive ba hb)) b (VLive bb (if Nat.eqb a b then hb else ha)))
          | _, _ => Invalid
          end
      | UDelete v =>
          match get_var s v with
          | Some (true, _) => destroy s t c (FU f :: rest) OnHeap (OFib v)
          | _ => Invalid
          end
      | UScope =>
          match uf_objs f with
          | x :: l => destroy s t c (FU (set_objs f l) :: rest) (OnCtx c) x
          | [] => Invalid
          end
      | UResume src =>                                                                   (* L483-489 *)
          match get_var s src with
          | Some (b, Some d) =>
              switch (put_frames (put_var s src (VLive b None)) c (FRes :: FU f :: rest)) t c d SwJump
          | Some (b, None) => AssertFail (s_tr s)                                                 (* L484 *)
          | None => Invalid
          end
      | UResumeWith src g =>                                                             (* L500-508 *)
          match get_var s src with
          | Some (b, Some d) =>
              switch (put_frames (put_var s src (VLive b None)) c (FRes :: FU f :: rest)) t c d (SwOntop g)
          | Some (b, None) => AssertFail (s_tr s)                                                 (* L501 *)
          | None => Invalid
          end
      | UCall => Next (put_frames s c (FU (mk_uf KPlain [] MRun None) :: FU f :: rest))
      | UReturn v =>
          match uf_kind f with
          | KMain => Invalid
          | KCtx | KOntop _ =>
              if forced_caught f then Violation else
              match v with
              | None => Next (put_frames s c (FU (set_caught f None (MRet None)) :: rest))
              | Some v =>
                  match get_var s v with
                  | Some (b, h) => Next (put_frames (put_var s v (VLive b None)) c
                                           (FU (set_caught f None (MRet h)) :: rest))
                  | None => Invalid
                  end
              end
          | KPlain | KDtor _ =>
              if forced_caught f then Violation else
              match v with
              | None => Next (put_frames s c (FU (set_caught f None (MRet None)) :: rest))
              | Some _ => Invalid
              end
          end
      | UThrow e =>
          if forced_caught f then Violation
          else Next (put_frames (emit s (EvThrow c e)) c (FU (set_caught f None (MUnw (XUser e))) :: rest))
      | UEndCatch =>
          match uf_caught f with
          | Some (XUser _) => Next (put_frames s c (FU (set_caught f None MRun) :: rest))
          | Some (XForced _) => Violation
          | None => Invalid
          end
      | URethrow =>
          match uf_caught f with
          | Some e => Next (put_frames s c (FU (set_caught f None (MUnw e)) :: rest))
          | None => Invalid
          end
      | UCatch | UPropagate => Invalid
      end
  | MLand e =>
      match o with
      | UCatch => match uf_caught f with
                  | None => Next (put_frames s c (FU (set_caught f (Some e) MRun) :: rest))
                  | Some _ => Invalid
                  end
      | UPropagate => if forced_caught f then Violation
                      else Next (put_frames s c (FU (set_caught f None (MUnw e)) :: rest))
      | _ => Invalid
      end
  | _ => Invalid
  end.

Definition step (s : state) (t : nat) (l : label) : outcome :=
  match nth_error (s_thr s) t with
  | None => Invalid
  | Some c =>
      match nth_error (s_rec s) c with
      | None => UB (s_tr s)
      | Some x =>
          match l with
          | LTau => tau_step s t c (r_frames x)
          | LUser o => match r_frames x with
                       | FU f :: rest => user_step s t c f rest o
                       | _ => Invalid
                       end
          end
      end
  end.

(** the main record of a thread, fiber_activation_record() L107-118 *)
Definition main_rec : rcd :=
  mk_r [FU (mk_uf KMain [] MRun None)] true None None false false true None [].
Definition init (n : nat) : state := mk_s (map (fun _ => main_rec) (seq 0 n)) [] (seq 0 n) 0 [].

Fixpoint run (s : state) (l : list (nat * label)) : outcome :=
  match l with
  | [] => Next s
  | (t, a) :: r => match step s t a with Next s' => run s' r | o => o end
  end.

Definition reachable (n : nat) (s : state) : Prop := exists l, run (init n) l = Next s.

(** fiber::operator bool L518-520 *)
Definition valid (s : state) (h : hopt) : bool :=
  match h with
  | None => false
  | Some d => match nth_error (s_rec s) d with Some y => negb (r_term y) | None => false end
  end.
