(** The fiber machine: [fiber] on top of make/jump/ontop_fcontext.

    Models include/boost/context/fiber_fcontext.hpp (and, with the differences recorded in
    [uop]/[callcc_ops], continuation_fcontext.hpp). Any number of threads and contexts. User code
    is an adversary: whenever the code on top of the running context is user code, the label says
    which API operation it performs next. Everything else (label [LTau]) is the library's own code,
    one transition per line of the source that matters.

    Simplifications:
    - a fcontext_t is the pair (context, how-many-th suspension of it), i.e. "the stack pointer stored
      by the n-th suspension"; using any other suspension than the current one is undefined behaviour
      ([UB]);
    - exception state is per context (the documentation forbids switching inside a catch handler and
      rethrowing elsewhere); a handler may switch, but only one exception is handled per frame;
    - whether the stack is unwound before std::terminate is implementation-defined; the model unwinds;
    - steps of different threads are atomic (two threads accessing the same fiber object without
      synchronisation is a data race of the user). *)
From Coq Require Import List Arith Bool.
From Verif Require Import ListUtil.
Import ListNotations.

(** fcontext.hpp L23: value of a fcontext_t *)
Record fctx := mk_fc { fc_ctx : nat; fc_ver : nat }.
(** a [fiber]'s only member fctx_, fiber_fcontext.hpp L262 ([None] = nullptr) *)
Definition hopt := option fctx.

(** automatic objects whose lifetime the library or the unwinder ends: fibers and user objects *)
Inductive obj := OFib (v : nat) | OUsr (u : nat).

(** exceptions: user exceptions and detail::forced_unwind (detail/exception.hpp L23-31) *)
Inductive exn := EUser (e : nat) | EForced (h : fctx).

(** state of a user stack frame: executing; an exception has just arrived from a callee;
    leaving by return (return value already constructed); leaving by exception *)
Inductive mode := MRun | MLand (e : exn) | MRet (r : hopt) | MUnw (e : exn).

(** main function of a thread; context-function (invoked by fiber_record::run L157); function passed
    to resume_with (invoked by fiber_ontop L113); ordinary call; destructor of a user object *)
Inductive ukind := KMain | KCtx | KOntop (g : nat) | KPlain | KDtor (u : nat).

Record uframe := mk_uf {
  uf_kind : ukind;
  uf_objs : list obj;            (* live automatic objects, last constructed first *)
  uf_mode : mode;
  uf_caught : option exn }.      (* exception being handled *)

(** stack frames, top first *)
Inductive frame :=
| FU (f : uframe)
| FCreate                  (* create_fiber1 L207 / create_fiber2 L248, in jump_fcontext *)
| FResume                  (* fiber::resume L326-332, in jump_fcontext *)
| FResumeW (g : nat)       (* fiber::resume_with L339-346, in ontop_fcontext; holds p *)
| FDtor                    (* fiber::~fiber L298-305, in ontop_fcontext *)
| FEntry0 (t : fctx)       (* fiber_entry L88-95 before the jump; t = t.fctx *)
| FEntry1                  (* fiber_entry L95, in jump_fcontext *)
| FEntry2                  (* fiber_entry L97, in rec->run *)
| FEntry3 (t : hopt)       (* fiber_entry L101, t = t.fctx *)
| FOntop                   (* fiber_ontop L113, in p(...) *)
| FExit (c : nat).         (* fiber_exit L74-85 for the finished context c *)

Inductive status :=
| SRun (t : nat)           (* running on thread t *)
| SSusp                    (* suspended *)
| SDying                   (* finished; fiber_exit for it is in progress elsewhere *)
| SFreed.                  (* stack deallocated *)

Record ctx := mk_cx {
  cx_frames : list frame;
  cx_status : status;
  cx_ver : nat;                  (* number of suspensions so far *)
  cx_alloc : option nat;         (* allocator of the stack; None: a thread's own stack *)
  cx_caps : list obj }.          (* objects inside fn_ of the fiber_record on this stack *)

(** a fiber variable: destroyed, or alive (on the heap / automatic) with its fctx_ *)
Inductive var := VDead | VLive (heap : bool) (h : hopt).

(** how control arrives at a context: jump_fcontext, or ontop_fcontext with fiber_unwind,
    fiber_ontop or fiber_exit *)
Inductive swk := SwCreate | SwJump | SwUnwind | SwOntop (g : nat) | SwExit.

(** where an object lives: on the stack of a context, or on the heap *)
Inductive place := OnCtx (c : nat) | OnHeap.

(** observable events *)
Inductive event :=
| EvAlloc (c a : nat)                    (* stack of c obtained from allocator a *)
| EvFree (c a on : nat)                  (* stack of c given to deallocate() of a, by code running on context on *)
| EvRecord (c : nat)                     (* fiber_record of c destroyed *)
| EvSwitch (t from : nat) (h : fctx) (to : fctx) (k : swk)
     (* thread t leaves context [from] (which becomes suspension h; for SwExit h is meaningless)
        and continues suspension [to] *)
| EvEnter (c : nat) (arg : hopt)         (* context-function of c invoked *)
| EvOntop (c g : nat) (arg : fctx)       (* injected function g invoked on c *)
| EvOntopRet (c g : nat) (r : hopt)      (* it returned r *)
| EvOntopExn (c g : nat) (e : exn)       (* it threw e *)
| EvThrow (c e : nat)                    (* user exception e thrown by code running on c (0: bad_alloc) *)
| EvResumed (c : nat) (r : hopt)         (* suspended resume/resume_with/constructor of c returns r *)
| EvRaised (c : nat) (e : exn)           (* suspended resume/resume_with of c throws e *)
| EvDestroyed (c : nat)                  (* a suspended ~fiber of c continues *)
| EvDone (c : nat) (r : hopt)            (* context-function of c left: next context r *)
| EvCtor (p : place) (o : obj)
| EvDtor (p : place) (o : obj).          (* destruction of o begins *)

Record state := mk_s {
  s_ctxs : list ctx;
  s_vars : list var;
  s_thr : list nat;            (* current context of each thread *)
  s_nusr : nat;                (* next user object *)
  s_tr : list event }.         (* newest first *)

Inductive outcome :=
| Next (s : state)
| UB              (* undefined behaviour inside the library *)
| AssertFail      (* a BOOST_ASSERT of the library fails *)
| Terminate       (* std::terminate *)
| Violation       (* the user swallowed forced_unwind (forbidden by the documentation) *)
| Invalid.        (* the label is not applicable in this state *)

(** objects captured by a context-function: a fiber moved from a variable, or a user object *)
Inductive cap := CapFib (v : nat) | CapUsr.

Inductive uop :=
| UNewFib (heap : bool)                  (* fiber f;  L269 *)
| UNewUsr                                (* an automatic object with a user destructor *)
| UCreate (a : nat) (caps : list cap) (ok : bool)
                                         (* fiber f{ std::allocator_arg, a, fn }; ok = allocate() succeeds *)
| UMoveCtor (src : nat) (heap : bool)    (* fiber f{ std::move( src) };  L309-311 *)
| UMoveAssign (dst src : nat)            (* dst = std::move( src);  L313-319 *)
| USwap (a b : nat)                      (* a.swap( b);  L381-383, L400-403 *)
| UDelete (v : nat)                      (* end of the lifetime of a heap fiber *)
| UScope                                 (* end of the scope of the last automatic object *)
| UResume (src : nat)                    (* fiber f = std::move( src).resume();  L324-333 *)
| UResumeWith (src g : nat)              (* fiber f = std::move( src).resume_with( g);  L335-347 *)
| UCall                                  (* call a user function *)
| UReturn (v : option nat)               (* return std::move( v);  / return fiber{}; / return; *)
| UThrow (e : nat)
| UCatch | UPropagate                    (* an exception has arrived: handle it or not *)
| UEndCatch | URethrow.

Inductive label := LTau | LUser (o : uop).

(* ------------------------------------------------------------------ state access *)

Definition set_frames (cx : ctx) (fs : list frame) : ctx :=
  mk_cx fs (cx_status cx) (cx_ver cx) (cx_alloc cx) (cx_caps cx).
Definition set_caps (cx : ctx) (l : list obj) : ctx :=
  mk_cx (cx_frames cx) (cx_status cx) (cx_ver cx) (cx_alloc cx) l.

Definition put_ctx (s : state) (c : nat) (cx : ctx) : state :=
  mk_s (upd (s_ctxs s) c cx) (s_vars s) (s_thr s) (s_nusr s) (s_tr s).
Definition put_var (s : state) (v : nat) (x : var) : state :=
  mk_s (s_ctxs s) (upd (s_vars s) v x) (s_thr s) (s_nusr s) (s_tr s).
Definition add_var (s : state) (x : var) : state :=
  mk_s (s_ctxs s) (s_vars s ++ [x]) (s_thr s) (s_nusr s) (s_tr s).
Definition emit (s : state) (e : event) : state :=
  mk_s (s_ctxs s) (s_vars s) (s_thr s) (s_nusr s) (e :: s_tr s).

(** replace the frames of context c *)
Definition put_frames (s : state) (c : nat) (fs : list frame) : state :=
  match nth_error (s_ctxs s) c with
  | Some cx => put_ctx s c (set_frames cx fs)
  | None => s
  end.

Definition set_mode (f : uframe) (m : mode) : uframe :=
  mk_uf (uf_kind f) (uf_objs f) m (uf_caught f).
Definition set_objs (f : uframe) (l : list obj) : uframe :=
  mk_uf (uf_kind f) l (uf_mode f) (uf_caught f).
Definition set_caught (f : uframe) (x : option exn) (m : mode) : uframe :=
  mk_uf (uf_kind f) (uf_objs f) m x.

(* ------------------------------------------------------------------ returning into a suspended call *)

(** A suspended jump_fcontext/ontop_fcontext call of context c, whose frames are now fs (waiting
    frame on top), returns with t.fctx = r:
    - resume L326-332 / resume_with L339-346 / create_fiber L207: a new fiber {r} is returned;
    - ~fiber L298-305: the result is ignored;
    - fiber_entry L95-97: the context-function is invoked with Ctx{r} (L157). *)
Definition deliver (s : state) (c : nat) (fs : list frame) (r : hopt) : outcome :=
  match fs with
  | FCreate :: FU f :: rest | FResume :: FU f :: rest | FResumeW _ :: FU f :: rest =>
      let v := length (s_vars s) in
      Next (put_frames (emit (emit (add_var s (VLive false r)) (EvResumed c r)) (EvCtor (OnCtx c) (OFib v)))
                       c (FU (set_objs f (OFib v :: uf_objs f)) :: rest))
  | FDtor :: rest => Next (put_frames (emit s (EvDestroyed c)) c rest)
  | FEntry1 :: rest =>
      let v := length (s_vars s) in
      Next (put_frames (emit (emit (add_var s (VLive false r)) (EvEnter c r)) (EvCtor (OnCtx c) (OFib v)))
                       c (FU (mk_uf KCtx [OFib v] MRun None) :: FEntry2 :: rest))
  | _ => UB
  end.

(** An exception leaves the suspended call: it arrives in the user frame that called resume
    (the locals of resume/resume_with have trivial destructors), in fiber_entry's handler L98-100
    (forced_unwind) or at the noexcept of fiber_entry L88 / ~fiber (terminate). *)
Definition raise (s : state) (c : nat) (fs : list frame) (e : exn) : outcome :=
  match fs with
  | FCreate :: FU f :: rest | FResume :: FU f :: rest | FResumeW _ :: FU f :: rest =>
      Next (put_frames (emit s (EvRaised c e)) c (FU (set_mode f (MLand e)) :: rest))
  | FEntry1 :: rest | FEntry2 :: rest =>
      match e with
      | EForced h => Next (put_frames (emit s (EvDone c (Some h))) c (FEntry3 (Some h) :: rest))
      | EUser _ => Terminate
      end
  | FDtor :: _ => Terminate
  | _ => UB
  end.

(* ------------------------------------------------------------------ context switch *)

(** The machine-level switch shared by jump_fcontext and ontop_fcontext (L2: jump/ontop theorems of
    the assembler layer): thread t leaves context c, whose status becomes st, and continues h.
    [None]: h is not the current suspension of its context: undefined behaviour. *)
Definition switch (s : state) (t c : nat) (st : status) (h : fctx) (k : swk) : option (state * fctx) :=
  match nth_error (s_ctxs s) c, nth_error (s_ctxs s) (fc_ctx h) with
  | Some cx, Some tx =>
      match cx_status tx with
      | SSusp =>
          if Nat.eqb (cx_ver tx) (fc_ver h) then
            let me := mk_fc c (S (cx_ver cx)) in
            let cx' := mk_cx (cx_frames cx) st (S (cx_ver cx)) (cx_alloc cx) (cx_caps cx) in
            let tx' := mk_cx (cx_frames tx) (SRun t) (cx_ver tx) (cx_alloc tx) (cx_caps tx) in
            Some (mk_s (upd (upd (s_ctxs s) c cx') (fc_ctx h) tx') (s_vars s)
                       (upd (s_thr s) t (fc_ctx h)) (s_nusr s) (EvSwitch t c me h k :: s_tr s), me)
          else None
      | _ => None
      end
  | _, _ => None
  end.

(** frames of a context *)
Definition frames_of (s : state) (c : nat) : list frame :=
  match nth_error (s_ctxs s) c with Some cx => cx_frames cx | None => [] end.

(** jump_fcontext( h, nullptr) from context c whose frames (including the waiting frame) are fs *)
Definition do_jump (s : state) (t c : nat) (fs : list frame) (h : fctx) : outcome :=
  match switch (put_frames s c fs) t c SSusp h SwJump with
  | None => UB
  | Some (s', me) => deliver s' (fc_ctx h) (frames_of s' (fc_ctx h)) (Some me)
  end.

(** ontop_fcontext( h, nullptr, fiber_unwind): L298-305, L67-71 *)
Definition do_unwind (s : state) (t c : nat) (fs : list frame) (h : fctx) : outcome :=
  match switch (put_frames s c fs) t c SSusp h SwUnwind with
  | None => UB
  | Some (s', me) => raise s' (fc_ctx h) (frames_of s' (fc_ctx h)) (EForced me)
  end.

(** ontop_fcontext( h, &p, fiber_ontop): L339-346, L107-113 *)
Definition do_ontop (s : state) (t c : nat) (fs : list frame) (h : fctx) (g : nat) : outcome :=
  match switch (put_frames s c fs) t c SSusp h (SwOntop g) with
  | None => UB
  | Some (s', me) =>
      let d := fc_ctx h in
      let v := length (s_vars s') in
      Next (put_frames (emit (emit (add_var s' (VLive false (Some me))) (EvOntop d g me)) (EvCtor (OnCtx d) (OFib v)))
              d (FU (mk_uf (KOntop g) [OFib v] MRun None) :: FOntop :: frames_of s' d))
  end.

(** ontop_fcontext( t.fctx, rec, fiber_exit< Rec >): L103, L74. The finished context's stack is not
    used any more. *)
Definition do_exit (s : state) (t c : nat) (h : fctx) : outcome :=
  match switch (put_frames s c []) t c SDying h SwExit with
  | None => UB
  | Some (s', _) => let d := fc_ctx h in Next (put_frames s' d (FExit c :: frames_of s' d))
  end.

(* ------------------------------------------------------------------ destroying an object *)

(** End the lifetime of object o, which lives at p; the code runs on context c of thread t whose
    frames are fs. A fiber: ~fiber L296-307; a user object: its destructor is user code. *)
Definition destroy (s : state) (t c : nat) (fs : list frame) (p : place) (o : obj) : outcome :=
  match o with
  | OUsr u => Next (put_frames (emit s (EvDtor p o)) c (FU (mk_uf (KDtor u) [] MRun None) :: fs))
  | OFib v =>
      match nth_error (s_vars s) v with
      | Some (VLive _ h) =>
          let s1 := put_var (emit s (EvDtor p o)) v VDead in
          match h with
          | None => Next (put_frames s1 c fs)
          | Some h => do_unwind s1 t c (FDtor :: fs) h
          end
      | _ => UB
      end
  end.

(* ------------------------------------------------------------------ leaving a user frame *)

(** The frame f on top has no live objects left and returns r. *)
Definition leave_ret (s : state) (c : nat) (f : uframe) (rest : list frame) (r : hopt) : outcome :=
  match uf_kind f, rest with
  | KPlain, FU g :: _ => Next (put_frames s c rest)
  | KDtor _, _ => Next (put_frames s c rest)
  | KCtx, FEntry2 :: rest' =>                          (* L157-162, L97 *)
      Next (put_frames (emit s (EvDone c r)) c (FEntry3 r :: rest'))
  | KOntop g, FOntop :: rest' =>                       (* L113-118, then return into the suspended call *)
      deliver (emit s (EvOntopRet c g r)) c rest' r
  | _, _ => UB
  end.

(** The frame f on top has been unwound completely; the exception e propagates to its caller. *)
Definition leave_exn (s : state) (c : nat) (f : uframe) (rest : list frame) (e : exn) : outcome :=
  match uf_kind f, rest with
  | KPlain, FU g :: rest' => Next (put_frames s c (FU (set_mode g (MLand e)) :: rest'))
  | KDtor _, _ => Terminate                            (* destructors are noexcept *)
  | KMain, _ => Terminate                              (* uncaught exception *)
  | KCtx, FEntry2 :: _ => raise s c rest e             (* L98-100 / noexcept L88 *)
  | KOntop g, FOntop :: rest' => raise (emit s (EvOntopExn c g e)) c rest' e
  | _, _ => UB
  end.

(* ------------------------------------------------------------------ library steps *)

(** fiber_exit running on context c for finished context d: rec->deallocate() L83 -> destroy L128-135:
    ~fiber_record (destroys fn_, i.e. the captured objects), then salloc.deallocate( sctx); finally
    return { nullptr, nullptr } (L84) into the suspended call. *)
Definition exit_step (s : state) (t c d : nat) (rest : list frame) : outcome :=
  match nth_error (s_ctxs s) d with
  | None => UB
  | Some dx =>
      match cx_status dx with
      | SDying =>
          match cx_caps dx with
          | o :: l => destroy (put_ctx s d (set_caps dx l)) t c (FExit d :: rest) (OnCtx d) o
          | [] =>
              match cx_alloc dx with
              | None => UB
              | Some a =>
                  let s1 := put_ctx s d (mk_cx [] SFreed (cx_ver dx) (cx_alloc dx) []) in
                  deliver (emit (emit s1 (EvRecord d)) (EvFree d a c)) c rest None
              end
          end
      | _ => UB
      end
  end.

Definition tau_step (s : state) (t c : nat) (fs : list frame) : outcome :=
  match fs with
  | FU f :: rest =>
      match uf_mode f with
      | MRet r =>
          match uf_objs f with
          | o :: l => destroy s t c (FU (set_objs f l) :: rest) (OnCtx c) o
          | [] => leave_ret s c f rest r
          end
      | MUnw e =>
          match uf_objs f with
          | o :: l => destroy s t c (FU (set_objs f l) :: rest) (OnCtx c) o
          | [] => leave_exn s c f rest e
          end
      | _ => Invalid
      end
  | FEntry0 h :: rest => do_jump s t c (FEntry1 :: rest) h            (* L95 *)
  | FEntry3 None :: _ => AssertFail                                    (* L101 *)
  | FEntry3 (Some h) :: _ => do_exit s t c h                           (* L103 *)
  | FExit d :: rest => exit_step s t c d rest
  | _ => UB
  end.

(* ------------------------------------------------------------------ user operations *)

(** read a live variable *)
Definition get_var (s : state) (v : nat) : option (bool * hopt) :=
  match nth_error (s_vars s) v with Some (VLive b h) => Some (b, h) | _ => None end.

(** move the captured objects into the closure of context d: new fibers take over the fctx_ of the
    captured ones (move constructor), user objects are new *)
Fixpoint do_caps (s : state) (d : nat) (l : list cap) (acc : list obj) : option (state * list obj) :=
  match l with
  | [] => Some (s, acc)
  | CapUsr :: r =>
      let o := OUsr (s_nusr s) in
      do_caps (mk_s (s_ctxs s) (s_vars s) (s_thr s) (S (s_nusr s)) (EvCtor (OnCtx d) o :: s_tr s)) d r (o :: acc)
  | CapFib v :: r =>
      match get_var s v with
      | Some (b, h) =>
          let o := OFib (length (s_vars s)) in
          do_caps (emit (add_var (put_var s v (VLive b None)) (VLive false h)) (EvCtor (OnCtx d) o)) d r (o :: acc)
      | None => None
      end
  end.

(** create_fiber1 L169-207: the new context starts in fiber_entry with t.fctx = the creator *)
Definition do_create (s : state) (t c : nat) (fs : list frame) (a : nat) (l : list cap) : outcome :=
  let d := length (s_ctxs s) in
  match do_caps (emit s (EvAlloc d a)) d l [] with
  | None => Invalid
  | Some (s1, caps) =>
      match nth_error (s_ctxs s1) c with
      | None => UB
      | Some cx =>
          let me := mk_fc c (S (cx_ver cx)) in
          let cx' := mk_cx (FCreate :: fs) SSusp (S (cx_ver cx)) (cx_alloc cx) (cx_caps cx) in
          let dx := mk_cx [FEntry0 me] (SRun t) 0 (Some a) caps in
          Next (mk_s (upd (s_ctxs s1) c cx' ++ [dx]) (s_vars s1) (upd (s_thr s1) t d) (s_nusr s1)
                     (EvSwitch t c me (mk_fc d 0) SwCreate :: s_tr s1))
      end
  end.

Definition forced_caught (f : uframe) : bool :=
  match uf_caught f with Some (EForced _) => true | _ => false end.

(** construct a new automatic or heap fiber with value h *)
Definition new_fib (s : state) (c : nat) (f : uframe) (rest : list frame) (heap : bool) (h : hopt) : outcome :=
  let v := length (s_vars s) in
  let s1 := add_var s (VLive heap h) in
  if heap then Next (put_frames (emit s1 (EvCtor OnHeap (OFib v))) c (FU f :: rest))
  else Next (put_frames (emit s1 (EvCtor (OnCtx c) (OFib v))) c (FU (set_objs f (OFib v :: uf_objs f)) :: rest)).

Definition user_step (s : state) (t c : nat) (f : uframe) (rest : list frame) (o : uop) : outcome :=
  match uf_mode f with
  | MRun =>
      match o with
      | UNewFib heap => new_fib s c f rest heap None
      | UNewUsr =>
          let u := OUsr (s_nusr s) in
          Next (put_frames (mk_s (s_ctxs s) (s_vars s) (s_thr s) (S (s_nusr s)) (EvCtor (OnCtx c) u :: s_tr s))
                           c (FU (set_objs f (u :: uf_objs f)) :: rest))
      | UCreate a l ok =>
          if ok then do_create s t c (FU f :: rest) a l
          else Next (put_frames (emit s (EvThrow c 0)) c
                       (FU (set_mode f (MLand (EUser 0))) :: rest))               (* L169 throws bad_alloc *)
      | UMoveCtor src heap =>                                    (* L309-311: swap with an empty fiber *)
          match get_var s src with
          | Some (b, h) => new_fib (put_var s src (VLive b None)) c f rest heap h
          | None => Invalid
          end
      | UMoveAssign dst src =>                                   (* L313-319 *)
          match get_var s dst, get_var s src with
          | Some (bd, hd), Some (bs, hs) =>
              if Nat.eqb dst src then Next s                     (* this == & other *)
              else
                let s1 := put_var (put_var s src (VLive bs None)) dst (VLive bd hs) in
                match hd with                                    (* ~tmp *)
                | None => Next s1
                | Some h => do_unwind s1 t c (FDtor :: FU f :: rest) h
                end
          | _, _ => Invalid
          end
      | USwap a b =>
          match get_var s a, get_var s b with
          | Some (ba, ha), Some (bb, hb) =>
              Next (put_var (put_var s a (VLive ba hb)) b (VLive bb (if Nat.eqb a b then hb else ha)))
          | _, _ => Invalid
          end
      | UDelete v =>
          match get_var s v with
          | Some (true, _) => destroy s t c (FU f :: rest) OnHeap (OFib v)
          | _ => Invalid
          end
      | UScope =>
          match uf_objs f with
          | x :: l => destroy s t c (FU (set_objs f l) :: rest) (OnCtx c) x
          | [] => Invalid
          end
      | UResume src =>
          match get_var s src with
          | Some (b, Some h) => do_jump (put_var s src (VLive b None)) t c (FResume :: FU f :: rest) h
          | Some (b, None) => AssertFail                          (* L325 *)
          | None => Invalid
          end
      | UResumeWith src g =>
          match get_var s src with
          | Some (b, Some h) => do_ontop (put_var s src (VLive b None)) t c (FResumeW g :: FU f :: rest) h g
          | Some (b, None) => AssertFail                          (* L337 *)
          | None => Invalid
          end
      | UCall => Next (put_frames s c (FU (mk_uf KPlain [] MRun None) :: FU f :: rest))
      | UReturn v =>
          match uf_kind f with
          | KMain => Invalid
          | KCtx | KOntop _ =>
              if forced_caught f then Violation else
              match v with
              | None => Next (put_frames s c (FU (set_caught f None (MRet None)) :: rest))
              | Some v =>
                  match get_var s v with
                  | Some (b, h) => Next (put_frames (put_var s v (VLive b None)) c
                                           (FU (set_caught f None (MRet h)) :: rest))
                  | None => Invalid
                  end
              end
          | KPlain | KDtor _ =>
              if forced_caught f then Violation else
              match v with
              | None => Next (put_frames s c (FU (set_caught f None (MRet None)) :: rest))
              | Some _ => Invalid
              end
          end
      | UThrow e =>
          if forced_caught f then Violation
          else Next (put_frames (emit s (EvThrow c e)) c (FU (set_caught f None (MUnw (EUser e))) :: rest))
      | UEndCatch =>
          match uf_caught f with
          | Some (EUser _) => Next (put_frames s c (FU (set_caught f None MRun) :: rest))
          | Some (EForced _) => Violation
          | None => Invalid
          end
      | URethrow =>
          match uf_caught f with
          | Some e => Next (put_frames s c (FU (set_caught f None (MUnw e)) :: rest))
          | None => Invalid
          end
      | UCatch | UPropagate => Invalid
      end
  | MLand e =>
      match o with
      | UCatch => match uf_caught f with
                  | None => Next (put_frames s c (FU (set_caught f (Some e) MRun) :: rest))
                  | Some _ => Invalid
                  end
      | UPropagate => if forced_caught f then Violation
                      else Next (put_frames s c (FU (set_caught f None (MUnw e)) :: rest))
      | _ => Invalid
      end
  | _ => Invalid
  end.

(** one step of thread t *)
Definition step (s : state) (t : nat) (l : label) : outcome :=
  match nth_error (s_thr s) t with
  | None => Invalid
  | Some c =>
      match nth_error (s_ctxs s) c with
      | None => UB
      | Some cx =>
          match l with
          | LTau => tau_step s t c (cx_frames cx)
          | LUser o => match cx_frames cx with
                       | FU f :: rest => user_step s t c f rest o
                       | _ => Invalid
                       end
          end
      end
  end.

(** n threads, each in its main function *)
Definition main_ctx (t : nat) : ctx := mk_cx [FU (mk_uf KMain [] MRun None)] (SRun t) 0 None [].
Definition init (n : nat) : state := mk_s (map main_ctx (seq 0 n)) [] (seq 0 n) 0 [].

Fixpoint run (s : state) (l : list (nat * label)) : outcome :=
  match l with
  | [] => Next s
  | (t, a) :: r => match step s t a with Next s' => run s' r | o => o end
  end.

Definition reachable (n : nat) (s : state) : Prop := exists l, run (init n) l = Next s.

(** continuation_fcontext.hpp L388-405: callcc( fn) = create, then resume() the temporary; the
    temporary is the object constructed last by the creation. (For [callcc] the created handle is
    a temporary that is destroyed, empty, at the end of the full expression.) *)
Definition tmp_of (s : state) (t : nat) : option nat :=
  match nth_error (s_thr s) t with
  | Some c => match frames_of s c with
              | FU f :: _ => match uf_objs f with OFib v :: _ => Some v | _ => None end
              | _ => None
              end
  | None => None
  end.
