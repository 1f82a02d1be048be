(** pooled_fixedsize_stack: the shared, reference counted pool, and its use by fibers.

    Allocator objects hold an [intrusive_ptr<storage>] (pooled_fixedsize_stack.hpp L124).
    [intrusive_ptr] is boost/smart_ptr (outside /repo): its copy/move/assign are modelled by
    their documented definition (copy: add_ref; move: steal; assign: copy-and-swap).
    The reference count is an unbounded natural number (fewer than 2^64 copies). *)
From Coq Require Import List Arith Lia Bool ZArith.
From Verif Require Import ListUtil.
Import ListNotations.

(** storage: use_count_ (L72) and whether [delete s] has run (L119); [st_chunks] are the
    chunks taken by [storage_.malloc()] (L89) and not yet given back by [storage_.free] (L110). *)
Record storage := mk_st { st_use : nat; st_deleted : bool; st_chunks : list Z }.

(** an allocator object: destroyed, alive with null pointer (moved-from), alive *)
Inductive aobj := ADead | ANull | APtr (s : nat).

(** a fiber_record living on a pooled stack: the pool's chunk and the allocator copy inside
    (fiber_fcontext.hpp L124-126) *)
Inductive frec := FGone | FRec (salloc : aobj) (chunk : Z).

Record pstate := mk_ps { ps_st : list storage; ps_obj : list aobj; ps_rec : list frec }.
Definition ps0 := mk_ps [] [] [].

(** [PTerminate]: std::terminate; [PAssert]: a BOOST_ASSERT fails *)
Inductive pres := POk (s : pstate) | PBadAlloc (s : pstate) | PTerminate | PAssert | PUB | PInvalid.

(** intrusive_ptr_add_ref, L113-115 *)
Definition add_ref (l : list storage) (a : aobj) : option (list storage) :=
  match a with
  | APtr i => match nth_error l i with
              | Some st => if st_deleted st then None
                           else Some (upd l i (mk_st (S (st_use st)) false (st_chunks st)))
              | None => None
              end
  | _ => Some l
  end.

(** intrusive_ptr_release, L117-121 *)
Definition release (l : list storage) (a : aobj) : option (list storage) :=
  match a with
  | APtr i => match nth_error l i with
              | Some st =>
                  if st_deleted st then None
                  else match st_use st with
                       | O => None
                       | S n => Some (upd l i (mk_st n (n =? 0) (st_chunks st)))
                       end
              | None => None
              end
  | _ => Some l
  end.

(** storage::allocate through an allocator object, L88-100, L135-137; [None] = UB *)
Definition pool_malloc (l : list storage) (a : aobj) (chunk : Z) : option (list storage) :=
  match a with
  | APtr i => match nth_error l i with
              | Some st => if st_deleted st then None
                           else Some (upd l i (mk_st (st_use st) false (chunk :: st_chunks st)))
              | None => None
              end
  | _ => None                       (* null dereference *)
  end.

(** storage::deallocate, L102-111, L139-141: the chunk must have come from this pool *)
Definition pool_free (l : list storage) (a : aobj) (chunk : Z) : option (list storage) :=
  match a with
  | APtr i => match nth_error l i with
              | Some st =>
                  if st_deleted st then None
                  else if in_dec Z.eq_dec chunk (st_chunks st)
                       then Some (upd l i (mk_st (st_use st) false (remove Z.eq_dec chunk (st_chunks st))))
                       else None
              | None => None
              end
  | _ => None
  end.

Definition alive (a : aobj) : bool := match a with ADead => false | _ => true end.

Inductive pop_ :=
| PNew (size : Z) (max : option Z) (mem : bool)
     (* constructor, L129-133; [max]: traits_type::maximum_size() (None: is_unbounded());
        [mem]: whether [new storage] finds memory *)
| PCopy (i : nat)                       (* implicit copy constructor *)
| PMove (i : nat)                       (* implicit move constructor *)
| PCopyAssign (i j : nat)               (* i = j *)
| PMoveAssign (i j : nat)               (* i = std::move(j) *)
| PDestroy (i : nat)
| PCreateFiber (i : nat) (mv : bool) (ans : option Z)
     (* fiber(std::allocator_arg, salloc, fn): fiber_fcontext.hpp L169, L175-176; [mv]: salloc passed
        as an rvalue; [ans]: result of pool::malloc *)
| PEndFiber (r : nat).                  (* fiber_record::destroy, fiber_fcontext.hpp L128-135 *)

Definition lift (o : option (list storage)) (k : list storage -> pres) : pres :=
  match o with Some l => k l | None => PUB end.

Definition pstep (s : pstate) (o : pop_) : pres :=
  match o with
  | PNew size max mem =>
      (* the constructor is noexcept: bad_alloc from [new] calls std::terminate *)
      if negb mem then PTerminate
      (* L85 *)
      else if match max with None => false | Some m => negb (size <=? m)%Z end then PAssert
      else
      (* storage_( new storage(...) ): use_count_ starts at 0 (L82), intrusive_ptr adds 1 *)
      let id := length (ps_st s) in
      lift (add_ref (ps_st s ++ [mk_st 0 false []]) (APtr id)) (fun l =>
        POk (mk_ps l (ps_obj s ++ [APtr id]) (ps_rec s)))
  | PCopy i =>
      match nth_error (ps_obj s) i with
      | Some a => if alive a then
                    lift (add_ref (ps_st s) a) (fun l => POk (mk_ps l (ps_obj s ++ [a]) (ps_rec s)))
                  else PInvalid
      | None => PInvalid
      end
  | PMove i =>
      match nth_error (ps_obj s) i with
      | Some a => if alive a then POk (mk_ps (ps_st s) (upd (ps_obj s) i ANull ++ [a]) (ps_rec s))
                  else PInvalid
      | None => PInvalid
      end
  | PCopyAssign i j =>
      match nth_error (ps_obj s) i, nth_error (ps_obj s) j with
      | Some a, Some c =>
          if alive a && alive c then
            lift (add_ref (ps_st s) c) (fun l =>
            lift (release l a) (fun l' => POk (mk_ps l' (upd (ps_obj s) i c) (ps_rec s))))
          else PInvalid
      | _, _ => PInvalid
      end
  | PMoveAssign i j =>
      match nth_error (ps_obj s) i, nth_error (ps_obj s) j with
      | Some a, Some c =>
          if alive a && alive c then
            if Nat.eqb i j then POk s
            else lift (release (ps_st s) a) (fun l =>
                 POk (mk_ps l (upd (upd (ps_obj s) j ANull) i c) (ps_rec s)))
          else PInvalid
      | _, _ => PInvalid
      end
  | PDestroy i =>
      match nth_error (ps_obj s) i with
      | Some a => if alive a then
                    lift (release (ps_st s) a) (fun l => POk (mk_ps l (upd (ps_obj s) i ADead) (ps_rec s)))
                  else PInvalid
      | None => PInvalid
      end
  | PCreateFiber i mv ans =>
      match nth_error (ps_obj s) i with
      | Some (APtr k) =>
          match ans with
          | None => PBadAlloc s                       (* pooled_fixedsize_stack.hpp L90-92 *)
          | Some chunk =>
              (* pool contract: a fresh chunk *)
              if existsb (fun st => existsb (Z.eqb chunk) (st_chunks st)) (ps_st s) then PInvalid
              else
              lift (pool_malloc (ps_st s) (APtr k) chunk) (fun l =>
              if mv then POk (mk_ps l (upd (ps_obj s) i ANull) (ps_rec s ++ [FRec (APtr k) chunk]))
              else lift (add_ref l (APtr k)) (fun l' =>
                   POk (mk_ps l' (ps_obj s) (ps_rec s ++ [FRec (APtr k) chunk]))))
          end
      | Some ANull => PUB                             (* allocate() on a moved-from allocator *)
      | _ => PInvalid
      end
  | PEndFiber r =>
      match nth_error (ps_rec s) r with
      | Some (FRec a chunk) =>
          (* L129 salloc = std::move(p->salloc_): the member becomes null *)
          let salloc := a in
          (* L132 p->~fiber_record(): releases the (null) member *)
          lift (release (ps_st s) ANull) (fun l =>
          (* L134 salloc.deallocate(sctx) *)
          lift (pool_free l salloc chunk) (fun l' =>
          (* L135 end of scope: ~salloc *)
          lift (release l' salloc) (fun l'' =>
          POk (mk_ps l'' (ps_obj s) (upd (ps_rec s) r FGone)))))
      | _ => PInvalid
      end
  end.

(** the order that must not be used: destroying the record (and with it the allocator member)
    before deallocating through it; kept for comparison, see [pool_naive_order_is_ub] *)
Definition naive_end_fiber (s : pstate) (r : nat) : pres :=
  match nth_error (ps_rec s) r with
  | Some (FRec a chunk) =>
      lift (release (ps_st s) a) (fun l =>
      lift (pool_free l a chunk) (fun l' =>
      POk (mk_ps l' (ps_obj s) (upd (ps_rec s) r FGone))))
  | _ => PInvalid
  end.

(** create_fiber1 of fiber_ucontext.hpp L307-328 with a pooled allocator when getcontext() fails:
    salloc.allocate() L310, the record takes a copy of salloc (an rvalue: takes it away) L315-316,
    L281-283, ~capture_t() L323 releases it again, salloc.deallocate( sctx) L324.  [POk]: the state in which
    std::system_error is thrown. *)
Definition create_fails (s : pstate) (i : nat) (mv : bool) (chunk : Z) : pres :=
  match nth_error (ps_obj s) i with
  | Some (APtr k) =>
      if existsb (fun st => existsb (Z.eqb chunk) (st_chunks st)) (ps_st s) then PInvalid
      else
      lift (pool_malloc (ps_st s) (APtr k) chunk) (fun l =>
      let obj := if mv then ANull else APtr k in
      lift (if mv then Some l else add_ref l (APtr k)) (fun l =>
      lift (release l (APtr k)) (fun l =>
      lift (pool_free l obj chunk) (fun l =>
      POk (mk_ps l (upd (ps_obj s) i obj) (ps_rec s))))))
  | Some ANull => PUB
  | _ => PInvalid
  end.

Fixpoint prun (s : pstate) (l : list pop_) : pres :=
  match l with
  | [] => POk s
  | o :: r => match pstep s o with
              | POk s' | PBadAlloc s' => prun s' r
              | x => x
              end
  end.
