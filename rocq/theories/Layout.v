(** Address arithmetic of the fiber constructors.

    Models [include/boost/context/fiber_fcontext.hpp] L167-249 ([create_fiber1],
    [create_fiber2]; [continuation_fcontext.hpp] L170-252 is textually the same),
    [fiber_ucontext.hpp] L306-407 and the shadow-stack bookkeeping
    [fiber_fcontext.hpp] L73-85, L186-203. All arithmetic is on [uintptr_t] of
    [b] bits with wrap-around. *)
From Coq Require Import ZArith Lia Bool.
From Verif Require Import Word.
Open Scope Z_scope.

(** stack_context.hpp L24-37 (the valgrind / segmented members are omitted). *)
Record stack_context := mk_sctx { sc_size : Z; sc_sp : Z }.

(** preallocated.hpp L23-31 *)
Record preallocated := mk_palloc { pa_sp : Z; pa_size : Z; pa_sctx : stack_context }.

(** Result of the address computation: where the control structure is placed
    ([storage]), what is passed to [make_fcontext] as stack top and size. *)
Record layout := mk_layout { lo_storage : Z; lo_top : Z; lo_bottom : Z; lo_size : Z }.

(** fiber_fcontext.hpp L171-173 / L213-215:
    [(uintptr_t(sp) - sizeof(Record)) & ~uintptr_t(0xff)] *)
Definition storage_of (b sp recsize : Z) : Z :=
  Z.land (wsub b sp recsize) (wnot b 255).

(** fiber_fcontext.hpp L167-184 (create_fiber1): record, 64-byte gap, bottom, size. *)
Definition create_fiber1_layout (b recsize : Z) (sctx : stack_context) : layout :=
  let storage := storage_of b (sc_sp sctx) recsize in
  let stack_top := wsub b storage 64 in
  let stack_bottom := wsub b (sc_sp sctx) (sc_size sctx) in
  mk_layout storage stack_top stack_bottom (wsub b stack_top stack_bottom).

(** fiber_fcontext.hpp L210-225 (create_fiber2): storage below [palloc.sp], bottom
    from [palloc.sctx]; [palloc.size] is not used by the code. *)
Definition create_fiber2_layout (b recsize : Z) (pa : preallocated) : layout :=
  let storage := storage_of b (pa_sp pa) recsize in
  let stack_top := wsub b storage 64 in
  let stack_bottom := wsub b (sc_sp (pa_sctx pa)) (sc_size (pa_sctx pa)) in
  mk_layout storage stack_top stack_bottom (wsub b stack_top stack_bottom).

(** fiber_ucontext.hpp L312-337 (create_fiber1): [uc_stack.ss_sp = stack_bottom],
    [ss_size = storage - stack_bottom - 64]. The stack top that [makecontext]
    derives is [ss_sp + ss_size]. *)
Definition ucreate_fiber1_layout (b recsize : Z) (sctx : stack_context) : layout :=
  let storage := storage_of b (sc_sp sctx) recsize in
  let stack_bottom := wsub b (sc_sp sctx) (sc_size sctx) in
  let ss_size := wsub b (wsub b storage stack_bottom) 64 in
  mk_layout storage (wadd b stack_bottom ss_size) stack_bottom ss_size.

(** fiber_ucontext.hpp L363-388 (create_fiber2) *)
Definition ucreate_fiber2_layout (b recsize : Z) (pa : preallocated) : layout :=
  let storage := storage_of b (pa_sp pa) recsize in
  let stack_bottom := wsub b (sc_sp (pa_sctx pa)) (sc_size (pa_sctx pa)) in
  let ss_size := wsub b (wsub b storage stack_bottom) 64 in
  mk_layout storage (wadd b stack_bottom ss_size) stack_bottom ss_size.

(** Shadow stack size, fiber_fcontext.hpp L187-191, exactly as written (note that the
    third line tests [ss_size] but yields [size]). *)
Definition shadow_size (b size : Z) : Z :=
  let ss := Z.shiftr size 5 in
  let ss := Z.land (wadd b ss 7) (wnot b 7) in
  if 4096 <? ss then size else 4096.

(** The stores of L199-202 as an address/value list in program order:
    [*(stack_top-8) = ss_sp; *(storage-8) = ss_base; *(storage-16) = ss_size]. *)
Definition shadow_stores (b : Z) (lo : layout) (ss_base : Z) : list (Z * Z) :=
  let sz := shadow_size b (lo_size lo) in
  (wsub b (lo_top lo) 8, wadd b ss_base sz)
  :: (wsub b (lo_storage lo) 8, ss_base)
  :: (wsub b (lo_storage lo) 16, sz) :: nil.

(** The loads of fiber_exit, fiber_fcontext.hpp L78-80: the arguments
    [(ss_base, ss_size)] of the [munmap] call; [rec] is the record address and
    [load] the memory. *)
Definition shadow_unmap (b : Z) (rec : Z) (load : Z -> Z) : Z * Z :=
  (load (wsub b rec 8), load (wsub b rec 16)).

(** memory after a list of 8-byte slot stores (slot-granular memory: the three
    slots are 8-byte aligned and distinct, see [shadow_slots_disjoint]) *)
Fixpoint apply_stores (m : Z -> Z) (l : list (Z * Z)) : Z -> Z :=
  match l with
  | nil => m
  | cons (a, v) r => apply_stores (fun x => if x =? a then v else m x) r
  end.
