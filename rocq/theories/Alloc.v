(** Stack allocators: fixedsize, protected (posix and windows), segmented.

    The operating system / C library is an oracle: an allocation label carries the
    answer of malloc/mmap/VirtualAlloc/__splitstack_makecontext. The world records
    what the source considers live, and the access rights of every byte. *)
From Coq Require Import ZArith Lia Bool List.
From Verif Require Import Word Layout.
Import ListNotations.
Open Scope Z_scope.

(** Which allocator class (and thereby which memory source) *)
Inductive akind :=
| KFixedMalloc                 (* fixedsize_stack.hpp, malloc branch L57-60 / L81 *)
| KFixedMmap                   (* fixedsize_stack.hpp, BOOST_CONTEXT_USE_MAP_STACK L52-55 / L79 *)
| KPooled                      (* pooled_fixedsize_stack.hpp L88-111; the memory source is boost::pool *)
| KProtPosix (page : Z)        (* posix/protected_fixedsize_stack.hpp *)
| KProtWin (page : Z)          (* windows/protected_fixedsize_stack.hpp *)
| KSegmented (got : Z).        (* posix/segmented_stack.hpp; [got] = size reported by libgcc *)

(** posix/protected_fixedsize_stack.hpp L54: [(size_ + page_size() - 1) / page_size()] *)
Definition prot_pages (b page size : Z) : Z := wsub b (wadd b size page) 1 / page.
(** L56: [( pages + 1) * page_size()] *)
Definition prot_bytes (b page size : Z) : Z := wmul b (wadd b (prot_pages b page size) 1) page.

(** Bytes requested from the memory source by [allocate()].
    fixedsize_stack.hpp L52/L57; pooled_fixedsize_stack.hpp L82, L89 (one chunk); posix/protected L59-63; windows/protected L51;
    posix/segmented_stack.hpp L54 ([sctx.size] is filled in by libgcc). *)
Definition request (b : Z) (k : akind) (size : Z) : Z :=
  match k with
  | KFixedMalloc | KFixedMmap | KPooled => size
  | KProtPosix page | KProtWin page => prot_bytes b page size
  | KSegmented got => got
  end.

(** The returned stack_context: fixedsize_stack.hpp L62-64, pooled L93-95, posix/protected L72-74,
    windows/protected L60-62, segmented L58: sp = vp + size (as char pointers). *)
Definition sctx_of (b : Z) (k : akind) (size vp : Z) : stack_context :=
  let sz := request b k size in mk_sctx sz (wadd b vp sz).

(** [deallocate]: address given back. fixedsize_stack.hpp L77, pooled L109, posix/protected L88,
    windows/protected L69: vp = sp - size (as char pointers). (segmented: the segment table, identified
    here with its base address.) *)
Definition release_addr (b : Z) (s : stack_context) : Z := wsub b (sc_sp s) (sc_size s).

(** Access rights of a byte.  [PGuard] is Windows' PAGE_READWRITE | PAGE_GUARD: the first access
    raises STATUS_GUARD_PAGE_VIOLATION and makes the page readable and writable. *)
Inductive perm := PUnmapped | PNoAccess | PGuard | PRW.

(** What the lowest page is turned into: mprotect(vp, page_size(), PROT_NONE), posix/protected L68;
    VirtualProtect(vp, page_size(), PAGE_READWRITE | PAGE_GUARD), windows/protected L55-56 *)
Definition guard_perm (k : akind) : perm :=
  match k with KProtWin _ => PGuard | _ => PNoAccess end.

Record world := mk_world {
  w_live : list (Z * Z);                    (* blocks the source considers allocated *)
  w_perm : Z -> perm;
  w_out  : list (akind * stack_context)     (* stack_contexts handed out and not yet deallocated *)
}.

Definition set_perm (f : Z -> perm) (lo len : Z) (p : perm) : Z -> perm :=
  fun a => if (lo <=? a) && (a <? lo + len) then p else f a.

Definition world0 : world := mk_world [] (fun _ => PUnmapped) [].

Definition overlap (x y : Z * Z) : bool :=
  (fst x <? fst y + Z.max 1 (snd y)) && (fst y <? fst x + Z.max 1 (snd x)).

Definition page_of (k : akind) : option Z :=
  match k with KProtPosix p | KProtWin p => Some p | _ => None end.

(** Admissible answers of the memory source: non-null, does not wrap, fresh, page
    aligned for the page based sources (mmap/VirtualAlloc contract). *)
Definition answer_ok (b : Z) (w : world) (k : akind) (len p : Z) : bool :=
  (0 <? p) && (p + Z.max 1 len <? 2 ^ b)
  && negb (existsb (overlap (p, len)) (w_live w))
  && match page_of k with Some pg => p mod pg =? 0 | None => true end.

Inductive wop :=
| OAlloc (k : akind) (size : Z) (ans : option Z) (prot_ok : bool)
| ODealloc (n : nat)
| OAccess (a : Z) (page : Z).     (* the program reads or writes the byte at a; [page] is the system's *)

Inductive wres :=
| WOk (w : world)
| WBadAlloc (w : world)       (* std::bad_alloc is thrown *)
| WFault (w : world)          (* the access is stopped by the system (signal, structured exception) *)
| WAssert                     (* BOOST_ASSERT fails *)
| WBadFree                    (* free/munmap of something that is not a live block: UB *)
| WInvalid.                   (* not an admissible environment answer / no such stack *)

Fixpoint remove_nth {A} (n : nat) (l : list A) : list A :=
  match l, n with
  | [], _ => []
  | _ :: r, O => r
  | x :: r, S m => x :: remove_nth m r
  end.

(** What the memory source does on release: malloc'd and VirtualAlloc'd blocks are
    identified by their base address (free, VirtualFree(vp,0,MEM_RELEASE), releasecontext),
    mappings by base and length (munmap). *)
Definition sized_release (k : akind) : bool :=
  match k with KFixedMmap | KProtPosix _ => true | _ => false end.

Fixpoint take_block (sized : bool) (a len : Z) (l : list (Z * Z)) : option ((Z * Z) * list (Z * Z)) :=
  match l with
  | [] => None
  | (a', len') :: r =>
      if (a =? a') && (negb sized || (len =? len')) then Some ((a', len'), r)
      else match take_block sized a len r with
           | Some (x, r') => Some (x, (a', len') :: r')
           | None => None
           end
  end.

(** One call of [allocate()] / [deallocate()]. *)
Definition wstep (b : Z) (w : world) (o : wop) : wres :=
  match o with
  | OAlloc k size ans prot_ok =>
      let len := request b k size in
      match ans with
      | None => WBadAlloc w           (* fixedsize L53-55/58-60; posix/protected L65; windows L52; segmented L55 *)
      | Some p =>
          if answer_ok b w k len p then
            let perm1 := set_perm (w_perm w) p len PRW in
            match page_of k with
            | None => WOk (mk_world ((p, len) :: w_live w) perm1 ((k, sctx_of b k size p) :: w_out w))
            | Some pg =>
                (* mprotect(vp, page_size(), PROT_NONE) L68-70 / VirtualProtect windows L55-58 *)
                if prot_ok then
                  WOk (mk_world ((p, len) :: w_live w) (set_perm perm1 p pg (guard_perm k))
                                ((k, sctx_of b k size p) :: w_out w))
                else WAssert
            end
          else WInvalid
      end
  | ODealloc n =>
      match nth_error (w_out w) n with
      | None => WInvalid
      | Some (k, s) =>
          (* BOOST_ASSERT(sctx.sp): fixedsize L72, pooled L103, posix/protected L82, windows L67 *)
          if (match k with KSegmented _ => false | _ => sc_sp s =? 0 end) then WAssert
          else match take_block (sized_release k) (release_addr b s) (sc_size s) (w_live w) with
               | None => WBadFree
               | Some ((a, len), rest) =>
                   WOk (mk_world rest (set_perm (w_perm w) a len PUnmapped) (remove_nth n (w_out w)))
               end
      end
  | OAccess a page =>
      match w_perm w a with
      | PRW => WOk w
      | PGuard => WFault (mk_world (w_live w) (set_perm (w_perm w) (a / page * page) page PRW) (w_out w))
      | _ => WFault w
      end
  end.

(** A history of allocator calls; after bad_alloc or a handled fault the program may go on. *)
Fixpoint wrun (b : Z) (w : world) (l : list wop) : wres :=
  match l with
  | [] => WOk w
  | o :: r => match wstep b w o with
              | WOk w' | WBadAlloc w' | WFault w' => wrun b w' r
              | other => other
              end
  end.

(** ** map_stack_allocator (BOOST_CONTEXT_USE_MAP_STACK)

    The memory source of the pool of pooled_fixedsize_stack in that configuration: a block of the
    heap, aligned to a page, is replaced by a private anonymous mapping at the same address. *)

(** the heap: live blocks (address, size) and the contents of memory *)
Record heap := mk_heap { h_live : list (Z * Z); h_mem : Z -> Z }.

(** mmap(block, bytes, ..., MAP_FIXED | MAP_ANON): the kernel maps whole pages, all that contain a
    byte of [block, block + bytes), and they read as zero (mmap(2)) *)
Definition map_fixed (page : Z) (m : Z -> Z) (block bytes : Z) : Z -> Z :=
  fun a => if (block / page * page <=? a) && (a <? (block + bytes + page - 1) / page * page) then 0 else m a.

(** pooled_fixedsize_stack.hpp L49-60; [ans]: the block posix_memalign found (None: it failed),
    [ok]: whether mmap succeeds *)
Definition map_malloc (page : Z) (h : heap) (bytes : Z) (ans : option Z) (ok : bool) : heap * option Z :=
  match ans with
  | None => (h, None)                                             (* L51-53 *)
  | Some block =>
      let live := (block, bytes) :: h_live h in
      if ok then (mk_heap live (map_fixed page (h_mem h) block bytes), Some block)   (* L54, L58 *)
      else (mk_heap (h_live h) (h_mem h), None)                   (* L55-56: std::free(block) *)
  end.

(** what posix_memalign guarantees: alignment, and no overlap with a live block *)
Definition memalign_ok (page : Z) (h : heap) (bytes block : Z) : Prop :=
  0 < block /\ block mod page = 0 /\
  forall x, In x (h_live h) -> fst x + snd x <= block \/ block + bytes <= fst x.
