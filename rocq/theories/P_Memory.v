(** Property theorems C20-C25, C31, C39 (memory layout, allocators, traits). *)
From Coq Require Import ZArith Lia List Bool Permutation.
From Verif Require Import Word Layout LayoutFacts Alloc AllocFacts Traits ListUtil Pool PoolFacts.
Import ListNotations.
Open Scope Z_scope.

(* ------------------------------------------------------------------ C20 *)
(** Specification: [region bottom top] is the half open byte interval; a placement is correct
    if control structure, gap and stack are stacked without overlap inside it. *)
Definition placed_in (bottom top recsize : Z) (lo : layout) : Prop :=
  (* control structure inside the region, 256-byte aligned, less than 256 bytes wasted above it *)
  lo_storage lo mod 256 = 0 /\ lo_storage lo + recsize <= top < lo_storage lo + recsize + 256 /\
  (* the stack proper: from the bottom of the region up to 64 bytes below the control structure *)
  lo_bottom lo = bottom /\ bottom <= lo_top lo /\ lo_top lo + 64 = lo_storage lo /\
  lo_top lo mod 16 = 0 /\ lo_size lo = lo_top lo - bottom.

Lemma placed_of b recsize top bottom lo :
  lo_storage lo mod 256 = 0 /\ lo_storage lo + recsize <= top < lo_storage lo + recsize + 256 /\
  lo_top lo + 64 = lo_storage lo /\ lo_bottom lo = bottom /\ bottom <= lo_top lo /\
  lo_size lo = lo_top lo - bottom -> 8 <= b -> placed_in bottom top recsize lo.
Proof.
  intros H _. unfold placed_in.
  assert (lo_top lo mod 16 = 0); [|lia].
  replace (lo_top lo) with (lo_storage lo - 64) by lia.
  rewrite Zminus_mod. rewrite (Z.div_mod (lo_storage lo) 256) by lia.
  replace (lo_storage lo mod 256) with 0 by lia. rewrite Z.add_0_r.
  replace (256 * (lo_storage lo / 256)) with (16 * (lo_storage lo / 256) * 16) by ring.
  rewrite Z_mod_mult. reflexivity.
Qed.

Theorem C20_layout_fits : forall b recsize sctx,
  8 <= b -> 0 <= recsize ->
  0 <= sc_size sctx <= sc_sp sctx -> sc_sp sctx < 2 ^ b ->
  recsize + 64 + 255 <= sc_size sctx ->
  placed_in (sc_sp sctx - sc_size sctx) (sc_sp sctx) recsize (create_fiber1_layout b recsize sctx).
Proof. intros; apply (placed_of b); [apply layout1_ok; assumption|assumption]. Qed.
Print Assumptions C20_layout_fits.

(** the ucontext implementation computes the same placement *)
Theorem C20_layout_fits_ucontext : forall b recsize sctx,
  8 <= b -> 0 <= recsize ->
  0 <= sc_size sctx <= sc_sp sctx -> sc_sp sctx < 2 ^ b ->
  recsize + 64 + 255 <= sc_size sctx ->
  placed_in (sc_sp sctx - sc_size sctx) (sc_sp sctx) recsize (ucreate_fiber1_layout b recsize sctx).
Proof. intros; rewrite ulayout1_eq by assumption; apply C20_layout_fits; assumption. Qed.
Print Assumptions C20_layout_fits_ucontext.

Example C20_case : let s := mk_sctx 131072 (2 ^ 47 + 12345) in
  (0 <= sc_size s <= sc_sp s) /\ sc_sp s < 2 ^ 64 /\ 96 + 64 + 255 <= sc_size s /\
  lo_size (create_fiber1_layout 64 96 s) = 130695.
Proof. vm_compute; repeat split; congruence. Qed.

(* ------------------------------------------------------------------ C21 *)
Theorem C21_preallocated : forall b recsize pa,
  8 <= b -> 0 <= recsize ->
  0 <= sc_size (pa_sctx pa) <= sc_sp (pa_sctx pa) -> sc_sp (pa_sctx pa) < 2 ^ b ->
  sc_sp (pa_sctx pa) - sc_size (pa_sctx pa) + recsize + 64 + 255 <= pa_sp pa <= sc_sp (pa_sctx pa) ->
  placed_in (sc_sp (pa_sctx pa) - sc_size (pa_sctx pa)) (pa_sp pa) recsize (create_fiber2_layout b recsize pa)
  /\ ucreate_fiber2_layout b recsize pa = create_fiber2_layout b recsize pa.
Proof.
  intros; split; [apply (placed_of b); [apply layout2_ok; assumption|assumption]|
                  apply ulayout2_eq; assumption].
Qed.
Print Assumptions C21_preallocated.

Example C21_case : let pa := mk_palloc 100000 90000 (mk_sctx 90100 100100) in
  lo_storage (create_fiber2_layout 64 200 pa) = 99584 /\ lo_size (create_fiber2_layout 64 200 pa) = 89520.
Proof. vm_compute; auto. Qed.

(* ------------------------------------------------------------------ C22 *)
(** No check: the size passed on is the true distance exactly if the gap fits, otherwise it
    has wrapped around to an enormous value; the constructor does not notice either way. *)
Theorem C22_undersized_stack_wraps : forall b recsize sctx,
  8 <= b -> 0 <= recsize ->
  0 <= sc_size sctx <= sc_sp sctx -> sc_sp sctx < 2 ^ b ->
  recsize + 64 + 255 <= sc_sp sctx ->
  let lo := create_fiber1_layout b recsize sctx in
  let bottom := sc_sp sctx - sc_size sctx in
  (lo_size lo <= sc_size sctx <-> bottom <= lo_top lo) /\
  (lo_top lo < bottom -> lo_size lo = 2 ^ b - (bottom - lo_top lo)).
Proof. exact layout1_wrap. Qed.
Print Assumptions C22_undersized_stack_wraps.

(** "the computed stack always lies inside the allocated region" is false of the code *)
Theorem C22_size_check_refuted : exists sctx,
  0 < sc_size sctx <= sc_sp sctx /\
  lo_top (create_fiber1_layout 64 96 sctx) < sc_sp sctx - sc_size sctx /\
  sc_size sctx < lo_size (create_fiber1_layout 64 96 sctx).
Proof. exists (mk_sctx 128 1048576). vm_compute; repeat split; congruence. Qed.
Print Assumptions C22_size_check_refuted.

(* ------------------------------------------------------------------ C23 *)
Theorem C23_protected_size : forall b page size,
  0 < page -> 0 <= size -> size + 2 * page <= 2 ^ b ->
  prot_bytes b page size mod page = 0 /\
  size + page <= prot_bytes b page size < size + 2 * page.
Proof. intros; apply prot_bytes_spec; assumption. Qed.
Print Assumptions C23_protected_size.

(** For every state of the memory source and every address it answers: the lowest page of the
    block is inaccessible (a guard page on Windows), everything above it up to [sp] (at least [size] bytes) is usable and
    nothing else changes. *)
Theorem C23_guard_page : forall b w page size p w' k,
  k = KProtPosix page \/ k = KProtWin page ->
  0 < page -> 0 <= size -> size + 2 * page <= 2 ^ b ->
  wstep b w (OAlloc k size (Some p) true) = WOk w' ->
  exists s, hd_error (w_out w') = Some (k, s) /\
    sc_sp s - sc_size s = p /\ size <= sc_sp s - (p + page) /\
    (forall a, p <= a < p + page ->
       w_perm w' a = match k with KProtWin _ => PGuard | _ => PNoAccess end) /\
    (forall a, p + page <= a < sc_sp s -> w_perm w' a = PRW) /\
    (forall a, a < p \/ sc_sp s <= a -> w_perm w' a = w_perm w a).
Proof.
  intros b w page size p w' k Hk Hp Hs Hle H.
  pose proof (prot_bytes_spec b page size Hp Hs Hle) as [Hm Hn].
  pose proof (prot_perm b w page size p w' k Hk Hp Hs Hle H) as [P1 [P2 P3]].
  exists (sctx_of b k size p).
  assert (Hreq : request b k size = prot_bytes b page size) by (destruct Hk as [-> | ->]; reflexivity).
  assert (Hsp : answer_ok b w k (prot_bytes b page size) p = true /\ hd_error (w_out w') = Some (k, sctx_of b k size p)).
  { destruct Hk as [-> | ->]; cbn [wstep page_of] in H; rewrite Hreq in H;
      destruct (answer_ok b w _ _ p); try discriminate; injection H as <-; auto. }
  destruct Hsp as [Ha Hout]. apply answer_ok_spec in Ha. destruct Ha as [Ha1 [Ha2 _]].
  unfold sctx_of; cbn [sc_sp sc_size]. rewrite Hreq, wadd_small by lia.
  unfold sctx_of in Hout; rewrite Hreq, wadd_small in Hout by lia.
  repeat split; auto; lia.
Qed.
Print Assumptions C23_guard_page.

(** In every history of allocations, releases and accesses by the program: an access to the lowest
    page of a protected stack in use is stopped (POSIX), and an access to the rest of any stack in
    use, up to [sp], succeeds. *)
Theorem C23_overflow_is_stopped : forall b pg ops w page s a,
  0 <= b -> 0 < pg -> Forall (sane b pg) ops -> wrun b world0 ops = WOk w ->
  In (KProtPosix page, s) (w_out w) -> sc_sp s - sc_size s <= a < sc_sp s - sc_size s + pg ->
  page = pg /\ wstep b w (OAccess a pg) = WFault w.
Proof.
  intros b pg ops w page s a Hb Hpg SN H I Ha.
  pose proof (wrun_rinv b pg ops Hb Hpg _ _ (rinv0 b pg) SN H) as [_ R].
  destruct (R _ I) as (R1 & _ & _ & R4). cbn [fst snd guard_size page_of] in *.
  destruct R1 as [R1 _]; [discriminate|]. injection R1 as ->. split; [reflexivity|].
  cbn [wstep]. rewrite (R4 a Ha). reflexivity.
Qed.
Print Assumptions C23_overflow_is_stopped.

Theorem C23_stack_is_usable : forall b pg ops w k s a,
  0 <= b -> 0 < pg -> Forall (sane b pg) ops -> wrun b world0 ops = WOk w ->
  In (k, s) (w_out w) ->
  sc_sp s - sc_size s + match k with KProtPosix _ | KProtWin _ => pg | _ => 0 end <= a < sc_sp s ->
  wstep b w (OAccess a pg) = WOk w.
Proof.
  intros b pg ops w k s a Hb Hpg SN H I Ha.
  pose proof (wrun_rinv b pg ops Hb Hpg _ _ (rinv0 b pg) SN H) as [_ R].
  destruct (R _ I) as (R1 & _ & R3 & _). cbn [fst snd] in *.
  cbn [wstep]. rewrite (R3 a); [reflexivity|].
  unfold guard_size. destruct k; cbn [page_of] in *; try lia;
    (destruct R1 as [R1 _]; [discriminate|]); injection R1 as ->; lia.
Qed.
Print Assumptions C23_stack_is_usable.

Example C23_history_case :
  let ops := [OAlloc (KProtPosix 4096) 100000 (Some 1048576) true; OAlloc KPooled 5000 (Some 4000) true;
              OAccess 1048600 4096; OAccess 1060000 4096; ODealloc 0; OAccess 4000 4096] in
  Forall (sane 64 4096) ops /\
  match wrun 64 world0 ops with
  | WOk w => w_out w = [(KProtPosix 4096, mk_sctx 106496 (1048576 + 106496))]
  | _ => False
  end.
Proof. cbv zeta. split; [repeat constructor; cbn; lia|]. vm_compute. reflexivity. Qed.

(** On Windows the lowest page is a PAGE_GUARD page: only the first access is stopped. *)
Theorem C23_windows_guard_refuted : exists ops w w1 s a,
  Forall (sane 64 4096) ops /\ wrun 64 world0 ops = WOk w /\ In (KProtWin 4096, s) (w_out w) /\
  sc_sp s - sc_size s <= a < sc_sp s - sc_size s + 4096 /\
  wstep 64 w (OAccess a 4096) = WFault w1 /\ wstep 64 w1 (OAccess a 4096) = WOk w1.
Proof.
  exists [OAlloc (KProtWin 4096) 65536 (Some 1048576) true]. eexists. eexists.
  exists (mk_sctx 69632 (1048576 + 69632)), 1052671. split; [repeat constructor; cbn; lia|].
  split; [reflexivity|]. split; [left; reflexivity|]. split; [cbn; lia|].
  split; reflexivity.
Qed.
Print Assumptions C23_windows_guard_refuted.

Example C23_case : exists w',
  wstep 64 world0 (OAlloc (KProtPosix 4096) 100000 (Some 1048576) true) = WOk w' /\
  prot_bytes 64 4096 100000 = 106496.
Proof. eexists; split; [reflexivity|vm_compute; reflexivity]. Qed.

(** Outside the stated range the rounding overflows: a request of SIZE_MAX yields a mapping that
    consists of the guard page only. *)
Theorem C23_overflow_refuted : exists size, 0 <= size < 2 ^ 64 /\ prot_bytes 64 4096 size = 4096 /\ 4096 < size.
Proof. exists (2 ^ 64 - 1). vm_compute; repeat split; congruence. Qed.
Print Assumptions C23_overflow_refuted.

(* ------------------------------------------------------------------ C24 *)
(** Any history of allocate/deallocate calls on any mixture of allocators, with any admissible
    answers of the memory source: never an invalid free, and afterwards the blocks the source
    considers live are exactly (one to one) the regions of the stack_contexts still in use,
    pairwise disjoint. *)
Theorem C24_alloc_history : forall b ops,
  0 <= b -> Forall (request_ok b) ops ->
  match wrun b world0 ops with
  | WBadFree => False
  | WOk w => Permutation (w_live w)
               (map (fun e => (sc_sp (snd e) - sc_size (snd e), sc_size (snd e))) (w_out w))
             /\ (forall i j x y, i <> j -> nth_error (w_live w) i = Some x -> nth_error (w_live w) j = Some y ->
                   fst x + snd x <= fst y \/ fst y + snd y <= fst x)
  | _ => True
  end.
Proof.
  intros b ops Hb Hr. pose proof (wrun_inv b world0 ops Hb (winv0 b) Hr) as H.
  destruct (wrun b world0 ops); auto. destruct H as [Hp Hok Hd]. split; [exact Hp|].
  intros i j x y Hij Hx Hy. pose proof (Hd i j x y Hij Hx Hy) as Ho. unfold overlap in Ho.
  apply andb_false_iff in Ho. destruct Ho as [Ho|Ho]; apply Z.ltb_ge in Ho; lia.
Qed.
Print Assumptions C24_alloc_history.

(** allocate() throws std::bad_alloc exactly when the source has no memory, and then changes
    nothing; otherwise the new stack_context spans the block the source returned, of the size asked
    for (whole pages and the guard page for protected stacks) *)
Theorem C24_allocate : forall b w k size ans ok, 0 <= request b k size ->
  match ans, wstep b w (OAlloc k size ans ok) with
  | None, r => r = WBadAlloc w
  | Some p, WOk w' => exists s, w_out w' = (k, s) :: w_out w /\ w_live w' = (p, sc_size s) :: w_live w /\
      sc_sp s = p + sc_size s /\
      sc_size s = match k with
                  | KSegmented got => got
                  | KProtPosix page | KProtWin page => prot_bytes b page size
                  | _ => size
                  end
  | Some _, WBadAlloc _ | Some _, WFault _ | Some _, WBadFree => False
  | Some _, _ => True
  end.
Proof.
  intros b w k size [p|] ok G; cbn [wstep]; [|reflexivity].
  destruct (answer_ok b w k (request b k size) p) eqn:Ea; [|exact I].
  apply answer_ok_spec in Ea. destruct Ea as (A1 & A2 & _).
  assert (SP : sc_sp (sctx_of b k size p) = p + request b k size)
    by (unfold sctx_of; cbn [sc_sp]; apply wadd_small; lia).
  destruct (page_of k); [destruct ok|]; try exact I; exists (sctx_of b k size p);
    (split; [reflexivity|]); (split; [reflexivity|]); (split; [exact SP|]); destruct k; reflexivity.
Qed.
Print Assumptions C24_allocate.

(** In every history, deallocating a stack in use succeeds, ends the use of exactly its bytes and
    touches no other. *)
Theorem C24_deallocate : forall b pg ops w n k s,
  0 <= b -> 0 < pg -> Forall (sane b pg) ops -> wrun b world0 ops = WOk w ->
  nth_error (w_out w) n = Some (k, s) ->
  exists w', wstep b w (ODealloc n) = WOk w' /\ Permutation (w_out w) ((k, s) :: w_out w') /\
    (forall a, sc_sp s - sc_size s <= a < sc_sp s -> w_perm w' a = PUnmapped) /\
    (forall a, ~ (sc_sp s - sc_size s <= a < sc_sp s) -> w_perm w' a = w_perm w a).
Proof.
  intros b pg ops w n k s Hb Hpg SN H En.
  pose proof (wrun_rinv b pg ops Hb Hpg _ _ (rinv0 b pg) SN H) as RI.
  pose proof (wstep_safe b w (ODealloc n) Hb (ri_w _ _ _ RI)) as [S1 S2].
  assert (X : exists w', wstep b w (ODealloc n) = WOk w' /\ w_out w' = remove_nth n (w_out w)).
  { cbn [wstep] in *. rewrite En in *.
    destruct (match k with KSegmented _ => false | _ => sc_sp s =? 0 end).
    { destruct (S2 eq_refl) as (? & ? & ? & ?). discriminate. }
    destruct (take_block _ _ _ _) as [[[a len] r]|]; [|contradiction]. eauto. }
  destruct X as (w' & X & Xo). exists w'. split; [exact X|].
  destruct (rinv_dealloc b pg w n w' Hb Hpg RI X) as (_ & k' & s' & En' & D1 & D2).
  rewrite En in En'. injection En' as <- <-. split; [|split; assumption].
  rewrite Xo. apply remove_nth_perm. exact En.
Qed.
Print Assumptions C24_deallocate.

Theorem C24_release_gives_back_block : forall b k size p,
  0 <= b -> is_word b p ->
  release_addr b (sctx_of b k size p) = p /\ sc_size (sctx_of b k size p) = request b k size.
Proof.
  intros b k size p Hb Hp; split; [|reflexivity].
  unfold release_addr, sctx_of; cbn [sc_sp sc_size]. apply wsub_wadd; assumption.
Qed.
Print Assumptions C24_release_gives_back_block.

Example C24_case : exists w,
  wrun 64 world0 [OAlloc KFixedMalloc 65536 (Some 4096) true; OAlloc (KProtPosix 4096) 8192 (Some 131072) true;
                  OAlloc KFixedMalloc 100 None true; ODealloc 1; OAlloc KFixedMmap 70000 (Some 8192) true] = WOk w
  /\ w_live w = [(8192, 70000); (131072, 12288)].
Proof. eexists; split; reflexivity. Qed.

(* ------------------------------------------------------------------ C25 *)
(** number of existing copies of the allocator that share pool [k]: allocator objects plus the
    copies stored in the control structures of fibers *)
Definition copies (k : nat) (s : pstate) : nat :=
  length (filter (fun a => match a with APtr i => Nat.eqb i k | _ => false end) (ps_obj s)) +
  length (filter (fun r => match r with FRec (APtr i) _ => Nat.eqb i k | _ => false end) (ps_rec s)).

Lemma copies_holders k s : copies k s = holders k s.
Proof.
  unfold copies, holders. f_equal.
  - induction (ps_obj s) as [|[| |i] l IH]; cbn; auto. destruct (Nat.eqb i k); cbn; auto.
  - induction (ps_rec s) as [|[|[| |i] c] l IH]; cbn; auto. destruct (Nat.eqb i k); cbn; auto.
Qed.

(** After any history: a pool has been deleted iff no copy of its allocator exists; every stack
    taken from a pool and not yet returned belongs to a fiber whose control structure holds a copy
    of that allocator, so its pool still exists; the only undefined behaviour is constructing a
    fiber from a moved-from allocator. *)
Theorem C25_pool_lifetime : forall ops,
  match prun ps0 ops with
  | POk s => forall k st, nth_error (ps_st s) k = Some st ->
      (st_deleted st = true <-> copies k s = 0%nat) /\
      (forall c, In c (st_chunks st) ->
         st_deleted st = false /\ exists r, nth_error (ps_rec s) r = Some (FRec (APtr k) c)) /\
      NoDup (st_chunks st)
  | PUB => exists i mv ans, In (PCreateFiber i mv ans) ops
  | _ => True
  end.
Proof.
  intros ops. pose proof (prun_inv ops ps0 pinv0) as H. destruct (prun ps0 ops) as [s|s| | | |]; auto.
  intros k st Hk. rewrite copies_holders. destruct (pi_use s H k st Hk) as [Hu Hd].
  split; [exact Hd|]. split; [|eapply pi_nodup; eauto]. intros c Hc.
  destruct (pi_out s H k st c Hk Hc) as [r Hr].
  split; [|eauto]. destruct (st_deleted st); [|reflexivity].
  pose proof (holder_rec s r k c Hr). destruct Hd as [Hd _]. specialize (Hd eq_refl). lia.
Qed.
Print Assumptions C25_pool_lifetime.

(** one step: undefined behaviour arises only from allocating through a moved-from allocator *)
Theorem C25_no_ub : forall ops s o, prun ps0 ops = POk s -> pstep s o = PUB ->
  exists i mv ans, o = PCreateFiber i mv ans /\ nth_error (ps_obj s) i = Some ANull.
Proof.
  intros ops s o H Hu. pose proof (prun_inv ops ps0 pinv0) as Hi. rewrite H in Hi.
  pose proof (pstep_inv s o Hi) as Hs. rewrite Hu in Hs. exact Hs.
Qed.
Print Assumptions C25_no_ub.

(** the stacks taken from pool [k] and not yet returned *)
Definition stacks_of (s : pstate) (k : nat) : list Z :=
  match nth_error (ps_st s) k with Some st => st_chunks st | None => [] end.

(** what each operation does: which allocator object shares which pool afterwards, which control
    structure holds a copy, and which stacks are taken from which pool *)
Theorem C25_effect : forall s o s', pstep s o = POk s' ->
  match o with
  | PNew _ _ _ =>
      exists k, ps_obj s' = ps_obj s ++ [APtr k] /\ nth_error (ps_st s) k = None /\
        ps_rec s' = ps_rec s /\ forall k', stacks_of s' k' = stacks_of s k'
  | PCopy i =>
      exists a, nth_error (ps_obj s) i = Some a /\ ps_obj s' = ps_obj s ++ [a] /\
        ps_rec s' = ps_rec s /\ forall k, stacks_of s' k = stacks_of s k
  | PMove i =>
      exists a, nth_error (ps_obj s) i = Some a /\ ps_obj s' = upd (ps_obj s) i ANull ++ [a] /\
        ps_rec s' = ps_rec s /\ forall k, stacks_of s' k = stacks_of s k
  | PCopyAssign i j =>
      exists a, nth_error (ps_obj s) j = Some a /\ ps_obj s' = upd (ps_obj s) i a /\
        ps_rec s' = ps_rec s /\ forall k, stacks_of s' k = stacks_of s k
  | PMoveAssign i j =>
      exists a, nth_error (ps_obj s) j = Some a /\ nth_error (ps_obj s') i = Some a /\
        (i <> j -> nth_error (ps_obj s') j = Some ANull) /\
        (forall n, n <> i -> n <> j -> nth_error (ps_obj s') n = nth_error (ps_obj s) n) /\
        ps_rec s' = ps_rec s /\ forall k, stacks_of s' k = stacks_of s k
  | PDestroy i =>
      ps_obj s' = upd (ps_obj s) i ADead /\ ps_rec s' = ps_rec s /\ forall k, stacks_of s' k = stacks_of s k
  | PCreateFiber i mv ans =>
      exists k c, ans = Some c /\ nth_error (ps_obj s) i = Some (APtr k) /\
        ps_obj s' = (if mv then upd (ps_obj s) i ANull else ps_obj s) /\
        ps_rec s' = ps_rec s ++ [FRec (APtr k) c] /\ stacks_of s' k = c :: stacks_of s k /\
        forall k', k' <> k -> stacks_of s' k' = stacks_of s k'
  | PEndFiber r =>
      exists k c, nth_error (ps_rec s) r = Some (FRec (APtr k) c) /\ ps_obj s' = ps_obj s /\
        ps_rec s' = upd (ps_rec s) r FGone /\ stacks_of s' k = remove Z.eq_dec c (stacks_of s k) /\
        forall k', k' <> k -> stacks_of s' k' = stacks_of s k'
  end.
Proof.
  assert (AR : forall l a l', add_ref l a = Some l' -> forall k,
     match nth_error l' k with Some st => st_chunks st | None => [] end =
     match nth_error l k with Some st => st_chunks st | None => [] end).
  { intros l [| |i] l' H k; cbn in H; try (injection H as <-; reflexivity). destruct (nth_error l i) as [st|] eqn:E; [|discriminate].
    destruct (st_deleted st); [discriminate|]. injection H as <-. rewrite nth_upd.
    destruct (Nat.eqb_spec i k) as [->|]; [|reflexivity]. rewrite E.
    apply nth_some_lt in E. apply Nat.ltb_lt in E. rewrite E. reflexivity. }
  assert (RL : forall l a l', release l a = Some l' -> forall k,
     match nth_error l' k with Some st => st_chunks st | None => [] end =
     match nth_error l k with Some st => st_chunks st | None => [] end).
  { intros l [| |i] l' H k; cbn in H; try (injection H as <-; reflexivity). destruct (nth_error l i) as [st|] eqn:E; [|discriminate].
    destruct (st_deleted st); [discriminate|]. destruct (st_use st); [discriminate|]. injection H as <-. rewrite nth_upd.
    destruct (Nat.eqb_spec i k) as [->|]; [|reflexivity]. rewrite E.
    apply nth_some_lt in E. apply Nat.ltb_lt in E. rewrite E. reflexivity. }
  unfold stacks_of. intros s o s' H.
  destruct o as [size max mem|i|i|i j|i j|i|i mv ans|r]; cbn [pstep] in H.
  - destruct (negb mem); [discriminate|].
    destruct (match max with None => false | Some m => negb (size <=? m)%Z end); [discriminate|].
    destruct (add_ref _ _) as [l|] eqn:E; [|discriminate]. cbn [lift] in H. injection H as <-.
    exists (length (ps_st s)). split; [reflexivity|]. split; [apply nth_error_None; lia|]. split; [reflexivity|].
    intros k'. cbn [ps_st]. rewrite (AR _ _ _ E). destruct (Nat.lt_ge_cases k' (length (ps_st s))) as [Q|Q].
    + rewrite nth_error_app1 by exact Q. reflexivity.
    + rewrite nth_error_app2 by exact Q. rewrite (proj2 (nth_error_None (ps_st s) k') Q).
      destruct (k' - length (ps_st s))%nat as [|[|?]]; reflexivity.
  - destruct (nth_error (ps_obj s) i) as [a|]; [|discriminate]. destruct (alive a); [|discriminate].
    destruct (add_ref _ _) as [l|] eqn:E; [|discriminate]. injection H as <-. exists a. repeat split. apply (AR _ _ _ E).
  - destruct (nth_error (ps_obj s) i) as [a|]; [|discriminate]. destruct (alive a); [|discriminate].
    injection H as <-. exists a. repeat split.
  - destruct (nth_error (ps_obj s) i) as [a|]; [|discriminate].
    destruct (nth_error (ps_obj s) j) as [c|]; [|discriminate]. destruct (alive a && alive c); [|discriminate].
    destruct (add_ref _ _) as [l|] eqn:E; [|discriminate]. cbn [lift] in H.
    destruct (release _ _) as [l'|] eqn:E'; [|discriminate]. injection H as <-. exists c. repeat split.
    intros k. cbn [ps_st]. rewrite (RL _ _ _ E'). apply (AR _ _ _ E).
  - destruct (nth_error (ps_obj s) i) as [a|] eqn:Ei; [|discriminate].
    destruct (nth_error (ps_obj s) j) as [c|] eqn:Ej; [|discriminate]. destruct (alive a && alive c); [|discriminate].
    exists c. destruct (Nat.eqb_spec i j) as [->|NE].
    + injection H as <-. repeat split; auto; congruence.
    + destruct (release _ _) as [l'|] eqn:E'; [|discriminate]. injection H as <-. cbn [ps_obj ps_rec ps_st].
      assert (Ei' : nth_error (upd (ps_obj s) j ANull) i = Some a) by (rewrite nth_upd_ne; auto).
      split; [reflexivity|]. split; [eapply nth_upd_eq; exact Ei'|].
      split; [intros _; rewrite nth_upd_ne by exact NE; eapply nth_upd_eq; exact Ej|].
      split; [intros n N1 N2; rewrite !nth_upd_ne by congruence; reflexivity|].
      split; [reflexivity|]. apply (RL _ _ _ E').
  - destruct (nth_error (ps_obj s) i) as [a|]; [|discriminate]. destruct (alive a); [|discriminate].
    destruct (release _ _) as [l|] eqn:E; [|discriminate]. injection H as <-. repeat split. apply (RL _ _ _ E).
  - destruct (nth_error (ps_obj s) i) as [[| |k]|]; try discriminate. destruct ans as [c|]; [|discriminate].
    destruct (existsb _ (ps_st s)); [discriminate|].
    destruct (pool_malloc _ _ _) as [l|] eqn:E; [|discriminate]. cbn [lift] in H.
    exists k, c. split; [reflexivity|]. split; [reflexivity|].
    cbn [pool_malloc] in E. destruct (nth_error (ps_st s) k) as [st|] eqn:Ek; [|discriminate].
    destruct (st_deleted st); [discriminate|]. injection E as <-.
    assert (Q : exists l', s' = mk_ps l' (if mv then upd (ps_obj s) i ANull else ps_obj s) (ps_rec s ++ [FRec (APtr k) c]) /\
      forall k', match nth_error l' k' with Some st => st_chunks st | None => [] end =
        match nth_error (upd (ps_st s) k (mk_st (st_use st) false (c :: st_chunks st))) k' with Some st => st_chunks st | None => [] end).
    { destruct mv; [injection H as <-; eexists; split; reflexivity|].
      destruct (add_ref _ _) as [l'|] eqn:E'; [|discriminate]. injection H as <-. exists l'. split; [reflexivity|].
      apply (AR _ _ _ E'). }
    destruct Q as (l' & -> & Q). cbn [ps_obj ps_rec ps_st]. split; [reflexivity|]. split; [reflexivity|]. split.
    + rewrite Q, (nth_upd_eq _ _ _ _ Ek), ?Ek. reflexivity.
    + intros k' N. rewrite Q, nth_upd_ne by congruence. reflexivity.
  - destruct (nth_error (ps_rec s) r) as [[|a c]|]; try discriminate. cbn [release lift] in H.
    destruct (pool_free _ _ _) as [l|] eqn:E; [|discriminate]. cbn [lift] in H.
    destruct (release _ _) as [l'|] eqn:E'; [|discriminate]. injection H as <-.
    destruct a as [| |k]; cbn [pool_free] in E; try discriminate.
    exists k, c. cbn [ps_obj ps_rec ps_st]. do 3 (split; [reflexivity|]).
    destruct (nth_error (ps_st s) k) as [st|] eqn:Ek; [|discriminate].
    destruct (st_deleted st); [discriminate|]. destruct (in_dec _ _ _); [|discriminate]. injection E as <-.
    split.
    + rewrite (RL _ _ _ E'), (nth_upd_eq _ _ _ _ Ek), ?Ek. reflexivity.
    + intros k' N. rewrite (RL _ _ _ E'), nth_upd_ne by congruence. reflexivity.
Qed.
Print Assumptions C25_effect.

(** When the pool is exhausted, constructing a fiber throws std::bad_alloc and changes nothing. *)
Theorem C25_exhausted_pool_is_reported : forall s i mv k,
  nth_error (ps_obj s) i = Some (APtr k) -> pstep s (PCreateFiber i mv None) = PBadAlloc s.
Proof. intros s i mv k H. cbn [pstep]. rewrite H. reflexivity. Qed.
Print Assumptions C25_exhausted_pool_is_reported.

(** Constructing an allocator: without memory the process is terminated (the constructor is
    noexcept, so bad_alloc cannot be caught), and a stack size above the maximum is an assertion
    failure; otherwise it succeeds. *)
Theorem C25_constructor : forall s size max mem,
  match pstep s (PNew size max mem) with
  | PTerminate => mem = false
  | PAssert => mem = true /\ exists m, max = Some m /\ m < size
  | POk _ => mem = true /\ forall m, max = Some m -> size <= m
  | _ => False
  end.
Proof.
  intros s size max mem. cbn [pstep]. destruct mem; cbn [negb]; [|reflexivity].
  destruct max as [m|].
  - destruct (Z.leb_spec size m); cbn [negb].
    + cbn [add_ref]. rewrite nth_app_last. cbn [st_deleted lift]. split; [reflexivity|].
      intros m' E. injection E as <-. assumption.
    + split; [reflexivity|]. exists m. auto.
  - cbn [add_ref]. rewrite nth_app_last. cbn [st_deleted lift]. split; [reflexivity|]. discriminate.
Qed.
Print Assumptions C25_constructor.

Example C25_case : exists s st,
  prun ps0 [PNew 65536 (Some 8388608) true; PCreateFiber 0 false (Some 7); PCopy 0; PDestroy 0; PDestroy 1; PEndFiber 0] = POk s
  /\ nth_error (ps_st s) 0 = Some st /\ st_deleted st = true /\ st_chunks st = [].
Proof. eexists; eexists; repeat split; reflexivity. Qed.

(** moving the allocator out of the control structure first is essential: destroying the control
    structure and then deallocating through its allocator uses a deleted pool *)
Theorem C25_naive_order_is_ub : exists ops s,
  prun ps0 ops = POk s /\ naive_end_fiber s 0 = PUB.
Proof.
  exists [PNew 65536 (Some 8388608) true; PCreateFiber 0 true (Some 7); PDestroy 0].
  eexists; split; reflexivity.
Qed.
Print Assumptions C25_naive_order_is_ub.

(** ucontext implementation: if getcontext() fails while a fiber is constructed with an allocator passed as
    an lvalue, the stack goes back to the pool and everything is as before (any history). *)
Lemma upd_same {A} (l : list A) i x : nth_error l i = Some x -> upd l i x = l.
Proof. revert i. induction l as [|y l IH]; intros [|i] H; cbn in *; try discriminate; [congruence|]. rewrite IH; auto. Qed.
Theorem C25_failed_getcontext : forall ops s i k chunk, prun ps0 ops = POk s -> nth_error (ps_obj s) i = Some (APtr k) ->
  (forall k' , ~ In chunk (stacks_of s k')) -> create_fails s i false chunk = POk s.
Proof.
  intros ops s i k chunk H Hi Hf. pose proof (prun_inv ops ps0 pinv0) as I. rewrite H in I.
  destruct (holder_st s k I (holder_obj s i k Hi)) as (st & Hst & Hd & Hu).
  unfold create_fails. rewrite Hi.
  replace (existsb _ (ps_st s)) with false.
  2:{ symmetry. apply not_true_is_false. intros E. apply existsb_exists in E as (st' & Hin & E). apply existsb_exists in E as (c & Hc & E).
      apply Z.eqb_eq in E. subst c. apply In_nth_error in Hin as [k' Hk']. apply (Hf k'). unfold stacks_of. rewrite Hk'. exact Hc. }
  assert (UU : forall (x y : storage), upd (upd (ps_st s) k x) k y = upd (ps_st s) k y).
  { intros x y. clear. revert k. induction (ps_st s) as [|z l IH]; intros [|k]; cbn; auto. now rewrite IH. }
  cbn [pool_malloc]. rewrite Hst, Hd. cbn [lift add_ref]. rewrite (nth_upd_eq _ _ _ _ Hst). cbn [st_deleted st_use st_chunks]. rewrite UU. cbn [lift release].
  rewrite (nth_upd_eq _ _ _ _ Hst). cbn [st_deleted st_use st_chunks]. rewrite UU. cbn [lift pool_free].
  rewrite (nth_upd_eq _ _ _ _ Hst). cbn [st_deleted st_use st_chunks].
  pose proof (holder_obj s i k Hi) as Hp. rewrite Hu. destruct (holders k s =? 0)%nat eqn:E0; [apply Nat.eqb_eq in E0; lia|].
  destruct (in_dec Z.eq_dec chunk (chunk :: st_chunks st)) as [_|N]; [|destruct N; left; reflexivity]. cbn [lift]. rewrite UU.
  cbn [remove]. destruct (Z.eq_dec chunk chunk) as [_|N]; [|congruence].
  assert (R : remove Z.eq_dec chunk (st_chunks st) = st_chunks st).
  { apply notin_remove. specialize (Hf k). unfold stacks_of in Hf. rewrite Hst in Hf. exact Hf. }
  rewrite R, (upd_same _ _ _ Hi). replace (mk_st (holders k s) false (st_chunks st)) with st; [|destruct st; cbn in *; congruence].
  rewrite (upd_same _ _ _ Hst). destruct s; reflexivity.
Qed.
Print Assumptions C25_failed_getcontext.

(** ... but passed as an rvalue, the library gives the stack back through a moved-from allocator, which is
    undefined behaviour, always. *)
Theorem C25_failed_getcontext_rvalue_refuted : forall ops s i k chunk, prun ps0 ops = POk s -> nth_error (ps_obj s) i = Some (APtr k) ->
  (forall k' , ~ In chunk (stacks_of s k')) -> create_fails s i true chunk = PUB.
Proof.
  intros ops s i k chunk H Hi Hf. pose proof (prun_inv ops ps0 pinv0) as I. rewrite H in I.
  destruct (holder_st s k I (holder_obj s i k Hi)) as (st & Hst & Hd & Hu).
  unfold create_fails. rewrite Hi.
  replace (existsb _ (ps_st s)) with false.
  2:{ symmetry. apply not_true_is_false. intros E. apply existsb_exists in E as (st' & Hin & E). apply existsb_exists in E as (c & Hc & E).
      apply Z.eqb_eq in E. subst c. apply In_nth_error in Hin as [k' Hk']. apply (Hf k'). unfold stacks_of. rewrite Hk'. exact Hc. }
  cbn [pool_malloc]. rewrite Hst, Hd. cbn [lift release]. rewrite (nth_upd_eq _ _ _ _ Hst). cbn [st_deleted st_use st_chunks].
  destruct (st_use st); reflexivity.
Qed.
Print Assumptions C25_failed_getcontext_rvalue_refuted.
Example C25_failed_getcontext_case : exists s,
  prun ps0 [PNew 65536 None true; PCreateFiber 0 false (Some 7)] = POk s /\ nth_error (ps_obj s) 0 = Some (APtr 0) /\ ~ In 8 (stacks_of s 0) /\
  create_fails s 0 false 8 = POk s.
Proof. eexists. split; [reflexivity|]. split; [reflexivity|]. split; [cbn; lia|reflexivity]. Qed.

(* ------------------------------------------------------------------ C31 *)
(** whatever the system answers over time, each query always returns the same result *)
Theorem C31_traits_stable : forall inf minsig b history c x y,
  In (c, x) (trun inf minsig b ts0 history) -> In (c, y) (trun inf minsig b ts0 history) -> x = y.
Proof. exact trun_stable. Qed.
Print Assumptions C31_traits_stable.

Theorem C31_maximum_iff_bounded : forall inf minsig b history u x,
  In (CUnbounded, RBool u) (trun inf minsig b ts0 history) ->
  In (CMax, x) (trun inf minsig b ts0 history) -> (x = RAssert <-> u = true).
Proof. exact trun_max_iff. Qed.
Print Assumptions C31_maximum_iff_bounded.

(** ... namely what the system answered when the program asked for the first time *)
Theorem C31_page_size_is_the_systems : forall inf minsig b history a rest,
  filter (fun e => match snd e with CPage => true | _ => false end) history = (a, CPage) :: rest ->
  forall x, In (CPage, x) (trun inf minsig b ts0 history) -> x = RSize (sys_pagesize a).
Proof. intros. eapply trun_page; eauto. reflexivity. Qed.
Print Assumptions C31_page_size_is_the_systems.

Theorem C31_limit_is_the_systems : forall inf minsig b history a c rest,
  filter (fun e => match snd e with CUnbounded | CMax => true | _ => false end) history = (a, c) :: rest ->
  (forall x, In (CUnbounded, x) (trun inf minsig b ts0 history) -> x = RBool (sys_rlim_max a =? inf)) /\
  (forall x, In (CMax, x) (trun inf minsig b ts0 history) ->
     x = if sys_rlim_max a =? inf then RAssert else RSize (sys_rlim_max a mod 2 ^ b)).
Proof. intros. eapply trun_limit; eauto. Qed.
Print Assumptions C31_limit_is_the_systems.

(** the minimum is the constant of the platform, whatever happens *)
Theorem C31_minimum_constant : forall inf minsig b history x,
  In (CMin, x) (trun inf minsig b ts0 history) -> x = RSize minsig.
Proof.
  intros inf minsig b history x H. destruct (trun_agrees inf minsig b history ts0) as [l [p [_ [_ Ha]]]].
  apply Ha in H. exact H.
Qed.
Print Assumptions C31_minimum_constant.

(** On Windows the stack is always reported as unbounded, so maximum_size() may never be called. *)
Theorem C31_windows : win_is_unbounded = true /\ win_maximum_size = None /\
  forall x64, 0 < win_minimum_size x64 <= default_size.
Proof. split; [reflexivity|]. split; [reflexivity|]. intros []; unfold default_size; cbn; lia. Qed.
Print Assumptions C31_windows.

Theorem C31_default_constant : forall inf minsig b history x,
  In (CDefault, x) (trun inf minsig b ts0 history) -> x = RSize 131072.
Proof.
  intros inf minsig b history x H. destruct (trun_agrees inf minsig b history ts0) as [l [p [_ [_ Ha]]]].
  apply Ha in H. exact H.
Qed.
Print Assumptions C31_default_constant.

Example C31_case :
  trun (2^64-1) 2048 64 ts0 [(mk_sys (2^64-1) 4096, CUnbounded); (mk_sys 8388608 16384, CPage);
     (mk_sys 5 5, CMax); (mk_sys 6 6, CPage)]
  = [(CUnbounded, RBool true); (CPage, RSize 16384); (CMax, RAssert); (CPage, RSize 16384)].
Proof. reflexivity. Qed.

(** "default_size() is never smaller than minimum_size()" (doc/stack.qbk) does not hold in general:
    the default is a constant, the minimum is whatever the platform defines *)
Theorem C31_default_ge_minimum_refuted : exists minsig, 0 < minsig /\ default_size < minimum_size minsig.
Proof. exists 262144. vm_compute; auto. Qed.
Print Assumptions C31_default_ge_minimum_refuted.

(* ------------------------------------------------------------------ C39 *)
(** For a placement that fits, what fiber_exit unmaps is exactly the shadow stack that was mapped;
    the three bookkeeping slots lie inside the 64-byte gap or directly below the stack top and do
    not overlap each other or the control structure. *)
Theorem C39_shadow_roundtrip : forall b recsize sctx ss_base m,
  8 <= b -> 0 <= recsize -> 0 <= sc_size sctx <= sc_sp sctx -> sc_sp sctx < 2 ^ b ->
  recsize + 64 + 255 + 8 <= sc_size sctx ->
  let lo := create_fiber1_layout b recsize sctx in
  let m' := apply_stores m (shadow_stores b lo ss_base) in
  shadow_unmap b (lo_storage lo) m' = (ss_base, shadow_size b (lo_size lo)) /\
  m' (lo_top lo - 8) = wadd b ss_base (shadow_size b (lo_size lo)) /\
  (forall a, ~ (lo_top lo - 8 <= a < lo_storage lo) -> m' a = m a).
Proof.
  intros b recsize sctx ss_base m Hb Hr Hs Hsp Hsz lo m'.
  pose proof (layout1_ok b recsize sctx Hb Hr Hs Hsp ltac:(lia)) as H; cbv zeta in H; fold lo in H.
  destruct H as [H1 [H2 [H3 [H4 [H5 H6]]]]].
  assert (Htop : 8 <= lo_top lo).
  { pose proof (storage_bounds b (sc_sp sctx) recsize Hb ltac:(lia) Hsp) as Hst; cbv zeta in Hst.
    change (storage_of b (sc_sp sctx) recsize) with (lo_storage lo) in Hst. lia. }
  destruct (shadow_roundtrip b lo ss_base m Hb ltac:(lia) ltac:(lia) Htop) as [R1 R2].
  repeat split; auto. intros a Ha. unfold m', shadow_stores; cbv zeta; cbn [apply_stores].
  rewrite !wsub_small by lia.
  repeat match goal with |- context [?x =? ?y] => destruct (Z.eqb_spec x y); try lia end.
Qed.
Print Assumptions C39_shadow_roundtrip.

(** "the shadow stack is about 1/32 of the stack" is false: above 128 KiB it is as large as the stack *)
Theorem C39_shadow_size_refuted : exists size,
  0 < size < 2 ^ 40 /\ shadow_size 64 size = size /\ 4096 < size / 32.
Proof. exists 1048576. vm_compute; repeat split; congruence. Qed.
Print Assumptions C39_shadow_size_refuted.

Theorem C39_shadow_size_exact : forall b size,
  16 <= b -> 0 <= size -> size + 256 <= 2 ^ b ->
  shadow_size b size = if 4096 <? ((size / 32 + 7) / 8) * 8 then size else 4096.
Proof. exact shadow_size_spec. Qed.
Print Assumptions C39_shadow_size_exact.
