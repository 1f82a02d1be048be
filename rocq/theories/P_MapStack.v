(** * C44: obtaining memory for stacks leaves all other memory alone

    pooled_fixedsize_stack with BOOST_CONTEXT_USE_MAP_STACK, see [map_malloc]. *)
From Coq Require Import ZArith Lia List Bool.
From Verif Require Import Alloc.
Import ListNotations.
Open Scope Z_scope.

(** A failed request leaves the heap as it was: nothing is leaked, nothing is written. *)
Theorem C44_failure_leaves_heap : forall page h bytes ans ok h',
  map_malloc page h bytes ans ok = (h', None) ->
  h_live h' = h_live h /\ forall a, h_mem h' a = h_mem h a.
Proof.
  intros page h bytes [block|] ok h' H; cbn in H; [|injection H as <-; auto].
  destruct ok; [discriminate|]. injection H as <-. cbn. auto.
Qed.
Print Assumptions C44_failure_leaves_heap.

(** A request for a whole number of pages changes nothing outside the new block, in particular
    no other live block. *)
Theorem C44_whole_pages_leave_rest : forall page h bytes block h' p,
  0 < page -> 0 <= bytes -> bytes mod page = 0 -> memalign_ok page h bytes block ->
  map_malloc page h bytes (Some block) true = (h', Some p) ->
  p = block /\ h_live h' = (block, bytes) :: h_live h /\
  (forall a, block <= a < block + bytes -> h_mem h' a = 0) /\
  (forall a, ~ (block <= a < block + bytes) -> h_mem h' a = h_mem h a) /\
  (forall x a, In x (h_live h) -> fst x <= a < fst x + snd x -> h_mem h' a = h_mem h a).
Proof.
  intros page h bytes block h' p Hp Hb Hm (M1 & M2 & M3) H. cbn in H. injection H as <- <-.
  cbn [h_live h_mem]. split; [reflexivity|]. split; [reflexivity|].
  apply Z.mod_divide in Hm; [|lia]. destruct Hm as [k Hk].
  apply Z.mod_divide in M2; [|lia]. destruct M2 as [q Hq].
  assert (E1 : block / page * page = block) by (rewrite Hq, Z.div_mul by lia; reflexivity).
  assert (E2 : (block + bytes + page - 1) / page * page = block + bytes).
  { rewrite Hq, Hk. replace (q * page + k * page + page - 1) with ((page - 1) + (q + k) * page) by ring.
    rewrite Z.div_add by lia. rewrite (Z.div_small (page - 1)) by lia. ring. }
  unfold map_fixed. rewrite E1, E2.
  assert (OUT : forall a, ~ (block <= a < block + bytes) ->
            (if (block <=? a) && (a <? block + bytes) then 0 else h_mem h a) = h_mem h a).
  { intros a Ha. destruct ((block <=? a) && (a <? block + bytes)) eqn:E; [|reflexivity].
    apply andb_true_iff in E as [X Y]. apply Z.leb_le in X. apply Z.ltb_lt in Y. lia. }
  split; [|split; [exact OUT|]].
  - intros a Ha. destruct ((block <=? a) && (a <? block + bytes)) eqn:E; [reflexivity|].
    apply andb_false_iff in E as [X|X]; [apply Z.leb_gt in X|apply Z.ltb_ge in X]; lia.
  - intros x a Hx Ha. apply OUT. destruct (M3 x Hx); lia.
Qed.
Print Assumptions C44_whole_pages_leave_rest.

Example C44_case :
  memalign_ok 4096 (mk_heap [(69632, 24)] (fun _ => 7)) 65536 4096.
Proof. split; [lia|]. split; [reflexivity|]. intros x [<-|[]]. cbn. lia. Qed.

(** Any other request overwrites the rest of its last page with zeros, whoever owns it. *)
Theorem C44_other_sizes_overwrite : forall page h bytes block h' p a,
  0 < page -> 0 <= bytes -> bytes mod page <> 0 -> memalign_ok page h bytes block ->
  map_malloc page h bytes (Some block) true = (h', Some p) ->
  block + bytes <= a < block + (bytes / page + 1) * page -> h_mem h' a = 0.
Proof.
  intros page h bytes block h' p a Hp Hb Hm (M1 & M2 & _) H Ha. cbn in H. injection H as <- <-.
  cbn [h_mem]. apply Z.mod_divide in M2; [|lia]. destruct M2 as [q Hq].
  assert (E1 : block / page * page = block) by (rewrite Hq, Z.div_mul by lia; reflexivity).
  pose proof (Z.div_mod bytes page ltac:(lia)) as D. pose proof (Z.mod_pos_bound bytes page Hp) as B.
  assert (E2 : (block + bytes + page - 1) / page * page = block + (bytes / page + 1) * page).
  { rewrite Hq. replace (q * page + bytes + page - 1) with ((bytes mod page - 1) + (q + bytes / page + 1) * page) by lia.
    rewrite Z.div_add by lia. rewrite (Z.div_small (bytes mod page - 1)) by lia. ring. }
  unfold map_fixed. rewrite E1, E2.
  destruct ((block <=? a) && (a <? block + (bytes / page + 1) * page)) eqn:E; [reflexivity|].
  apply andb_false_iff in E as [X|X]; [apply Z.leb_gt in X|apply Z.ltb_ge in X]; lia.
Qed.
Print Assumptions C44_other_sizes_overwrite.

(** So "obtaining memory changes no live block" does not hold: the data of another live heap block
    is lost.  (boost::pool asks for next_size chunks plus its own bookkeeping, here 32 chunks of
    64 kB and 16 bytes.) *)
Theorem C44_live_block_overwritten_refuted :
  exists h bytes block h' p x a,
    memalign_ok 4096 h bytes block /\
    map_malloc 4096 h bytes (Some block) true = (h', Some p) /\
    In x (h_live h) /\ fst x <= a < fst x + snd x /\ h_mem h' a <> h_mem h a.
Proof.
  exists (mk_heap [(8192 + 2097168, 24)] (fun _ => 7)), 2097168, 8192.
  eexists. exists 8192, (8192 + 2097168, 24), (8192 + 2097168).
  split; [split; [lia|split; [reflexivity|]]|].
  - intros x [<-|[]]. cbn. lia.
  - split; [reflexivity|]. split; [left; reflexivity|]. split; [cbn; lia|]. vm_compute. discriminate.
Qed.
Print Assumptions C44_live_block_overwritten_refuted.
