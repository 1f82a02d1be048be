(** Proofs about Layout.v *)
From Coq Require Import ZArith Lia Bool ZifyBool List.
From Verif Require Import Word Layout.
Open Scope Z_scope.
Ltac Zify.zify_post_hook ::= Z.div_mod_to_equations.

Lemma storage_of_spec b sp recsize :
  8 <= b -> 0 <= recsize <= sp -> sp < 2 ^ b ->
  storage_of b sp recsize = (sp - recsize) - (sp - recsize) mod 256.
Proof.
  intros Hb Hr Hsp. unfold storage_of. rewrite wsub_small by lia.
  change 255 with (2 ^ 8 - 1). rewrite land_align by (unfold is_word; lia). reflexivity.
Qed.

Lemma storage_bounds b sp recsize :
  8 <= b -> 0 <= recsize <= sp -> sp < 2 ^ b ->
  let st := storage_of b sp recsize in
  st mod 256 = 0 /\ 0 <= st /\ st + recsize <= sp < st + recsize + 256.
Proof.
  intros Hb Hr Hsp st. subst st. rewrite storage_of_spec by lia. lia.
Qed.

(** what a correct placement is (restated in the property files) *)
Lemma layout1_ok b recsize sctx :
  8 <= b -> 0 <= recsize ->
  0 <= sc_size sctx <= sc_sp sctx -> sc_sp sctx < 2 ^ b ->
  recsize + 64 + 255 <= sc_size sctx ->
  let lo := create_fiber1_layout b recsize sctx in
  let bottom := sc_sp sctx - sc_size sctx in
  lo_storage lo mod 256 = 0 /\ lo_storage lo + recsize <= sc_sp sctx < lo_storage lo + recsize + 256 /\
  lo_top lo + 64 = lo_storage lo /\ lo_bottom lo = bottom /\ bottom <= lo_top lo /\
  lo_size lo = lo_top lo - bottom.
Proof.
  intros Hb Hr Hs Hsp Hsz lo bottom.
  pose proof (storage_bounds b (sc_sp sctx) recsize Hb ltac:(lia) Hsp) as H; cbv zeta in H.
  unfold lo, bottom, create_fiber1_layout; cbn [lo_storage lo_top lo_bottom lo_size].
  set (st := storage_of b (sc_sp sctx) recsize) in *.
  rewrite !(wsub_small b st 64) by lia.
  rewrite !(wsub_small b (sc_sp sctx) (sc_size sctx)) by lia.
  rewrite wsub_small by lia. lia.
Qed.

Lemma layout2_ok b recsize pa :
  8 <= b -> 0 <= recsize ->
  let s := pa_sctx pa in
  let bottom := sc_sp s - sc_size s in
  0 <= sc_size s <= sc_sp s -> sc_sp s < 2 ^ b ->
  bottom + recsize + 64 + 255 <= pa_sp pa <= sc_sp s ->
  let lo := create_fiber2_layout b recsize pa in
  lo_storage lo mod 256 = 0 /\ lo_storage lo + recsize <= pa_sp pa < lo_storage lo + recsize + 256 /\
  lo_top lo + 64 = lo_storage lo /\ lo_bottom lo = bottom /\ bottom <= lo_top lo /\
  lo_size lo = lo_top lo - bottom.
Proof.
  intros Hb Hr s bottom Hs Hsp Hp lo.
  pose proof (storage_bounds b (pa_sp pa) recsize Hb ltac:(lia) ltac:(lia)) as H; cbv zeta in H.
  unfold lo, create_fiber2_layout; fold s; cbn [lo_storage lo_top lo_bottom lo_size].
  set (st := storage_of b (pa_sp pa) recsize) in *.
  rewrite !(wsub_small b st 64) by lia.
  rewrite !(wsub_small b (sc_sp s) (sc_size s)) by lia.
  rewrite wsub_small by lia. lia.
Qed.

Lemma ulayout1_eq b recsize sctx :
  8 <= b -> 0 <= recsize ->
  0 <= sc_size sctx <= sc_sp sctx -> sc_sp sctx < 2 ^ b ->
  recsize + 64 + 255 <= sc_size sctx ->
  ucreate_fiber1_layout b recsize sctx = create_fiber1_layout b recsize sctx.
Proof.
  intros Hb Hr Hs Hsp Hsz.
  pose proof (storage_bounds b (sc_sp sctx) recsize Hb ltac:(lia) Hsp) as H; cbv zeta in H.
  unfold ucreate_fiber1_layout, create_fiber1_layout.
  set (st := storage_of b (sc_sp sctx) recsize) in *.
  rewrite !(wsub_small b (sc_sp sctx) (sc_size sctx)) by lia.
  rewrite !(wsub_small b st) by lia.
  rewrite !wsub_small by lia. rewrite wadd_small by lia.
  f_equal; lia.
Qed.

Lemma ulayout2_eq b recsize pa :
  8 <= b -> 0 <= recsize ->
  let s := pa_sctx pa in
  let bottom := sc_sp s - sc_size s in
  0 <= sc_size s <= sc_sp s -> sc_sp s < 2 ^ b ->
  bottom + recsize + 64 + 255 <= pa_sp pa <= sc_sp s ->
  ucreate_fiber2_layout b recsize pa = create_fiber2_layout b recsize pa.
Proof.
  intros Hb Hr s bottom Hs Hsp Hp.
  pose proof (storage_bounds b (pa_sp pa) recsize Hb ltac:(lia) ltac:(lia)) as H; cbv zeta in H.
  unfold ucreate_fiber2_layout, create_fiber2_layout; fold s.
  set (st := storage_of b (pa_sp pa) recsize) in *.
  rewrite !(wsub_small b (sc_sp s) (sc_size s)) by lia.
  rewrite !(wsub_small b st) by lia.
  rewrite !wsub_small by lia. rewrite wadd_small by lia.
  f_equal; lia.
Qed.

(** The code has no size check: exactly when the gap does not fit, the size handed to
    [make_fcontext] wraps. *)
Lemma layout1_wrap b recsize sctx :
  8 <= b -> 0 <= recsize ->
  0 <= sc_size sctx <= sc_sp sctx -> sc_sp sctx < 2 ^ b ->
  recsize + 64 + 255 <= sc_sp sctx ->
  let lo := create_fiber1_layout b recsize sctx in
  (lo_size lo <= sc_size sctx <-> sc_sp sctx - sc_size sctx <= lo_top lo) /\
  (lo_top lo < sc_sp sctx - sc_size sctx ->
   lo_size lo = 2 ^ b - ((sc_sp sctx - sc_size sctx) - lo_top lo)).
Proof.
  intros Hb Hr Hs Hsp Hsz lo.
  pose proof (storage_bounds b (sc_sp sctx) recsize Hb ltac:(lia) Hsp) as H; cbv zeta in H.
  unfold lo, create_fiber1_layout; cbn [lo_storage lo_top lo_bottom lo_size].
  set (st := storage_of b (sc_sp sctx) recsize) in *.
  rewrite !(wsub_small b st 64) by lia.
  rewrite !(wsub_small b (sc_sp sctx) (sc_size sctx)) by lia.
  set (d := st - 64 - (sc_sp sctx - sc_size sctx)).
  assert (Hd : wsub b (st - 64) (sc_sp sctx - sc_size sctx)
               = if 0 <=? d then d else d + 2 ^ b).
  { destruct (Z.leb_spec 0 d) as [H0|H0].
    - rewrite wsub_small by (unfold d in *; lia). reflexivity.
    - unfold wsub. fold d. rewrite <- (wrap_plus_M b d) by lia.
      rewrite wrap_small by (unfold d in *; lia). reflexivity. }
  rewrite Hd. destruct (Z.leb_spec 0 d) as [H0|H0]; unfold d in *; lia.
Qed.

Lemma shadow_size_spec b size :
  16 <= b -> 0 <= size -> size + 256 <= 2 ^ b ->
  shadow_size b size = if 4096 <? ((size / 32 + 7) / 8) * 8 then size else 4096.
Proof.
  intros Hb H0 Hs. unfold shadow_size.
  rewrite Z.shiftr_div_pow2 by lia. change (2 ^ 5) with 32.
  rewrite wadd_small by lia. change 7 with (2 ^ 3 - 1) at 2.
  rewrite land_align by (unfold is_word; lia).
  replace ((size / 32 + 7) - (size / 32 + 7) mod 2 ^ 3) with (((size / 32 + 7) / 8) * 8);
    [reflexivity|]. change (2 ^ 3) with 8. lia.
Qed.

Lemma shadow_roundtrip b lo ss_base m :
  8 <= b ->
  64 <= lo_storage lo < 2 ^ b -> lo_top lo = lo_storage lo - 64 -> 8 <= lo_top lo ->
  shadow_unmap b (lo_storage lo) (apply_stores m (shadow_stores b lo ss_base))
    = (ss_base, shadow_size b (lo_size lo))
  /\ apply_stores m (shadow_stores b lo ss_base) (lo_top lo - 8)
     = wadd b ss_base (shadow_size b (lo_size lo)).
Proof.
  intros Hb Hs Ht H8. unfold shadow_unmap, shadow_stores; cbv zeta. cbn [apply_stores].
  rewrite !wsub_small by lia.
  repeat match goal with
  | |- context [ ?x =? ?y ] => destruct (Z.eqb_spec x y); try lia
  end.
  split; reflexivity.
Qed.
