(** Proofs about Alloc.v *)
From Coq Require Import ZArith Lia Bool ZifyBool List Permutation.
From Verif Require Import Word Layout Alloc.
Import ListNotations.
Open Scope Z_scope.
Ltac Zify.zify_post_hook ::= Z.div_mod_to_equations.

Lemma prot_bytes_spec b page size :
  0 < page -> 0 <= size -> size + 2 * page <= 2 ^ b ->
  let n := prot_bytes b page size in
  n mod page = 0 /\ size + page <= n < size + 2 * page.
Proof.
  intros Hp Hs Hle n. subst n. unfold prot_bytes, prot_pages.
  assert (Hb : 2 ^ b > 0) by lia.
  rewrite (wadd_small b size page) by lia.
  rewrite (wsub_small b (size + page) 1) by lia.
  set (q := (size + page - 1) / page).
  assert (Hq : q * page <= size + page - 1 < q * page + page).
  { subst q. pose proof (Z.div_mod (size + page - 1) page).
    pose proof (Z.mod_pos_bound (size + page - 1) page). nia. }
  assert (Hq0 : 0 <= q) by (subst q; apply Z.div_pos; lia).
  assert (q <= q * page) by nia.
  rewrite (wadd_small b q 1) by lia.
  rewrite wmul_small by nia.
  split; [apply Z_mod_mult|nia].
Qed.

(** invariant of allocator histories: the live blocks are, one to one, the regions
    spanned by the outstanding stack_contexts *)
Definition block_of (e : akind * stack_context) : Z * Z :=
  (sc_sp (snd e) - sc_size (snd e), sc_size (snd e)).

Definition entry_ok (b : Z) (e : akind * stack_context) : Prop :=
  0 < sc_sp (snd e) - sc_size (snd e) /\ 0 <= sc_size (snd e) /\ sc_sp (snd e) < 2 ^ b.

Definition disjoint_blocks (l : list (Z * Z)) : Prop :=
  forall i j x y, i <> j -> nth_error l i = Some x -> nth_error l j = Some y -> overlap x y = false.

Record winv (b : Z) (w : world) : Prop := mk_winv {
  wi_perm : Permutation (w_live w) (map block_of (w_out w));
  wi_ok : Forall (entry_ok b) (w_out w);
  wi_disj : disjoint_blocks (w_live w)
}.

Lemma overlap_sym x y : overlap x y = overlap y x.
Proof. unfold overlap. apply andb_comm. Qed.

Lemma disjoint_cons x l :
  existsb (overlap x) l = false -> disjoint_blocks l -> disjoint_blocks (x :: l).
Proof.
  intros He Hd i j a c Hij Ha Hc.
  assert (Hx : forall n y, nth_error l n = Some y -> overlap x y = false).
  { intros n y Hn. destruct (overlap x y) eqn:E; [|reflexivity].
    assert (existsb (overlap x) l = true)
      by (apply existsb_exists; exists y; split; [eapply nth_error_In; eauto|exact E]).
    congruence. }
  destruct i as [|i], j as [|j]; cbn [nth_error] in Ha, Hc.
  - lia.
  - injection Ha as <-. eauto.
  - injection Hc as <-. rewrite overlap_sym. eauto.
  - apply (Hd i j); auto.
Qed.

Lemma take_block_perm s a len l x r :
  take_block s a len l = Some (x, r) -> Permutation l (x :: r) /\ fst x = a.
Proof.
  revert x r; induction l as [|[a' len'] l IH]; intros x r H; cbn [take_block] in H; [discriminate|].
  destruct ((a =? a') && (negb s || (len =? len'))) eqn:E.
  - injection H as <- <-. apply andb_true_iff in E; destruct E as [E _].
    apply Z.eqb_eq in E. split; [apply Permutation_refl|cbn; lia].
  - destruct (take_block s a len l) as [[x' r']|] eqn:Et; [|discriminate].
    injection H as <- <-. destruct (IH _ _ eq_refl) as [Hp Hf]. split; [|exact Hf].
    rewrite Hp. apply perm_swap.
Qed.

Lemma take_block_in s a len l :
  In (a, len) l -> exists x r, take_block s a len l = Some (x, r).
Proof.
  induction l as [|[a' len'] l IH]; intros H; [destruct H|]. cbn [take_block].
  destruct ((a =? a') && (negb s || (len =? len'))) eqn:E; [eauto|].
  destruct H as [H|H].
  - injection H as -> ->. rewrite !Z.eqb_refl in E. cbn in E. rewrite orb_true_r in E. discriminate.
  - destruct (IH H) as [x [r ->]]. eauto.
Qed.

Lemma disjoint_unique_base l x y :
  disjoint_blocks l -> In x l -> In y l -> fst x = fst y -> x = y.
Proof.
  intros Hd Hx Hy Hf. apply In_nth_error in Hx; apply In_nth_error in Hy.
  destruct Hx as [i Hi], Hy as [j Hj].
  destruct (Nat.eq_dec i j) as [->|Hne]; [congruence|].
  pose proof (Hd i j x y Hne Hi Hj) as Ho. unfold overlap in Ho. lia.
Qed.

Lemma disjoint_perm l l' : Permutation l l' -> disjoint_blocks l -> disjoint_blocks l'.
Proof.
  intros Hp Hd i j x y Hij Hx Hy.
  destruct (proj1 (Permutation_nth_error l l') Hp) as [_ [f [Hinj Hf]]].
  rewrite Hf in Hx, Hy.
  apply (Hd (f i) (f j)); auto.
Qed.

Lemma disjoint_tail x l : disjoint_blocks (x :: l) -> disjoint_blocks l.
Proof.
  intros H i j a c Hij Ha Hc. apply (H (S i) (S j) a c); cbn; auto.
Qed.

Lemma remove_nth_perm {A} n (l : list A) x :
  nth_error l n = Some x -> Permutation l (x :: remove_nth n l).
Proof.
  revert n; induction l as [|y l IH]; intros [|n] H; cbn in *; try discriminate.
  - injection H as <-. apply Permutation_refl.
  - rewrite perm_swap. apply perm_skip. auto.
Qed.

Definition request_ok (b : Z) (o : wop) : Prop :=
  match o with
  | OAlloc k size _ _ => 0 <= request b k size
  | _ => True
  end.

Lemma answer_ok_spec b w k len p :
  answer_ok b w k len p = true ->
  0 < p /\ p + Z.max 1 len < 2 ^ b /\ existsb (overlap (p, len)) (w_live w) = false.
Proof.
  unfold answer_ok. intros H.
  apply andb_true_iff in H; destruct H as [H _].
  apply andb_true_iff in H; destruct H as [H H3].
  apply andb_true_iff in H; destruct H as [H1 H2].
  apply negb_true_iff in H3. apply Z.ltb_lt in H1; apply Z.ltb_lt in H2. auto.
Qed.

Lemma wstep_inv b w o w' :
  0 <= b -> winv b w -> request_ok b o ->
  wstep b w o = WOk w' \/ wstep b w o = WBadAlloc w' \/ wstep b w o = WFault w' -> winv b w'.
Proof.
  intros Hb [Hp Hok Hd] Hr H. destruct o as [k size ans pok|n|a0 page]; cbn [wstep request_ok] in *.
  3:{ destruct (w_perm w a0); destruct H as [H|[H|H]]; try discriminate;
        injection H as <-; constructor; assumption. }
  - destruct ans as [p|].
    2:{ destruct H as [H|[H|H]]; try discriminate. injection H as <-. constructor; auto. }
    destruct (answer_ok b w k (request b k size) p) eqn:Ea.
    2:{ destruct H as [H|[H|H]]; discriminate. }
    destruct (answer_ok_spec _ _ _ _ _ Ea) as [H1 [H2 H3]].
    assert (Hnew : entry_ok b (k, sctx_of b k size p)
                   /\ block_of (k, sctx_of b k size p) = (p, request b k size)).
    { unfold entry_ok, block_of, sctx_of; cbn [snd sc_sp sc_size].
      rewrite wadd_small by lia. split; [lia|f_equal; lia]. }
    destruct Hnew as [Hn1 Hn2].
    assert (Hall : forall pm, winv b (mk_world ((p, request b k size) :: w_live w) pm
                                   ((k, sctx_of b k size p) :: w_out w))).
    { intros pm. constructor; cbn [w_live w_out].
      - cbn [map]. rewrite Hn2. apply perm_skip; exact Hp.
      - constructor; assumption.
      - apply disjoint_cons; assumption. }
    destruct (page_of k) as [pg|].
    + destruct pok; destruct H as [H|[H|H]]; try discriminate. injection H as <-. apply Hall.
    + destruct H as [H|[H|H]]; try discriminate. injection H as <-. apply Hall.
  - destruct (nth_error (w_out w) n) as [[k s]|] eqn:En; [|destruct H as [H|[H|H]]; discriminate].
    destruct (match k with KSegmented _ => false | _ => sc_sp s =? 0 end); [destruct H as [H|[H|H]]; discriminate|].
    destruct (take_block (sized_release k) (release_addr b s) (sc_size s) (w_live w))
      as [[[a len] rest]|] eqn:Et; [|destruct H as [H|[H|H]]; discriminate].
    destruct H as [H|[H|H]]; try discriminate. injection H as <-.
    destruct (take_block_perm _ _ _ _ _ _ Et) as [Hpt Hfst]. cbn [fst] in Hfst.
    pose proof (remove_nth_perm n (w_out w) (k, s) En) as Hrm.
    assert (Hent : entry_ok b (k, s)).
    { eapply Forall_forall; [exact Hok|]. eapply nth_error_In; eauto. }
    unfold entry_ok in Hent; cbn [snd] in Hent.
    assert (Hra : release_addr b s = sc_sp s - sc_size s)
      by (unfold release_addr; rewrite wsub_small; lia).
    assert (Hin : In (block_of (k, s)) (w_live w)).
    { eapply Permutation_in; [apply Permutation_sym; exact Hp|]. apply in_map.
      eapply nth_error_In; eauto. }
    assert (Heq : (a, len) = block_of (k, s)).
    { apply (disjoint_unique_base (w_live w)); auto.
      - eapply Permutation_in; [apply Permutation_sym; exact Hpt|left; reflexivity].
      - cbn [fst block_of snd]. lia. }
    constructor; cbn [w_live w_out].
    + apply Permutation_cons_inv with (a := (a, len)).
      rewrite <- Hpt, Hp, Heq. rewrite Hrm at 1. apply Permutation_refl.
    + eapply Permutation_Forall in Hok; [|exact Hrm]. inversion Hok; assumption.
    + eapply disjoint_tail. eapply disjoint_perm; [exact Hpt|exact Hd].
Qed.

Lemma wstep_safe b w o :
  0 <= b -> winv b w -> wstep b w o <> WBadFree /\
  (wstep b w o = WAssert -> exists k size p, o = OAlloc k size (Some p) false).
Proof.
  intros Hb [Hp Hok Hd]. destruct o as [k size ans pok|n|a0 page]; cbn [wstep].
  3:{ destruct (w_perm w a0); split; discriminate. }
  - destruct ans as [p|]; [|split; [discriminate|discriminate]].
    destruct (answer_ok b w k (request b k size) p); [|split; discriminate].
    destruct (page_of k); [|split; discriminate].
    destruct pok; split; try discriminate. eauto.
  - destruct (nth_error (w_out w) n) as [[k s]|] eqn:En; [|split; discriminate].
    assert (Hent : entry_ok b (k, s)).
    { eapply Forall_forall; [exact Hok|]. eapply nth_error_In; eauto. }
    unfold entry_ok in Hent; cbn [snd] in Hent.
    assert (Hz : (match k with KSegmented _ => false | _ => sc_sp s =? 0 end) = false).
    { destruct k; try reflexivity; apply Z.eqb_neq; lia. }
    rewrite Hz.
    assert (Hin : In (release_addr b s, sc_size s) (w_live w)).
    { eapply Permutation_in; [apply Permutation_sym; exact Hp|].
      replace (release_addr b s, sc_size s) with (block_of (k, s)).
      - apply in_map. eapply nth_error_In; eauto.
      - unfold block_of, release_addr; cbn [snd]. rewrite wsub_small by lia. reflexivity. }
    destruct (take_block_in (sized_release k) _ _ _ Hin) as [[a len] [r ->]].
    split; discriminate.
Qed.

Lemma winv0 b : winv b world0.
Proof.
  constructor; cbn.
  - apply Permutation_refl.
  - constructor.
  - intros i j x y _ H. destruct i; discriminate.
Qed.

Lemma wrun_inv b w l :
  0 <= b -> winv b w -> Forall (request_ok b) l ->
  match wrun b w l with
  | WOk w' => winv b w'
  | WBadFree => False
  | WBadAlloc _ => False
  | WFault _ => False
  | _ => True
  end.
Proof.
  intros Hb. revert w; induction l as [|o l IH]; intros w Hw Hr; cbn [wrun]; [exact Hw|].
  inversion Hr as [|? ? Hr1 Hr2]; subst.
  pose proof (wstep_safe b w o Hb Hw) as [Hs _].
  pose proof (wstep_inv b w o) as Hi.
  destruct (wstep b w o) as [w'|w'|w'| | |] eqn:E; try exact I; try (apply IH; eauto 6).
  congruence.
Qed.

Lemma prot_perm b w page size p w' k :
  k = KProtPosix page \/ k = KProtWin page ->
  0 < page -> 0 <= size -> size + 2 * page <= 2 ^ b ->
  wstep b w (OAlloc k size (Some p) true) = WOk w' ->
  (forall a, p <= a < p + page -> w_perm w' a = guard_perm k) /\
  (forall a, p + page <= a < p + prot_bytes b page size -> w_perm w' a = PRW) /\
  (forall a, a < p \/ p + prot_bytes b page size <= a -> w_perm w' a = w_perm w a).
Proof.
  intros Hk Hp Hs Hle H.
  pose proof (prot_bytes_spec b page size Hp Hs Hle) as Hn; cbv zeta in Hn.
  assert (Hw : w_perm w' = set_perm (set_perm (w_perm w) p (prot_bytes b page size) PRW) p page (guard_perm k)).
  { destruct Hk as [-> | ->]; cbn [wstep request page_of] in H;
      (destruct (answer_ok b w _ _ p); [|discriminate]); injection H as <-; reflexivity. }
  rewrite Hw. unfold set_perm.
  repeat split; intros a Ha;
    repeat match goal with |- context [?c && ?d] => destruct (c && d) eqn:? end;
    try reflexivity; lia.
Qed.

(** ** Access rights over a history *)

(** one page size for the whole system, no overflow in the rounding of protected stacks *)
Definition sane (b pg : Z) (o : wop) : Prop :=
  match o with
  | OAlloc k size _ _ =>
      match page_of k with
      | Some p => p = pg /\ 0 <= size /\ size + 2 * pg <= 2 ^ b
      | None => 0 <= request b k size
      end
  | ODealloc _ => True
  | OAccess _ p => p = pg
  end.

(** bytes at the bottom of the region that are not for use *)
Definition guard_size (k : akind) : Z := match page_of k with Some p => p | None => 0 end.

Definition rights_ok (f : Z -> perm) (pg : Z) (e : akind * stack_context) : Prop :=
  let base := sc_sp (snd e) - sc_size (snd e) in
  (page_of (fst e) <> None -> page_of (fst e) = Some pg /\ base mod pg = 0) /\
  guard_size (fst e) <= sc_size (snd e) /\
  (forall a, base + guard_size (fst e) <= a < sc_sp (snd e) -> f a = PRW) /\
  (forall a, base <= a < base + guard_size (fst e) ->
     match fst e with KProtWin _ => f a = PGuard \/ f a = PRW | _ => f a = PNoAccess end).

Record rinv (b pg : Z) (w : world) : Prop := mk_rinv {
  ri_w : winv b w;
  ri_r : forall e, In e (w_out w) -> rights_ok (w_perm w) pg e }.

Lemma sane_request b pg o : 0 < pg -> sane b pg o -> request_ok b o.
Proof.
  intros Hpg H. destruct o as [k size ans pok| |]; cbn [sane request_ok] in *; try exact I.
  destruct k; cbn [page_of request] in *; try assumption;
    destruct H as (-> & H1 & H2); pose proof (prot_bytes_spec b pg size Hpg H1 H2) as X; cbv zeta in X; lia.
Qed.

Lemma rights_frame f f' pg e :
  (forall a, sc_sp (snd e) - sc_size (snd e) <= a < sc_sp (snd e) -> f' a = f a) ->
  0 < pg -> rights_ok f pg e -> rights_ok f' pg e.
Proof.
  intros Hf Hpg (H1 & H2 & H3 & H4). split; [exact H1|]. split; [exact H2|].
  assert (G : 0 <= guard_size (fst e)).
  { unfold guard_size. destruct (page_of (fst e)) eqn:E; [|lia].
    destruct H1 as [H1 _]; [discriminate|]. injection H1 as ->. lia. }
  split.
  - intros a Ha. rewrite Hf by lia. apply H3. exact Ha.
  - intros a Ha. rewrite Hf by lia. apply H4. exact Ha.
Qed.

Lemma set_perm_out f lo len p a : ~ (lo <= a < lo + len) -> set_perm f lo len p a = f a.
Proof. unfold set_perm. intros H. destruct ((lo <=? a) && (a <? lo + len)) eqn:E; [lia|reflexivity]. Qed.
Lemma set_perm_in f lo len p a : lo <= a < lo + len -> set_perm f lo len p a = p.
Proof. unfold set_perm. intros H. destruct ((lo <=? a) && (a <? lo + len)) eqn:E; [reflexivity|lia]. Qed.

Lemma out_block b w e : winv b w -> In e (w_out w) -> In (block_of e) (w_live w).
Proof.
  intros [Hp _ _] H. eapply Permutation_in; [apply Permutation_sym; exact Hp|]. apply in_map. exact H.
Qed.

Lemma rinv_alloc b pg w k size p w' pok :
  0 <= b -> 0 < pg -> rinv b pg w -> sane b pg (OAlloc k size (Some p) pok) ->
  wstep b w (OAlloc k size (Some p) pok) = WOk w' -> rinv b pg w'.
Proof.
  intros Hb Hpg [W R] SN H. pose proof (sane_request _ _ _ Hpg SN) as RO.
  split; [eapply wstep_inv; eauto|]. cbn [wstep sane request_ok] in *.
  destruct (answer_ok b w k (request b k size) p) eqn:Ea; [|discriminate].
  destruct (answer_ok_spec _ _ _ _ _ Ea) as (A1 & A2 & A3).
  assert (PG : forall q, page_of k = Some q -> q = pg /\ p mod pg = 0 /\ pg <= request b k size).
  { intros q Hq. rewrite Hq in SN. destruct SN as (-> & S1 & S2). split; [reflexivity|].
    pose proof (prot_bytes_spec b pg size Hpg S1 S2) as X; cbv zeta in X.
    unfold answer_ok in Ea. rewrite Hq in Ea.
    assert (request b k size = prot_bytes b pg size) by (destruct k; cbn in Hq; try discriminate; injection Hq as ->; reflexivity).
    lia. }
  assert (OLD : forall e f', In e (w_out w) ->
     (forall a, ~ (p <= a < p + request b k size) -> f' a = w_perm w a) -> rights_ok f' pg e).
  { intros e f' He Hf. eapply rights_frame; [|exact Hpg|exact (R e He)]. intros a Ha. apply Hf.
    pose proof (out_block b w e W He) as Hin.
    assert (overlap (p, request b k size) (block_of e) = false).
    { destruct (overlap (p, request b k size) (block_of e)) eqn:E; [|reflexivity].
      assert (existsb (overlap (p, request b k size)) (w_live w) = true)
        by (apply existsb_exists; eauto). congruence. }
    unfold overlap, block_of in H0. cbn [fst snd] in H0. lia. }
  assert (SP : sc_sp (sctx_of b k size p) = p + request b k size /\ sc_size (sctx_of b k size p) = request b k size).
  { unfold sctx_of. cbn [sc_sp sc_size]. rewrite wadd_small by lia. auto. }
  destruct SP as [SP1 SP2].
  destruct (page_of k) as [q|] eqn:Ep.
  - destruct (PG q eq_refl) as (-> & PG2 & PG3). destruct pok; [|discriminate]. injection H as <-.
    cbn [w_out w_perm]. intros e [<-|He].
    + unfold rights_ok, guard_size. cbn [fst snd]. rewrite SP1, SP2, Ep.
      replace (p + request b k size - request b k size) with p by lia.
      split; [auto|]. split; [lia|]. split.
      * intros a Ha. rewrite set_perm_out by lia. apply set_perm_in. lia.
      * intros a Ha. rewrite set_perm_in by lia. destruct k; cbn in Ep; try discriminate; cbn; auto.
    + apply OLD; [exact He|]. intros a Ha. rewrite !set_perm_out by lia. reflexivity.
  - injection H as <-. cbn [w_out w_perm]. intros e [<-|He].
    + unfold rights_ok, guard_size. cbn [fst snd]. rewrite SP1, SP2, Ep.
      split; [congruence|]. split; [lia|]. split.
      * intros a Ha. apply set_perm_in. lia.
      * intros a Ha. lia.
    + apply OLD; [exact He|]. intros a Ha. apply set_perm_out. exact Ha.
Qed.

Lemma rinv_dealloc b pg w n w' :
  0 <= b -> 0 < pg -> rinv b pg w -> wstep b w (ODealloc n) = WOk w' -> rinv b pg w' /\
  exists k s, nth_error (w_out w) n = Some (k, s) /\
    (forall a, sc_sp s - sc_size s <= a < sc_sp s -> w_perm w' a = PUnmapped) /\
    (forall a, ~ (sc_sp s - sc_size s <= a < sc_sp s) -> w_perm w' a = w_perm w a).
Proof.
  intros Hb Hpg [W R] H.
  assert (W' : winv b w') by (eapply wstep_inv; eauto; exact I).
  cbn [wstep] in H.
  destruct (nth_error (w_out w) n) as [[k s]|] eqn:En; [|discriminate].
  destruct (match k with KSegmented _ => false | _ => sc_sp s =? 0 end); [discriminate|].
  destruct (take_block (sized_release k) (release_addr b s) (sc_size s) (w_live w))
    as [[[a len] rest]|] eqn:Et; [|discriminate]. injection H as <-.
  destruct (take_block_perm _ _ _ _ _ _ Et) as [Hpt Hfst]. cbn [fst] in Hfst.
  pose proof (nth_error_In _ _ En) as Hks.
  pose proof W as [Hp Hok Hd].
  assert (Hent : entry_ok b (k, s)) by (eapply Forall_forall; [exact Hok|exact Hks]).
  unfold entry_ok in Hent; cbn [snd] in Hent.
  assert (Hra : release_addr b s = sc_sp s - sc_size s) by (unfold release_addr; rewrite wsub_small; lia).
  assert (Heq : (a, len) = block_of (k, s)).
  { apply (disjoint_unique_base (w_live w)); auto.
    - eapply Permutation_in; [apply Permutation_sym; exact Hpt|left; reflexivity].
    - apply (out_block b); assumption.
    - cbn [fst block_of snd]. lia. }
  unfold block_of in Heq. cbn [snd] in Heq. injection Heq as -> ->.
  split.
  - split; [exact W'|]. cbn [w_out w_perm w_live] in *. intros e He.
    assert (He' : In e (w_out w)).
    { eapply Permutation_in; [apply Permutation_sym; apply (remove_nth_perm n _ _ En)|right; exact He]. }
    eapply rights_frame; [|exact Hpg|exact (R e He')]. intros x Hx. apply set_perm_out.
    (* e's block is disjoint from the released one *)
    destruct (In_nth_error _ _ He) as [i Hi].
    assert (DJ : disjoint_blocks (block_of (k, s) :: map block_of (remove_nth n (w_out w)))).
    { eapply disjoint_perm; [|exact Hd]. rewrite Hp.
      rewrite (Permutation_map block_of (remove_nth_perm n _ _ En)). apply Permutation_refl. }
    pose proof (DJ 0%nat (S i) (block_of (k, s)) (block_of e) ltac:(lia) eq_refl) as DD.
    cbn [nth_error] in DD. rewrite nth_error_map, Hi in DD. specialize (DD eq_refl).
    unfold overlap, block_of in DD. cbn [fst snd] in DD. lia.
  - exists k, s. split; [reflexivity|]. cbn [w_perm]. split.
    + intros x Hx. apply set_perm_in. lia.
    + intros x Hx. apply set_perm_out. lia.
Qed.

Lemma page_cases pg q base x :
  0 < pg -> base mod pg = 0 -> q mod pg = 0 -> q <= x < q + pg -> base <= x < base + pg -> base = q.
Proof.
  intros Hpg Hm Hq Hx Hy. apply Z.mod_divide in Hm; [|lia]. destruct Hm as [i Hi].
  apply Z.mod_divide in Hq; [|lia]. destruct Hq as [j Hj]. subst base q.
  assert (i = j) by nia. subst. reflexivity.
Qed.

Lemma rinv_access b pg w a w' :
  0 < pg -> rinv b pg w -> wstep b w (OAccess a pg) = WOk w' \/ wstep b w (OAccess a pg) = WFault w' ->
  rinv b pg w'.
Proof.
  intros Hpg [W R] H. cbn [wstep] in H.
  assert (Wp : forall f, winv b (mk_world (w_live w) f (w_out w))) by (intros f; destruct W; constructor; assumption).
  destruct (w_perm w a) eqn:E; destruct H as [H|H]; try discriminate; injection H as <-; try (split; assumption).
  split; [apply Wp|]. cbn [w_out w_perm]. intros e He. destruct (R e He) as (R1 & R2 & R3 & R4).
  assert (IN : a / pg * pg <= a < a / pg * pg + pg)
    by (pose proof (Z.div_mod a pg ltac:(lia)); pose proof (Z.mod_pos_bound a pg Hpg); nia).
  assert (QM : (a / pg * pg) mod pg = 0) by apply Z_mod_mult.
  set (q := a / pg * pg) in *. clearbody q.
  split; [exact R1|]. split; [exact R2|]. split.
  - intros x Hx. destruct ((q <=? x) && (x <? q + pg)) eqn:C.
    + apply set_perm_in. lia.
    + rewrite set_perm_out by lia. apply R3. exact Hx.
  - intros x Hx. destruct ((q <=? x) && (x <? q + pg)) eqn:C.
    + rewrite set_perm_in by lia. specialize (R4 x Hx).
      assert (G : page_of (fst e) <> None).
      { intros N. unfold guard_size in Hx. rewrite N in Hx. lia. }
      destruct (R1 G) as [P1 P2].
      assert (GS : guard_size (fst e) = pg) by (unfold guard_size; rewrite P1; reflexivity).
      rewrite GS in *.
      assert (BE : sc_sp (snd e) - sc_size (snd e) = q) by (apply (page_cases pg q _ x); [exact Hpg|exact P2|exact QM|lia|lia]).
      destruct (R e He) as (_ & _ & _ & R4'). specialize (R4' a). rewrite GS in R4'.
      destruct (fst e); try (exfalso; assert (w_perm w a = PNoAccess) by (apply R4'; lia); congruence).
      right. reflexivity.
    + rewrite set_perm_out by lia. apply R4. exact Hx.
Qed.

Lemma rinv_step b pg w o w' :
  0 <= b -> 0 < pg -> rinv b pg w -> sane b pg o ->
  wstep b w o = WOk w' \/ wstep b w o = WBadAlloc w' \/ wstep b w o = WFault w' -> rinv b pg w'.
Proof.
  intros Hb Hpg RI SN H. destruct o as [k size [p|] pok|n|a page].
  - destruct H as [H|[H|H]].
    + eapply rinv_alloc; eauto.
    + cbn [wstep] in H. destruct (answer_ok _ _ _ _ _); [destruct (page_of k); [destruct pok|]|]; discriminate.
    + cbn [wstep] in H. destruct (answer_ok _ _ _ _ _); [destruct (page_of k); [destruct pok|]|]; discriminate.
  - cbn [wstep] in H. destruct H as [H|[H|H]]; try discriminate. injection H as <-. exact RI.
  - assert (wstep b w (ODealloc n) = WOk w').
    { destruct H as [H|[H|H]]; [exact H| |]; cbn [wstep] in H; exfalso;
        destruct (nth_error (w_out w) n) as [[k s]|]; try discriminate;
        destruct (match k with KSegmented _ => false | _ => sc_sp s =? 0 end); try discriminate;
        destruct (take_block _ _ _ _) as [[[? ?] ?]|]; discriminate. }
    eapply rinv_dealloc; eauto.
  - cbn [sane] in SN. subst page. eapply rinv_access; eauto.
    destruct H as [H|[H|H]]; [left; exact H|cbn [wstep] in H; destruct (w_perm w a); discriminate|right; exact H].
Qed.

Lemma rinv0 b pg : rinv b pg world0.
Proof. split; [apply winv0|]. intros e []. Qed.

Lemma wrun_rinv b pg l : 0 <= b -> 0 < pg -> forall w w',
  rinv b pg w -> Forall (sane b pg) l -> wrun b w l = WOk w' -> rinv b pg w'.
Proof.
  intros Hb Hpg. induction l as [|o l IH]; intros w w' RI SN H; cbn [wrun] in H.
  - injection H as <-. exact RI.
  - inversion SN as [|? ? S1 S2]; subst.
    destruct (wstep b w o) as [w1|w1|w1| | |] eqn:E; try discriminate;
      (eapply IH; [|exact S2|exact H]); eapply rinv_step; eauto.
Qed.
