(** * C48: shadow stacks survive context switches *)
From Coq Require Import List Arith ZArith Bool Lia.
From Verif Require Import ListUtil Word Layout Cet.
Import ListNotations.
Open Scope Z_scope.

(* ------------------------------------------------------------------ specification *)

(** the shadow stacks the threads were started with: aligned, at least a page apart *)
Definition apart (a b : Z * Z) : Prop := snd a + 4096 <= fst b \/ snd b + 4096 <= fst a.
Definition regs_ok (regs : list (Z * Z)) : Prop :=
  (forall r, In r regs -> fst r mod 8 = 0 /\ snd r mod 8 = 0 /\ fst r <= snd r) /\
  forall i j a b, i <> j -> nth_error regs i = Some a -> nth_error regs j = Some b -> apart a b.

(** The rule of use: ontop_fcontext is not called on a context that has never been entered.  fiber
    never does (the constructor enters every context once); callers of the C functions may. *)
Definition ontop_ok (s : state) (o : op) : Prop :=
  match o with
  | Ontop d _ => forall y, nth_error (s_ctx s) d = Some y -> k_fresh y = false
  | _ => True
  end.
Fixpoint disciplined (lb : lbl) (s : state) (l : list (nat * op)) : Prop :=
  match l with
  | [] => True
  | (t, o) :: r => ontop_ok s o /\ match step lb s t o with Next s' => disciplined lb s' r | _ => True end
  end.

(* ------------------------------------------------------------------ invariant *)

Fixpoint mirror (m : Z -> Z) (p : Z) (r : list Z) (hi : Z) : Prop :=
  match r with
  | [] => p = hi
  | ra :: r' => m p = ra /\ mirror m (p + 8) r' hi
  end.

Definition susp_ok (lb : lbl) (m : Z -> Z) (c : ctx) : Prop :=
  m (k_slot c - 8) = k_slot c + 1 /\ k_lo c <= k_slot c - 8 /\
  if k_fresh c then k_ret c = [l_tramp lb] /\ k_slot c = k_hi c - 8
  else mirror m (k_slot c) (k_ret c) (k_hi c) /\ k_ret c <> [].

Definition shape (c : ctx) : Prop := k_lo c mod 8 = 0 /\ k_hi c mod 8 = 0 /\ k_lo c <= k_hi c.
Definition gap (x y : ctx) : Prop := k_hi x + 4096 <= k_lo y \/ k_hi y + 4096 <= k_lo x.

Record inv (lb : lbl) (s : state) : Prop := mk_inv {
  v_shape : forall c x, nth_error (s_ctx s) c = Some x -> k_alive x = true -> shape x;
  v_gap : forall c d x y, c <> d -> nth_error (s_ctx s) c = Some x -> nth_error (s_ctx s) d = Some y ->
            k_alive x = true -> k_alive y = true -> gap x y;
  v_thr : forall t c p, nth_error (s_thr s) t = Some (c, p) ->
            exists x, nth_error (s_ctx s) c = Some x /\ k_alive x = true /\ k_run x = true /\
                      mirror (s_mem s) p (k_ret x) (k_hi x) /\ k_lo x <= p;
  v_uniq : forall t u c p q, nth_error (s_thr s) t = Some (c, p) -> nth_error (s_thr s) u = Some (c, q) -> t = u;
  v_susp : forall c x, nth_error (s_ctx s) c = Some x -> k_alive x = true -> k_run x = false ->
            susp_ok lb (s_mem s) x }.

Lemma mirror_len m p r hi : mirror m p r hi -> hi = p + 8 * Z.of_nat (length r).
Proof.
  revert p. induction r as [|a r IH]; cbn [mirror length]; intros p H; [lia|].
  destruct H as [_ H]. apply IH in H. lia.
Qed.

Lemma mirror_ext m m' p r hi : (forall a, p <= a < hi -> m' a = m a) -> mirror m p r hi -> mirror m' p r hi.
Proof.
  revert p. induction r as [|a r IH]; cbn [mirror]; intros p E H; [exact H|].
  destruct H as [H1 H2]. pose proof (mirror_len _ _ _ _ H2). split.
  - rewrite E by lia. exact H1.
  - apply IH; auto. intros b Hb. apply E. lia.
Qed.

Lemma mirror_skip m p r hi n : (n <= length r)%nat -> mirror m p r hi -> mirror m (p + 8 * Z.of_nat n) (skipn n r) hi.
Proof.
  revert p r. induction n as [|n IH]; intros p r L H; [cbn [skipn]; replace (p + 8 * Z.of_nat 0) with p by lia; exact H|].
  destruct r as [|a r]; cbn [length] in L; [lia|]. cbn [mirror skipn] in *. destruct H as [_ H].
  apply IH in H; [|lia]. replace (p + 8 * Z.of_nat (S n)) with (p + 8 + 8 * Z.of_nat n) by lia. exact H.
Qed.

Lemma in_ss_iff c a : k_alive c = true -> in_ss c a = true <-> k_lo c <= a /\ a + 8 <= k_hi c.
Proof. intros A. unfold in_ss. rewrite A. cbn [andb]. rewrite andb_true_iff, !Z.leb_le. reflexivity. Qed.

Definition sep (l : list ctx) : Prop :=
  forall c d x y, c <> d -> nth_error l c = Some x -> nth_error l d = Some y ->
                  k_alive x = true -> k_alive y = true -> gap x y.

(** an address just below or inside a shadow stack is mapped iff it is inside *)
Lemma mapped_own l c x a : sep l -> nth_error l c = Some x -> k_alive x = true ->
  k_lo x - 8 <= a -> a + 8 <= k_hi x -> mapped l a = (k_lo x <=? a).
Proof.
  intros SP N A L H. destruct (k_lo x <=? a) eqn:E.
  - apply existsb_exists. exists x. split; [eapply nth_error_In; eauto|]. apply in_ss_iff; auto.
    apply Z.leb_le in E. lia.
  - apply Z.leb_gt in E. destruct (mapped l a) eqn:M; auto. exfalso.
    apply existsb_exists in M as (y & I & B). apply In_nth_error in I as [d D].
    assert (AY : k_alive y = true) by (unfold in_ss in B; destruct (k_alive y); [auto|discriminate]).
    apply (in_ss_iff _ _ AY) in B. destruct (Nat.eq_dec c d) as [<-|NE].
    + rewrite N in D. injection D as <-. lia.
    + destruct (SP c d x y NE N D A AY); lia.
Qed.

Lemma wr_eq m a v : wr m a v a = v.
Proof. unfold wr. rewrite Z.eqb_refl. reflexivity. Qed.
Lemma wr_ne m a v b : b <> a -> wr m a v b = m b.
Proof. intros H. unfold wr. apply Z.eqb_neq in H. rewrite H. reflexivity. Qed.

Lemma load_own m l c x a : sep l -> nth_error l c = Some x -> k_alive x = true ->
  k_lo x <= a -> a + 8 <= k_hi x -> a mod 8 = 0 -> load m l a = Next (m a).
Proof.
  intros SP N A L H M. unfold load. rewrite M, Z.eqb_refl.
  rewrite (mapped_own l c x a) by (auto; lia). apply Z.leb_le in L. rewrite L. reflexivity.
Qed.
Lemma store_own m l c x a v : sep l -> nth_error l c = Some x -> k_alive x = true ->
  k_lo x <= a -> a + 8 <= k_hi x -> a mod 8 = 0 -> store m l a v = Next (wr m a v).
Proof.
  intros SP N A L H M. unfold store. rewrite M, Z.eqb_refl.
  rewrite (mapped_own l c x a) by (auto; lia). apply Z.leb_le in L. rewrite L. reflexivity.
Qed.

(** CALL on the shadow stack of x *)
Lemma call_own m l c x p ra : sep l -> nth_error l c = Some x -> k_alive x = true ->
  k_lo x <= p -> p <= k_hi x -> p mod 8 = 0 ->
  i_call m l p ra = if k_lo x <=? p - 8 then Next (wr m (p - 8) ra, p - 8) else Full.
Proof.
  intros SP N A L H M. unfold i_call, store.
  assert (M' : (p - 8) mod 8 = 0) by (rewrite Zminus_mod, M; reflexivity).
  rewrite M', Z.eqb_refl. rewrite (mapped_own l c x (p - 8)) by (auto; lia).
  destruct (k_lo x <=? p - 8); reflexivity.
Qed.

Lemma mod8_sub p k : p mod 8 = 0 -> (p - 8 * k) mod 8 = 0.
Proof. intros H. rewrite Zminus_mod, H, (Z.mul_comm 8 k), Z.mod_mul by lia. reflexivity. Qed.
Lemma mod8_add p k : p mod 8 = 0 -> (p + 8 * k) mod 8 = 0.
Proof. intros H. replace (p + 8 * k) with (p - 8 * (- k)) by lia. apply mod8_sub; auto. Qed.

Lemma tok_ok q : q mod 8 = 0 ->
  (q + 1) mod 4 = 1 /\ (q + 1 - 1 - 8) / 8 * 8 = q - 8 /\ (q + 1) / 4 mod 2 = 0.
Proof. intros H. Z.to_euclidean_division_equations. lia. Qed.
Lemma prev_ok q : q mod 8 = 0 -> (q + 3) / 2 mod 2 <> 0 /\ (q + 3) - (q + 3) mod 4 = q.
Proof. intros H. Z.to_euclidean_division_equations. lia. Qed.

(** RSTORSSP; SAVEPREVSSP from the shadow stack of x at p to that of y, whose saved pointer is q *)
Definition swmem (m : Z -> Z) (p q : Z) : Z -> Z := wr (wr m (q - 8) (p + 3)) (p - 8) (p + 1).

Lemma pair_own m l c d x y p q : sep l -> nth_error l c = Some x -> nth_error l d = Some y ->
  k_alive x = true -> k_alive y = true -> c <> d ->
  k_lo x <= p -> p <= k_hi x -> p mod 8 = 0 ->
  m (q - 8) = q + 1 -> k_lo y <= q - 8 -> q <= k_hi y -> q mod 8 = 0 ->
  (do u <- i_rstorssp m l p (q - 8); i_saveprevssp (fst u) l (snd u)) =
  if k_lo x <=? p - 8 then Next (swmem m p q, q) else Full.
Proof.
  intros SP NX NY AX AY NE L H MP TOK LY HY MQ.
  assert (MQ' : (q - 8) mod 8 = 0) by (apply (mod8_sub q 1); auto).
  assert (MP' : (p - 8) mod 8 = 0) by (apply (mod8_sub p 1); auto).
  unfold i_rstorssp. rewrite (load_own m l d y) by (auto; lia). cbn [bind].
  destruct (tok_ok q MQ) as (T1 & T2 & T3). rewrite TOK, T1, T2, T3, !Z.eqb_refl. cbn [andb].
  rewrite (store_own m l d y) by (auto; lia). cbn [bind fst snd].
  unfold i_saveprevssp. rewrite (load_own _ l d y) by (auto; lia). cbn [bind]. rewrite wr_eq.
  destruct (prev_ok p MP) as (P1 & P2). apply Z.eqb_neq in P1. rewrite P1, P2.
  unfold store. rewrite MP', Z.eqb_refl. rewrite (mapped_own l c x (p - 8)) by (auto; lia).
  destruct (k_lo x <=? p - 8); cbn [bind]; [|reflexivity].
  replace (q - 8 + 8) with q by lia. reflexivity.
Qed.

(** m' differs from m only inside [lo, hi) *)
Definition only (m m' : Z -> Z) (x : ctx) : Prop := forall a, ~ (k_lo x <= a < k_hi x) -> m' a = m a.
Definition only2 (m m' : Z -> Z) (x y : ctx) : Prop :=
  forall a, ~ (k_lo x <= a < k_hi x) -> ~ (k_lo y <= a < k_hi y) -> m' a = m a.

Lemma susp_ext lb m m' z : shape z -> (forall a, k_lo z <= a < k_hi z -> m' a = m a) -> susp_ok lb m z -> susp_ok lb m' z.
Proof.
  intros SH E (T & L & R). unfold susp_ok.
  assert (B : k_slot z <= k_hi z).
  { destruct (k_fresh z); [destruct R as [_ ->]; lia|]. destruct R as [R _]. apply mirror_len in R. lia. }
  rewrite E by lia. split; [exact T|]. split; [exact L|].
  destruct (k_fresh z); [exact R|]. destruct R as [R R2]. split; [|exact R2].
  eapply mirror_ext; [|exact R]. intros a Ha. apply E. lia.
Qed.

Lemma gap_out x y a : shape x -> shape y -> gap x y -> k_lo y <= a < k_hi y -> ~ (k_lo x <= a < k_hi x).
Proof. unfold gap, shape. lia. Qed.

(** one context changes, in its own shadow stack only *)
Lemma inv_one lb s t c p x m' x' p' : inv lb s ->
  nth_error (s_thr s) t = Some (c, p) -> nth_error (s_ctx s) c = Some x ->
  k_lo x' = k_lo x -> k_hi x' = k_hi x -> k_alive x' = true -> k_run x' = true ->
  only (s_mem s) m' x -> mirror m' p' (k_ret x') (k_hi x) -> k_lo x <= p' ->
  inv lb (mk_s m' (upd (s_ctx s) c x') (upd (s_thr s) t (c, p'))).
Proof.
  intros I T N EL EH EA ER OM MI LP.
  destruct (v_thr lb s I t c p T) as (x0 & N0 & AX & RX & _). rewrite N in N0. injection N0 as <-.
  pose proof (v_shape lb s I c x N AX) as SX.
  assert (C : forall d y, nth_error (upd (s_ctx s) c x') d = Some y ->
              (d = c /\ y = x') \/ (d <> c /\ nth_error (s_ctx s) d = Some y)).
  { intros d y H. destruct (Nat.eq_dec d c) as [->|NE].
    - left. split; auto. rewrite (nth_upd_lt _ _ _ (nth_some_lt _ _ _ N)) in H. injection H as <-. reflexivity.
    - right. rewrite nth_upd_ne in H by auto. auto. }
  assert (OUT : forall d y, d <> c -> nth_error (s_ctx s) d = Some y -> k_alive y = true ->
              forall a, k_lo y <= a < k_hi y -> m' a = s_mem s a).
  { intros d y NE D A a Ha. apply OM. apply (gap_out x y a); auto; [exact (v_shape lb s I d y D A)|].
    exact (v_gap lb s I c d x y (not_eq_sym NE) N D AX A). }
  constructor; cbn [s_mem s_ctx s_thr].
  - intros d y H A. apply C in H as [[-> ->]|[NE H]]; [|eapply (v_shape lb s I); eauto].
    unfold shape. rewrite EL, EH. exact SX.
  - intros d e y z NE H1 H2 A1 A2. apply C in H1 as [[-> ->]|[N1 H1]]; apply C in H2 as [[-> ->]|[N2 H2]].
    + contradiction.
    + unfold gap. rewrite EL, EH. eapply (v_gap lb s I c e); eauto.
    + unfold gap. rewrite EL, EH. eapply (v_gap lb s I d c); eauto.
    + eapply (v_gap lb s I d e); eauto.
  - intros u d q H. destruct (Nat.eq_dec u t) as [->|NE].
    + rewrite (nth_upd_lt _ _ _ (nth_some_lt _ _ _ T)) in H. injection H as <- <-. exists x'.
      rewrite (nth_upd_lt _ _ _ (nth_some_lt _ _ _ N)). rewrite EL, EH. auto.
    + rewrite nth_upd_ne in H by auto. destruct (v_thr lb s I u d q H) as (y & D & A & R & MY & LY).
      assert (ND : d <> c) by (intros ->; apply NE; eapply (v_uniq lb s I); eauto).
      exists y. rewrite nth_upd_ne by auto. repeat split; auto. eapply mirror_ext; [|exact MY].
      intros a Ha. eapply OUT; eauto. lia.
  - intros u w d q q' H1 H2.
    assert (K : forall v r, nth_error (upd (s_thr s) t (c, p')) v = Some (d, r) -> exists r', nth_error (s_thr s) v = Some (d, r')).
    { intros v r H. destruct (Nat.eq_dec v t) as [->|NE].
      - rewrite (nth_upd_lt _ _ _ (nth_some_lt _ _ _ T)) in H. injection H as <- <-. eauto.
      - rewrite nth_upd_ne in H by auto. eauto. }
    apply K in H1 as [r1 H1]. apply K in H2 as [r2 H2]. eapply (v_uniq lb s I); eauto.
  - intros d y H A R. apply C in H as [[-> ->]|[NE H]]; [congruence|].
    eapply susp_ext; [eapply (v_shape lb s I); eauto| |eapply (v_susp lb s I); eauto].
    intros a Ha. eapply OUT; eauto.
Qed.

(** a switch from c to d *)
Lemma inv_two lb s t c d p x y m' x' y' q : inv lb s -> c <> d ->
  nth_error (s_thr s) t = Some (c, p) -> nth_error (s_ctx s) c = Some x -> nth_error (s_ctx s) d = Some y ->
  k_alive y = true -> k_run y = false ->
  k_lo x' = k_lo x -> k_hi x' = k_hi x -> k_alive x' = true -> k_run x' = false ->
  k_lo y' = k_lo y -> k_hi y' = k_hi y -> k_alive y' = true -> k_run y' = true ->
  only2 (s_mem s) m' x y -> susp_ok lb m' x' -> mirror m' q (k_ret y') (k_hi y) -> k_lo y <= q ->
  inv lb (mk_s m' (upd (upd (s_ctx s) c x') d y') (upd (s_thr s) t (d, q))).
Proof.
  intros I CD T N D AY RY EL EH EA ER FL FH FA FR OM SU MI LQ.
  destruct (v_thr lb s I t c p T) as (x0 & N0 & AX & RX & _). rewrite N in N0. injection N0 as <-.
  pose proof (v_shape lb s I c x N AX) as SX. pose proof (v_shape lb s I d y D AY) as SY.
  pose proof (v_gap lb s I c d x y CD N D AX AY) as GXY.
  assert (NC : nth_error (upd (upd (s_ctx s) c x') d y') c = Some x')
    by (rewrite nth_upd_ne by auto; apply nth_upd_lt; eapply nth_some_lt; eauto).
  assert (ND : nth_error (upd (upd (s_ctx s) c x') d y') d = Some y').
  { apply nth_upd_lt. rewrite upd_length. eapply nth_some_lt; eauto. }
  assert (C : forall e z, nth_error (upd (upd (s_ctx s) c x') d y') e = Some z ->
              (e = c /\ z = x') \/ (e = d /\ z = y') \/ (e <> c /\ e <> d /\ nth_error (s_ctx s) e = Some z)).
  { intros e z H. destruct (Nat.eq_dec e c) as [->|N1]; [left; split; congruence|].
    destruct (Nat.eq_dec e d) as [->|N2]; [right; left; split; congruence|].
    right; right. rewrite !nth_upd_ne in H by auto. auto. }
  assert (OUT : forall e z, e <> c -> e <> d -> nth_error (s_ctx s) e = Some z -> k_alive z = true ->
              forall a, k_lo z <= a < k_hi z -> m' a = s_mem s a).
  { intros e z N1 N2 E A a Ha. pose proof (v_shape lb s I e z E A). apply OM.
    - apply (gap_out x z a); auto. exact (v_gap lb s I c e x z (not_eq_sym N1) N E AX A).
    - apply (gap_out y z a); auto. exact (v_gap lb s I d e y z (not_eq_sym N2) D E AY A). }
  constructor; cbn [s_mem s_ctx s_thr].
  - intros e z H A. apply C in H as [[-> ->]|[[-> ->]|(N1 & N2 & H)]];
      [unfold shape; rewrite EL, EH; exact SX|unfold shape; rewrite FL, FH; exact SY|eapply (v_shape lb s I); eauto].
  - intros e f z w NE H1 H2 A1 A2.
    apply C in H1 as [[-> ->]|[[-> ->]|(N1 & N2 & H1)]]; apply C in H2 as [[-> ->]|[[-> ->]|(N3 & N4 & H2)]];
      try contradiction; unfold gap; rewrite ?EL, ?EH, ?FL, ?FH.
    + exact GXY.
    + eapply (v_gap lb s I c f); eauto.
    + unfold gap in GXY. lia.
    + eapply (v_gap lb s I d f); eauto.
    + eapply (v_gap lb s I e c); eauto.
    + eapply (v_gap lb s I e d); eauto.
    + eapply (v_gap lb s I e f); eauto.
  - intros u e r H. destruct (Nat.eq_dec u t) as [->|NE].
    + rewrite (nth_upd_lt _ _ _ (nth_some_lt _ _ _ T)) in H. injection H as <- <-. exists y'.
      rewrite FL, FH. auto.
    + rewrite nth_upd_ne in H by auto. destruct (v_thr lb s I u e r H) as (z & E & A & R & MZ & LZ).
      assert (N1 : e <> c) by (intros ->; apply NE; eapply (v_uniq lb s I); eauto).
      assert (N2 : e <> d) by (intros ->; rewrite D in E; injection E as <-; congruence).
      exists z. rewrite !nth_upd_ne by auto. repeat split; auto. eapply mirror_ext; [|exact MZ].
      intros a Ha. apply (OUT e z); auto. lia.
  - intros u w e r r' H1 H2.
    assert (K : forall v k, nth_error (s_thr s) v <> Some (d, k)).
    { intros v k H. destruct (v_thr lb s I v d k H) as (z & E & _ & R & _). rewrite D in E. injection E as <-. congruence. }
    destruct (Nat.eq_dec u t) as [->|NU]; destruct (Nat.eq_dec w t) as [->|NW]; auto.
    + rewrite (nth_upd_lt _ _ _ (nth_some_lt _ _ _ T)) in H1. injection H1 as <- <-.
      rewrite nth_upd_ne in H2 by auto. exfalso. eapply K; eauto.
    + rewrite (nth_upd_lt _ _ _ (nth_some_lt _ _ _ T)) in H2. injection H2 as <- <-.
      rewrite nth_upd_ne in H1 by auto. exfalso. eapply K; eauto.
    + rewrite nth_upd_ne in H1 by auto. rewrite nth_upd_ne in H2 by auto. eapply (v_uniq lb s I); eauto.
  - intros e z H A R. apply C in H as [[-> ->]|[[-> ->]|(N1 & N2 & H)]]; [exact SU|congruence|].
    eapply susp_ext; [eapply (v_shape lb s I); eauto| |eapply (v_susp lb s I); eauto].
    intros a Ha. apply (OUT e z); auto.
Qed.

(** a new context, while thread t runs c *)
Lemma inv_add lb s t c p x m' y : inv lb s ->
  nth_error (s_thr s) t = Some (c, p) -> nth_error (s_ctx s) c = Some x ->
  k_alive y = true -> k_run y = false -> shape y ->
  (forall d z, nth_error (s_ctx s) d = Some z -> k_alive z = true -> gap z y) ->
  only2 (s_mem s) m' x y -> susp_ok lb m' y -> mirror m' p (k_ret x) (k_hi x) ->
  inv lb (mk_s m' (s_ctx s ++ [y]) (upd (s_thr s) t (c, p))).
Proof.
  intros I T N AY RY SY GY OM SU MI.
  destruct (v_thr lb s I t c p T) as (x0 & N0 & AX & RX & _ & LX). rewrite N in N0. injection N0 as <-.
  pose proof (v_shape lb s I c x N AX) as SX.
  assert (UT : upd (s_thr s) t (c, p) = s_thr s).
  { clear -T. revert t T. induction (s_thr s) as [|a l IH]; intros [|t] T; cbn in *; try discriminate.
    - injection T as ->. reflexivity.
    - f_equal. auto. }
  rewrite UT.
  assert (C : forall e z, nth_error (s_ctx s ++ [y]) e = Some z ->
              (e = length (s_ctx s) /\ z = y) \/ nth_error (s_ctx s) e = Some z).
  { intros e z H. apply nth_app_cases in H as [H|H]; [right; tauto|left; tauto]. }
  assert (LT : forall e z, nth_error (s_ctx s) e = Some z -> nth_error (s_ctx s ++ [y]) e = Some z).
  { intros e z H. rewrite nth_error_app1; auto. eapply nth_some_lt; eauto. }
  assert (OUT : forall e z, e <> c -> nth_error (s_ctx s) e = Some z -> k_alive z = true ->
              forall a, k_lo z <= a < k_hi z -> m' a = s_mem s a).
  { intros e z N1 E A a Ha. pose proof (v_shape lb s I e z E A). apply OM.
    - apply (gap_out x z a); auto. exact (v_gap lb s I c e x z (not_eq_sym N1) N E AX A).
    - apply (gap_out y z a); auto. pose proof (GY e z E A) as G. unfold gap in *. lia. }
  constructor; cbn [s_mem s_ctx s_thr].
  - intros e z H A. apply C in H as [[-> ->]|H]; auto. eapply (v_shape lb s I); eauto.
  - intros e f z w NE H1 H2 A1 A2. apply C in H1 as [[-> ->]|H1]; apply C in H2 as [[-> ->]|H2]; try contradiction.
    + pose proof (GY f w H2 A2) as G. unfold gap in *. lia.
    + exact (GY e z H1 A1).
    + eapply (v_gap lb s I e f); eauto.
  - intros u e r H. destruct (v_thr lb s I u e r H) as (z & E & A & R & MZ & LZ).
    exists z. split; [auto|]. split; [auto|]. split; [auto|]. split; [|auto].
    destruct (Nat.eq_dec e c) as [->|NE].
    + assert (u = t) by (eapply (v_uniq lb s I); eauto). subst u. rewrite T in H. injection H as <-.
      rewrite N in E. injection E as <-. exact MI.
    + eapply mirror_ext; [|exact MZ]. intros a Ha. apply (OUT e z); auto. lia.
  - intros u w e r r' H1 H2. eapply (v_uniq lb s I); eauto.
  - intros e z H A R. apply C in H as [[-> ->]|H]; [exact SU|].
    eapply susp_ext; [eapply (v_shape lb s I); eauto| |eapply (v_susp lb s I); eauto].
    intros a Ha. apply (OUT e z); auto. intros ->. rewrite N in H. injection H as <-. congruence.
Qed.

(** contexts are unmapped *)
Lemma inv_free lb s d y : inv lb s -> nth_error (s_ctx s) d = Some y -> k_run y = false ->
  inv lb (mk_s (s_mem s) (upd (s_ctx s) d (set_dead y)) (s_thr s)).
Proof.
  intros I D RY.
  assert (C : forall e z, nth_error (upd (s_ctx s) d (set_dead y)) e = Some z -> k_alive z = true ->
              e <> d /\ nth_error (s_ctx s) e = Some z).
  { intros e z H A. destruct (Nat.eq_dec e d) as [->|NE].
    - rewrite (nth_upd_lt _ _ _ (nth_some_lt _ _ _ D)) in H. injection H as <-. discriminate A.
    - rewrite nth_upd_ne in H by auto. auto. }
  constructor; cbn [s_mem s_ctx s_thr].
  - intros e z H A. apply C in H as [_ H]; auto. eapply (v_shape lb s I); eauto.
  - intros e f z w NE H1 H2 A1 A2. apply C in H1 as [_ H1]; auto. apply C in H2 as [_ H2]; auto. eapply (v_gap lb s I); eauto.
  - intros u e r H. destruct (v_thr lb s I u e r H) as (z & E & A & R & MZ & LZ). exists z.
    rewrite nth_upd_ne; auto. intros <-. rewrite D in E. injection E as <-. congruence.
  - exact (v_uniq lb s I).
  - intros e z H A R. apply C in H as [_ H]; auto. eapply (v_susp lb s I); eauto.
Qed.

Lemma bind2 {A B C} (a : outcome A) (f : A -> outcome B) (g : B -> outcome C) :
  (do u <- a; do v <- f u; g v) = (do v <- (do u <- a; f u); g v).
Proof. destruct a; reflexivity. Qed.

(** what a step may do, if thread t runs context x *)
Definition good (lb : lbl) (x : ctx) (o : outcome state) : Prop :=
  match o with
  | Next s' => inv lb s'
  | Full => k_hi x - k_lo x < 8 * (Z.of_nat (length (k_ret x)) + 2)
  | Fault | Odd => False
  | Invalid => True
  end.

Lemma make_eq lb m l c x p y ra : sep (l ++ [y]) -> nth_error l c = Some x ->
  k_alive x = true -> shape x -> k_lo x <= p -> p <= k_hi x -> p mod 8 = 0 ->
  k_alive y = true -> shape y -> k_lo y + 16 <= k_hi y ->
  m (k_hi y - 8) = k_hi y + 1 ->
  (do u <- i_call m (l ++ [y]) p ra;
   do q <- make_ss lb (fst u) (l ++ [y]) (snd u) (k_hi y);
   let '(m', ssp', slot) := q in do r <- i_ret m' (l ++ [y]) ssp' ra; Next (m', slot, r)) =
  if k_lo x <=? p - 16 then
    let m1 := wr m (p - 8) ra in
    let m2 := swmem m1 (p - 8) (k_hi y) in
    let m3 := wr m2 (k_hi y - 8) (l_jmp_tramp lb) in
    let m4 := swmem m3 (k_hi y - 8) (p - 8) in
    Next (m4, k_hi y - 8, p)
  else Full.
Proof.
  intros SP N AX SX L H M AY SY L16 TOK. set (l' := l ++ [y]) in *. set (d := length l).
  assert (NX : nth_error l' c = Some x) by (unfold l'; rewrite nth_error_app1; auto; eapply nth_some_lt; eauto).
  assert (NY : nth_error l' d = Some y) by (unfold l', d; apply nth_app_last).
  assert (CD : c <> d) by (apply nth_some_lt in N; unfold d; lia).
  pose proof (SP c d x y CD NX NY AX AY) as G. destruct SX as (X1 & X2 & X3). destruct SY as (Y1 & Y2 & Y3).
  assert (M1 : (p - 8) mod 8 = 0) by (apply (mod8_sub p 1); auto).
  assert (MB : (k_hi y - 8) mod 8 = 0) by (apply (mod8_sub (k_hi y) 1); auto).
  rewrite (call_own m l' c x p ra) by (auto; lia).
  destruct (k_lo x <=? p - 8) eqn:E1; cbn [bind]; [|apply Z.leb_gt in E1; destruct (k_lo x <=? p - 16) eqn:E2; [apply Z.leb_le in E2; lia|reflexivity]].
  apply Z.leb_le in E1. cbn [fst snd]. set (m1 := wr m (p - 8) ra).
  assert (D1 : k_hi y - 8 <> p - 8) by (unfold gap in G; lia).
  unfold make_ss. rewrite bind2.
  rewrite (pair_own m1 l' c d x y (p - 8) (k_hi y)); auto; try lia;
    [|unfold m1; rewrite wr_ne by auto; exact TOK].
  replace (p - 8 - 8) with (p - 16) by lia.
  destruct (k_lo x <=? p - 16) eqn:E2; cbn [bind]; [|reflexivity]. apply Z.leb_le in E2. cbn [fst snd].
  set (m2 := swmem m1 (p - 8) (k_hi y)).
  rewrite (call_own m2 l' d y (k_hi y)) by (auto; lia).
  assert (E3 : (k_lo y <=? k_hi y - 8) = true) by (apply Z.leb_le; lia). rewrite E3. cbn [bind fst snd].
  set (m3 := wr m2 (k_hi y - 8) (l_jmp_tramp lb)).
  replace (p - 16) with (p - 8 - 8) by lia.
  rewrite (bind2 (i_rstorssp m3 l' (k_hi y - 8) (p - 8 - 8)) (fun u => i_saveprevssp (fst u) l' (snd u))).
  rewrite (pair_own m3 l' d c y x (k_hi y - 8) (p - 8)); auto; try lia.
  2:{ unfold m3, m2, swmem. rewrite wr_ne by (unfold gap in G; lia). replace (p - 8 - 8) with (p - 16) by lia. apply wr_eq. }
  assert (E4 : (k_lo y <=? k_hi y - 8 - 8) = true) by (apply Z.leb_le; lia). rewrite E4. cbn [bind fst snd].
  set (m4 := swmem m3 (k_hi y - 8) (p - 8)).
  unfold i_ret. rewrite (load_own m4 l' c x) by (auto; lia). cbn [bind].
  assert (V : m4 (p - 8) = ra).
  { unfold m4, m3, m2, m1, swmem. unfold gap in G. rewrite !wr_ne by lia. apply wr_eq. }
  rewrite V, Z.eqb_refl. cbn [bind]. do 2 f_equal. lia.
Qed.

Lemma only_refl m x : only m m x. Proof. intros a _. reflexivity. Qed.
Lemma only2_wr m m' x y a v : only2 m m' x y -> (k_lo x <= a < k_hi x \/ k_lo y <= a < k_hi y) -> only2 m (wr m' a v) x y.
Proof. intros O H b H1 H2. rewrite wr_ne by lia. apply O; auto. Qed.
Lemma only_wr m m' x a v : only m m' x -> k_lo x <= a < k_hi x -> only m (wr m' a v) x.
Proof. intros O H b H1. rewrite wr_ne by lia. apply O; auto. Qed.
Lemma mirror_wr m p r hi a v : ~ (p <= a < hi) -> mirror m p r hi -> mirror (wr m a v) p r hi.
Proof. intros H M. eapply mirror_ext; [|exact M]. intros b Hb. apply wr_ne. lia. Qed.

Lemma step_good lb s t o c p x : inv lb s -> ontop_ok s o ->
  nth_error (s_thr s) t = Some (c, p) -> nth_error (s_ctx s) c = Some x -> good lb x (step lb s t o).
Proof.
  intros I OK T N. unfold step. rewrite T, N.
  destruct (v_thr lb s I t c p T) as (x0 & N0 & AX & RX & MX & LX). rewrite N in N0. injection N0 as <-.
  pose proof (v_shape lb s I c x N AX) as SX. pose proof (v_gap lb s I) as SP. fold (sep (s_ctx s)) in SP.
  pose proof (mirror_len _ _ _ _ MX) as LEN. pose proof SX as (X1 & X2 & X3).
  assert (PM : p mod 8 = 0) by (replace p with (k_hi x - 8 * Z.of_nat (length (k_ret x))) by lia; apply mod8_sub; auto).
  assert (PM1 : (p - 8) mod 8 = 0) by (apply (mod8_sub p 1); auto).
  assert (PM2 : (p - 8 - 8) mod 8 = 0) by (apply (mod8_sub (p - 8) 1); auto).
  destruct o as [ra| |n|base size ra|d ra|d ra|d].
  - (* Call *)
    rewrite (call_own _ _ c x) by (auto; lia). destruct (k_lo x <=? p - 8) eqn:E; cbn [bind good fst snd];
      [|apply Z.leb_gt in E; lia].
    apply Z.leb_le in E. apply (inv_one lb s t c p x); auto.
    + apply only_wr; [apply only_refl|lia].
    + cbn [k_ret set_ret mirror]. rewrite wr_eq. split; auto. replace (p - 8 + 8) with p by lia. apply mirror_wr; auto. lia.
  - (* Ret *)
    destruct (k_ret x) as [|ra rest] eqn:ER; [exact Logic.I|]. cbn [mirror length] in MX, LEN. destruct MX as [M1 M2].
    unfold i_ret. rewrite (load_own _ _ c x) by (auto; lia). cbn [bind]. rewrite M1, Z.eqb_refl. cbn [bind].
    assert (G : good lb x (Next (mk_s (s_mem s) (upd (s_ctx s) c (set_ret x rest)) (upd (s_thr s) t (c, p + 8))))).
    { cbn [good]. apply (inv_one lb s t c p x); auto; [apply only_refl|lia]. }
    destruct rest as [|rb rest']; [|exact G]. destruct (k_main x); [exact G|]. cbn [mirror length] in M2, LEN.
    rewrite (call_own _ _ c x) by (auto; try lia; apply (mod8_add p 1); auto).
    replace (p + 8 - 8) with p by lia. destruct (k_lo x <=? p) eqn:E; [|apply Z.leb_gt in E; lia].
    cbn [bind good fst snd]. apply (inv_one lb s t c p x); auto.
    + apply only_wr; [apply only_refl|lia].
    + cbn [k_ret set_ret mirror]. rewrite wr_eq. split; auto.
  - (* Unwind *)
    destruct ((0 <? Z.of_nat n) && Nat.ltb n (length (k_ret x))) eqn:E; [|exact Logic.I].
    apply andb_true_iff in E as [E1 E2]. apply Z.ltb_lt in E1. apply Nat.ltb_lt in E2.
    unfold i_incssp. rewrite (load_own _ _ c x) by (auto; lia). cbn [bind].
    rewrite (load_own _ _ c x) by (auto; try lia; apply mod8_add; auto). cbn [bind good].
    apply (inv_one lb s t c p x); auto; [apply only_refl| |lia].
    cbn [k_ret set_ret]. apply mirror_skip; auto. lia.
  - (* Create *)
    destruct ((base mod 4096 =? 0) && (size mod 8 =? 0) && (16 <=? size) && negb (existsb (fun y => overlaps y (base - 4096) (base + size + 4096)) (s_ctx s))) eqn:E;
      [|exact Logic.I].
    apply andb_true_iff in E as [E E4]. apply andb_true_iff in E as [E E3]. apply andb_true_iff in E as [E1 E2].
    apply Z.eqb_eq in E1, E2. apply Z.leb_le in E3. apply negb_true_iff in E4.
    set (y := mk_c [l_tramp lb] 0 base (base + size) false true false true).
    assert (B8 : base mod 8 = 0) by (Z.to_euclidean_division_equations; lia).
    assert (SY : shape y) by (unfold shape, y; cbn [k_lo k_hi]; rewrite Zplus_mod, B8, E2; repeat split; auto; lia).
    assert (GY : forall e z, nth_error (s_ctx s) e = Some z -> k_alive z = true -> gap z y).
    { intros e z H A. unfold gap, y; cbn [k_lo k_hi].
      assert (O : overlaps z (base - 4096) (base + size + 4096) = false).
      { destruct (overlaps z (base - 4096) (base + size + 4096)) eqn:O; auto. exfalso.
        rewrite <- not_true_iff_false in E4. apply E4. apply existsb_exists. exists z. split; [eapply nth_error_In; eauto|exact O]. }
      unfold overlaps in O. rewrite A in O. cbn [andb] in O. apply andb_false_iff in O as [O|O]; apply Z.ltb_ge in O; lia. }
    assert (SP' : sep (s_ctx s ++ [y])).
    { intros e f z w NE H1 H2 A1 A2. apply nth_app_cases in H1 as [[_ H1]|[-> ->]]; apply nth_app_cases in H2 as [[_ H2]|[-> ->]].
      - exact (SP e f z w NE H1 H2 A1 A2).
      - exact (GY e z H1 A1).
      - pose proof (GY f w H2 A2) as G. unfold gap in *. lia.
      - contradiction. }
    pose proof (make_eq lb (wr (s_mem s) (base + size - 8) (base + size + 1)) (s_ctx s) c x p y ra SP' N AX SX LX ltac:(lia) PM
                  eq_refl SY ltac:(unfold y; cbn [k_lo k_hi]; lia) ltac:(unfold y; cbn [k_hi]; apply wr_eq)) as ME.
    cbv zeta in ME |- *. change (k_hi y) with (base + size) in ME.
    set (l' := s_ctx s ++ [y]) in *. set (m0 := wr (s_mem s) (base + size - 8) (base + size + 1)) in *.
    match goal with |- good lb x ?e =>
      assert (QE : e = do z <- (do u <- i_call m0 l' p ra;
             do q <- make_ss lb (fst u) l' (snd u) (base + size);
             let '(m', ssp', slot) := q in do r <- i_ret m' l' ssp' ra; Next (m', slot, r));
             let '(m', slot, r) := z in
             Next (mk_s m' (s_ctx s ++ [mk_c [l_tramp lb] slot base (base + size) false true false true]) (upd (s_thr s) t (c, r)))) end.
    { destruct (i_call m0 l' p ra) as [u| | | |]; cbn [bind]; try reflexivity.
      destruct (make_ss lb (fst u) l' (snd u) (base + size)) as [[[m' ssp'] slot]| | | |]; cbn [bind]; try reflexivity.
      destruct (i_ret m' l' ssp' ra) as [r| | | |]; reflexivity. }
    rewrite QE, ME. clear QE ME.
    destruct (k_lo x <=? p - 16) eqn:E5; cbn [bind good]; [|apply Z.leb_gt in E5; lia].
    apply Z.leb_le in E5.
    set (y' := mk_c [l_tramp lb] (base + size - 8) base (base + size) false true false true).
    pose proof (GY c x N AX) as GX. unfold gap, y in GX; cbn [k_lo k_hi] in GX.
    apply (inv_add lb s t c p x); auto.
    + unfold swmem. change (k_lo y) with base. 
      repeat apply only2_wr; try (intros a _ _; reflexivity); unfold y'; cbn [k_lo k_hi]; lia.
    + unfold susp_ok, y', swmem. cbn [k_slot k_lo k_fresh k_ret k_hi]. rewrite wr_eq. split; [lia|]. split; [lia|]. auto.
    + unfold swmem, m0. repeat (apply mirror_wr; [lia|]). exact MX.
  - (* Jump *)
    destruct (nth_error (s_ctx s) d) as [y|] eqn:D; [|exact Logic.I].
    destruct (k_alive y) eqn:AY; [|exact Logic.I]. destruct (k_run y) eqn:RY; [exact Logic.I|]. cbn [andb negb].
    assert (CD : c <> d) by (intros <-; rewrite N in D; injection D as <-; congruence).
    pose proof (v_susp lb s I d y D AY RY) as (TK & SL & SR).
    pose proof (v_shape lb s I d y D AY) as SY. pose proof SY as (Y1 & Y2 & Y3).
    pose proof (SP c d x y CD N D AX AY) as G. unfold gap in G.
    rewrite (call_own _ _ c x) by (auto; lia). destruct (k_lo x <=? p - 8) eqn:E; cbn [bind fst snd];
      [|apply Z.leb_gt in E; cbn [good]; lia].
    apply Z.leb_le in E. set (m1 := wr (s_mem s) (p - 8) ra).
    assert (SH : k_slot y + 8 <= k_hi y /\ k_slot y mod 8 = 0).
    { destruct (k_fresh y).
      - destruct SR as [_ ->]. split; [lia|]. apply (mod8_sub (k_hi y) 1); auto.
      - destruct SR as [SR NR]. apply mirror_len in SR. destruct (k_ret y); [contradiction|]. cbn [length] in SR. split; [lia|].
        replace (k_slot y) with (k_hi y - 8 * Z.of_nat (S (length l))) by lia. apply mod8_sub; auto. }
    destruct SH as [SH SM].
    unfold jump_ss. rewrite bind2.
    rewrite (pair_own m1 (s_ctx s) c d x y (p - 8) (k_slot y)); auto; try lia;
      [|unfold m1; rewrite wr_ne by lia; exact TK].
    destruct (k_lo x <=? p - 8 - 8) eqn:E5; cbn [bind fst snd]; [|apply Z.leb_gt in E5; cbn [good]; lia].
    apply Z.leb_le in E5. set (m2 := swmem m1 (p - 8) (k_slot y)).
    unfold i_incssp. rewrite (load_own _ _ d y) by (auto; lia). cbn [bind].
    replace (k_slot y + 8 * (1 - 1)) with (k_slot y) by lia.
    rewrite (load_own _ _ d y) by (auto; lia). cbn [bind].
    replace (k_slot y + 8 * 1) with (k_slot y + 8) by lia.
    assert (SUX : forall m', (forall a, k_lo x <= a < k_hi x -> m' a = m2 a) -> susp_ok lb m' (set_susp x (ra :: k_ret x) (p - 8))).
    { intros m' EX. unfold susp_ok. cbn [k_slot k_lo k_fresh k_ret k_hi set_susp mirror].
      rewrite !EX by lia. unfold m2, swmem. rewrite wr_eq. split; [lia|]. split; [lia|]. split; [|discriminate].
      split; [unfold m1; rewrite !wr_ne by lia; apply wr_eq|].
      replace (p - 8 + 8) with p by lia.
      apply (mirror_ext m2); [intros a Ha; apply EX; lia|].
      unfold m2, swmem, m1. repeat (apply mirror_wr; [lia|]). exact MX. }
    assert (O2 : only2 (s_mem s) m2 x y).
    { unfold m2, swmem, m1. repeat apply only2_wr; try (intros a _ _; reflexivity); lia. }
    unfold leave. destruct (k_fresh y) eqn:FY.
    + destruct SR as [SR1 SR2].
      rewrite (call_own _ _ d y) by (auto; try lia; apply (mod8_add (k_slot y) 1); auto).
      replace (k_slot y + 8 - 8) with (k_slot y) by lia.
      assert (E6 : (k_lo y <=? k_slot y) = true) by (apply Z.leb_le; lia). rewrite E6. cbn [bind good fst snd].
      apply (inv_two lb s t c d p x y); auto.
      * apply only2_wr; auto. lia.
      * apply SUX. intros a Ha. apply wr_ne. lia.
      * cbn [k_ret set_run mirror]. rewrite wr_eq. split; auto. lia.
      * lia.
    + destruct SR as [SR1 SR2]. destruct (k_ret y) as [|rb rest] eqn:ER; [contradiction|]. cbn [mirror] in SR1. destruct SR1 as [_ SR1].
      cbn [good]. apply (inv_two lb s t c d p x y); auto.
      * cbn [k_ret set_run tl]. unfold m2, swmem, m1. repeat (apply mirror_wr; [lia|]). exact SR1.
      * lia.
  - (* Ontop *)
    destruct (nth_error (s_ctx s) d) as [y|] eqn:D; [|exact Logic.I].
    destruct (k_alive y) eqn:AY; [|exact Logic.I]. destruct (k_run y) eqn:RY; [exact Logic.I|]. cbn [andb negb].
    assert (CD : c <> d) by (intros <-; rewrite N in D; injection D as <-; congruence).
    pose proof (v_susp lb s I d y D AY RY) as (TK & SL & SR). cbn [ontop_ok] in OK. specialize (OK y D). rewrite OK in SR.
    pose proof (v_shape lb s I d y D AY) as SY. pose proof SY as (Y1 & Y2 & Y3).
    pose proof (SP c d x y CD N D AX AY) as G. unfold gap in G.
    rewrite (call_own _ _ c x) by (auto; lia). destruct (k_lo x <=? p - 8) eqn:E; cbn [bind fst snd];
      [|apply Z.leb_gt in E; cbn [good]; lia].
    apply Z.leb_le in E. set (m1 := wr (s_mem s) (p - 8) ra). destruct SR as [SR NR].
    pose proof (mirror_len _ _ _ _ SR) as LY.
    assert (SM : k_slot y mod 8 = 0) by (replace (k_slot y) with (k_hi y - 8 * Z.of_nat (length (k_ret y))) by lia; apply mod8_sub; auto).
    unfold ontop_ss. rewrite bind2.
    rewrite (pair_own m1 (s_ctx s) c d x y (p - 8) (k_slot y)); auto; try lia;
      [|unfold m1; rewrite wr_ne by lia; exact TK].
    destruct (k_lo x <=? p - 8 - 8) eqn:E5; cbn [bind fst snd]; [|apply Z.leb_gt in E5; cbn [good]; lia].
    apply Z.leb_le in E5. set (m2 := swmem m1 (p - 8) (k_slot y)). cbn [good]. unfold leave.
    apply (inv_two lb s t c d p x y); auto.
    + unfold m2, swmem, m1. repeat apply only2_wr; try (intros a _ _; reflexivity); lia.
    + unfold susp_ok. cbn [k_slot k_lo k_fresh k_ret k_hi set_susp mirror].
      unfold m2, swmem. rewrite wr_eq. split; [lia|]. split; [lia|]. split; [|discriminate].
      split; [unfold m1; rewrite !wr_ne by lia; apply wr_eq|].
      replace (p - 8 + 8) with p by lia. unfold m1. repeat (apply mirror_wr; [lia|]). exact MX.
    + cbn [k_ret set_run]. unfold m2, swmem, m1. repeat (apply mirror_wr; [lia|]). exact SR.
    + lia.
  - (* Free *)
    destruct (nth_error (s_ctx s) d) as [y|] eqn:D; [|exact Logic.I].
    destruct (k_alive y) eqn:AY; [|exact Logic.I]. destruct (k_run y) eqn:RY; [exact Logic.I|]. cbn [andb negb good].
    apply inv_free; auto.
Qed.

Lemma inv_init lb m regs : regs_ok regs -> inv lb (init m regs).
Proof.
  intros [R1 R2]. unfold init.
  assert (C : forall c x, nth_error (map main_ctx regs) c = Some x -> exists r, nth_error regs c = Some r /\ x = main_ctx r).
  { intros c x H. rewrite nth_error_map in H. destruct (nth_error regs c) as [r|]; [|discriminate].
    injection H as <-. eauto. }
  assert (TH : forall t c p, nth_error (combine (seq 0 (length regs)) (map snd regs)) t = Some (c, p) ->
               c = t /\ exists r, nth_error regs t = Some r /\ p = snd r).
  { assert (G : forall (l : list (Z * Z)) k t c p, nth_error (combine (seq k (length l)) (map snd l)) t = Some (c, p) ->
                c = (k + t)%nat /\ exists r, nth_error l t = Some r /\ p = snd r).
    { induction l as [|r l IH]; intros k [|t] c p H; cbn in H; try discriminate.
      - injection H as <- <-. split; [lia|]. exists r. auto.
      - apply IH in H as [-> H]. split; [lia|]. exact H. }
    intros t c p H. apply G in H. exact H. }
  constructor; cbn [s_mem s_ctx s_thr].
  - intros c x H _. apply C in H as (r & H & ->). destruct (R1 r (nth_error_In _ _ H)) as (A & B & D).
    split; [|split]; assumption.
  - intros c d x y NE H1 H2 _ _. apply C in H1 as (a & H1 & ->). apply C in H2 as (b & H2 & ->).
    exact (R2 c d a b NE H1 H2).
  - intros t c p H. apply TH in H as (-> & r & H & ->). exists (main_ctx r).
    rewrite nth_error_map, H. cbn. repeat split; auto. apply (R1 r (nth_error_In _ _ H)).
  - intros t u c p q H1 H2. apply TH in H1 as (-> & _). apply TH in H2 as (-> & _). reflexivity.
  - intros c x H _ R. apply C in H as (r & H & ->). discriminate R.
Qed.

Lemma run_inv lb l : forall s, inv lb s -> disciplined lb s l ->
  match run lb s l with Next s' => inv lb s' | Fault | Odd => False | _ => True end.
Proof.
  induction l as [|[t o] l IH]; intros s I D; cbn [run]; [exact I|].
  cbn [disciplined] in D. destruct D as [D1 D2].
  destruct (nth_error (s_thr s) t) as [[c p]|] eqn:T; [|unfold step; rewrite T; exact Logic.I].
  destruct (v_thr lb s I t c p T) as (x & N & _).
  pose proof (step_good lb s t o c p x I D1 T N) as G.
  destruct (step lb s t o) as [s'| | | |]; cbn [bind good] in *; auto.
  apply IH; auto.
Qed.

(* ------------------------------------------------------------------ C48 *)

(** Whatever the threads of a program do - calls, returns, exceptions, creating contexts, switching
    to suspended contexts, calling functions on top of them, destroying contexts - no instruction
    raises a control-protection fault, as long as ontop_fcontext is not used on a context that was
    never entered. *)
Theorem C48_no_control_protection_fault lb m regs l : regs_ok regs -> disciplined lb (init m regs) l ->
  run lb (init m regs) l <> Fault /\ run lb (init m regs) l <> Odd.
Proof.
  intros R D. pose proof (run_inv lb l _ (inv_init lb m regs R) D) as H.
  destruct (run lb (init m regs) l); try contradiction; split; discriminate.
Qed.
Print Assumptions C48_no_control_protection_fault.

(** At every moment the shadow stack of a running context holds exactly the return addresses of the
    calls that are active on it. *)
Theorem C48_shadow_stack_mirrors_calls lb m regs l s t c ssp x :
  regs_ok regs -> disciplined lb (init m regs) l -> run lb (init m regs) l = Next s ->
  nth_error (s_thr s) t = Some (c, ssp) -> nth_error (s_ctx s) c = Some x ->
  k_alive x = true /\ k_lo x <= ssp /\ ssp + 8 * Z.of_nat (length (k_ret x)) = k_hi x /\
  forall i ra, nth_error (k_ret x) i = Some ra -> s_mem s (ssp + 8 * Z.of_nat i) = ra.
Proof.
  intros R D RN T N. pose proof (run_inv lb l _ (inv_init lb m regs R) D) as H. rewrite RN in H.
  destruct (v_thr lb s H t c ssp T) as (x' & N' & A & _ & M & L). rewrite N in N'. injection N' as <-.
  split; [exact A|]. split; [exact L|]. split; [symmetry; apply (mirror_len (s_mem s)); exact M|].
  intros i ra Hi. pose proof (mirror_skip _ _ _ _ i (Nat.lt_le_incl _ _ (nth_some_lt _ _ _ Hi)) M) as K.
  assert (E : skipn i (k_ret x) = ra :: skipn (S i) (k_ret x)).
  { clear -Hi. revert i Hi. induction (k_ret x) as [|a r IH]; intros [|i] Hi; cbn in *; try discriminate.
    - injection Hi as ->. reflexivity.
    - apply IH in Hi. exact Hi. }
  rewrite E in K. apply K.
Qed.
Print Assumptions C48_shadow_stack_mirrors_calls.

(** The same for a suspended context: below its return addresses is the token that lets exactly one
    switch continue it, and the first return address is the one its jump_fcontext or ontop_fcontext
    was called with. *)
Theorem C48_suspended_context_is_resumable lb m regs l s c x :
  regs_ok regs -> disciplined lb (init m regs) l -> run lb (init m regs) l = Next s ->
  nth_error (s_ctx s) c = Some x -> k_alive x = true -> k_run x = false -> k_fresh x = false ->
  s_mem s (k_slot x - 8) = k_slot x + 1 /\ k_lo x <= k_slot x - 8 /\
  k_slot x + 8 * Z.of_nat (length (k_ret x)) = k_hi x /\ k_ret x <> [] /\
  forall i ra, nth_error (k_ret x) i = Some ra -> s_mem s (k_slot x + 8 * Z.of_nat i) = ra.
Proof.
  intros R D RN N A RX FX. pose proof (run_inv lb l _ (inv_init lb m regs R) D) as H. rewrite RN in H.
  destruct (v_susp lb s H c x N A RX) as (T & L & M). rewrite FX in M. destruct M as [M NE].
  split; [exact T|]. split; [exact L|]. split; [symmetry; apply (mirror_len (s_mem s)); exact M|]. split; [exact NE|].
  intros i ra Hi. pose proof (mirror_skip _ _ _ _ i (Nat.lt_le_incl _ _ (nth_some_lt _ _ _ Hi)) M) as K.
  assert (E : skipn i (k_ret x) = ra :: skipn (S i) (k_ret x)).
  { clear -Hi. revert i Hi. induction (k_ret x) as [|a r IH]; intros [|i] Hi; cbn in *; try discriminate.
    - injection Hi as ->. reflexivity.
    - apply IH in Hi. exact Hi. }
  rewrite E in K. apply K.
Qed.
Print Assumptions C48_suspended_context_is_resumable.

(** A shadow stack is exhausted only if the active calls (and two more words) do not fit into it:
    switching contexts leaks nothing. *)
Theorem C48_exhausted_only_by_nesting lb m regs l s t o c ssp x :
  regs_ok regs -> disciplined lb (init m regs) l -> run lb (init m regs) l = Next s -> ontop_ok s o ->
  nth_error (s_thr s) t = Some (c, ssp) -> nth_error (s_ctx s) c = Some x ->
  step lb s t o = Full -> k_hi x - k_lo x < 8 * (Z.of_nat (length (k_ret x)) + 2).
Proof.
  intros R D RN OK T N F. pose proof (run_inv lb l _ (inv_init lb m regs R) D) as H. rewrite RN in H.
  pose proof (step_good lb s t o c ssp x H OK T N) as G. rewrite F in G. exact G.
Qed.
Print Assumptions C48_exhausted_only_by_nesting.

(* ------------------------------------------------------------------ concrete runs *)

Definition wlb : lbl := mk_lbl 5 6 7.
Definition wregs : list (Z * Z) := [(0x100000, 0x102000); (0x200000, 0x202000)].
Lemma wregs_ok : regs_ok wregs.
Proof.
  split.
  - intros r [<-|[<-|[]]]; cbn; repeat split; auto; lia.
  - intros i j a b NE H1 H2. destruct i as [|[|[|i]]]; destruct j as [|[|[|j]]]; cbn in H1, H2; try discriminate; try contradiction;
      injection H1 as <-; injection H2 as <-; unfold apart; cbn; lia.
Qed.

(** Two threads.  A context (2) is created by thread 0, entered, left by a jump three calls deep,
    continued by thread 1, left again; a function is called on top of it and returns, which completes
    its jump; its frames are unwound; it jumps back and is destroyed. *)
Definition wrun : list (nat * op) :=
  [(0%nat, Call 100); (0%nat, Create 0x300000 0x1000 101); (0%nat, Jump 2 102);
   (0%nat, Call 110); (0%nat, Call 111); (0%nat, Jump 0 112); (0%nat, Ret);
   (1%nat, Call 120); (1%nat, Jump 2 121); (1%nat, Call 113); (1%nat, Ret); (1%nat, Jump 1 114);
   (0%nat, Call 103); (0%nat, Ontop 2 104); (0%nat, Ret); (0%nat, Unwind 2);
   (0%nat, Jump 0 115); (0%nat, Free 2); (0%nat, Call 105)].

Example C48_hypotheses_met : exists s, regs_ok wregs /\ disciplined wlb (init (fun _ => 0) wregs) wrun /\
  run wlb (init (fun _ => 0) wregs) wrun = Next s /\ map fst (s_thr s) = [0%nat; 1%nat] /\
  map k_ret (s_ctx s) = [[105; 103]; [120]; [115; 7]] /\ map k_alive (s_ctx s) = [true; true; false].
Proof.
  eexists. split; [exact wregs_ok|]. split.
  - cbn [disciplined wrun]. vm_compute. repeat split; auto. intros y H. injection H as <-. reflexivity.
  - split; [vm_compute; reflexivity|]. vm_compute. auto.
Qed.

(** Without the rule: a function that is run on top of a context that was never entered cannot return. *)
Theorem C48_ontop_on_fresh_context_refuted : exists l,
  run wlb (init (fun _ => 0) wregs) l = Fault.
Proof. exists [(0%nat, Call 100); (0%nat, Create 0x300000 0x1000 101); (0%nat, Ontop 2 102); (0%nat, Ret)]. vm_compute. reflexivity. Qed.
Print Assumptions C48_ontop_on_fresh_context_refuted.

(** A context whose shadow stack is full of active calls cannot make another call. *)
Theorem C48_nesting_limit lb m regs l s t c ssp x ra :
  regs_ok regs -> disciplined lb (init m regs) l -> run lb (init m regs) l = Next s ->
  nth_error (s_thr s) t = Some (c, ssp) -> nth_error (s_ctx s) c = Some x ->
  step lb s t (Call ra) = Full <-> k_hi x - k_lo x < 8 * (Z.of_nat (length (k_ret x)) + 1).
Proof.
  intros R D RN T N. pose proof (run_inv lb l _ (inv_init lb m regs R) D) as H. rewrite RN in H.
  destruct (v_thr lb s H t c ssp T) as (x' & N' & A & _ & M & L). rewrite N in N'. injection N' as <-.
  pose proof (v_shape lb s H c x N A) as (X1 & X2 & X3). pose proof (mirror_len _ _ _ _ M) as LEN.
  assert (PM : ssp mod 8 = 0) by (replace ssp with (k_hi x - 8 * Z.of_nat (length (k_ret x))) by lia; apply mod8_sub; auto).
  unfold step. rewrite T, N. rewrite (call_own _ _ c x) by (auto; try lia; exact (v_gap lb s H)).
  destruct (k_lo x <=? ssp - 8) eqn:E; cbn [bind].
  - apply Z.leb_le in E. split; [discriminate|lia].
  - apply Z.leb_gt in E. split; [lia|reflexivity].
Qed.
Print Assumptions C48_nesting_limit.

(** "The shadow stack is never exhausted before the stack" is false: a fiber on a stack of 128 KiB gets a
    shadow stack of 4 KiB; 512 nested calls, which need 8 KiB of stack (16 bytes each), exhaust it. *)
Theorem C48_shadow_stack_too_small_refuted :
  shadow_size 64 0x20000 = 4096 /\ 512 * 16 < 0x20000 /\
  run wlb (init (fun _ => 0) wregs)
    ([(0%nat, Call 100); (0%nat, Create 0x300000 (shadow_size 64 0x20000) 101); (0%nat, Jump 2 102)]
      ++ repeat (0%nat, Call 110) 512) = Full.
Proof. vm_compute. auto. Qed.
Print Assumptions C48_shadow_stack_too_small_refuted.
