(** Proofs about Pool.v *)
From Coq Require Import List Arith Lia Bool ZArith.
From Verif Require Import ListUtil Pool.
Import ListNotations.

Definition holds (k : nat) (a : aobj) : nat := match a with APtr i => if Nat.eqb i k then 1 else 0 | _ => 0 end.
Definition rholds (k : nat) (r : frec) : nat := match r with FRec a _ => holds k a | FGone => 0 end.
(** number of allocator copies (objects and record members) pointing to pool k *)
Definition holders (k : nat) (s : pstate) : nat := sumf (holds k) (ps_obj s) + sumf (rholds k) (ps_rec s).

Record pinv (s : pstate) : Prop := mk_pinv {
  pi_use : forall k st, nth_error (ps_st s) k = Some st ->
             st_use st = holders k s /\ (st_deleted st = true <-> holders k s = 0);
  pi_ref : forall k, length (ps_st s) <= k -> holders k s = 0;
  (* every chunk of a record is an outstanding chunk of the pool its allocator points to *)
  pi_rec : forall r a c, nth_error (ps_rec s) r = Some (FRec a c) ->
             exists k st, a = APtr k /\ nth_error (ps_st s) k = Some st /\ In c (st_chunks st);
  pi_uniq : forall r r' a a' c, nth_error (ps_rec s) r = Some (FRec a c) ->
             nth_error (ps_rec s) r' = Some (FRec a' c) -> r = r';
  (* every outstanding chunk belongs to a live record with that pool *)
  pi_out : forall k st c, nth_error (ps_st s) k = Some st -> In c (st_chunks st) ->
             exists r, nth_error (ps_rec s) r = Some (FRec (APtr k) c);
  pi_nodup : forall k st, nth_error (ps_st s) k = Some st -> NoDup (st_chunks st)
}.

Lemma holds_self k : holds k (APtr k) = 1.
Proof. cbn. now rewrite Nat.eqb_refl. Qed.

Lemma holder_obj s i k : nth_error (ps_obj s) i = Some (APtr k) -> 1 <= holders k s.
Proof.
  intros H. unfold holders. pose proof (sumf_le (holds k) _ _ _ H). rewrite holds_self in *. lia.
Qed.

Lemma holder_rec s r k c : nth_error (ps_rec s) r = Some (FRec (APtr k) c) -> 1 <= holders k s.
Proof.
  intros H. unfold holders. pose proof (sumf_le (rholds k) _ _ _ H). cbn [rholds] in *.
  rewrite holds_self in *. lia.
Qed.

Lemma holder_st s k : pinv s -> 1 <= holders k s ->
  exists st, nth_error (ps_st s) k = Some st /\ st_deleted st = false /\ st_use st = holders k s.
Proof.
  intros I H. destruct (nth_error (ps_st s) k) as [st|] eqn:E.
  - destruct (pi_use s I k st E) as [Hu Hd]. exists st. repeat split; auto.
    destruct (st_deleted st); [|reflexivity]. destruct Hd as [Hd _]. specialize (Hd eq_refl). lia.
  - apply nth_error_None in E. pose proof (pi_ref s I k E). lia.
Qed.

(** [reuse s l o r]: the new state differs from s in objects/records; what has to be shown about the pools *)
Ltac inv_nth :=
  repeat match goal with
  | H : nth_error (upd _ _ _) _ = Some _ |- _ => rewrite nth_upd in H
  | H : (if Nat.eqb ?a ?b then _ else _) = Some _ |- _ => destruct (Nat.eqb_spec a b); subst
  | H : (if Nat.ltb ?a ?b then _ else _) = Some _ |- _ => destruct (Nat.ltb_spec a b); [|discriminate]
  | H : Some _ = Some _ |- _ => injection H as H; subst
  end.

Lemma sumf_holds_upd k l i x y :
  nth_error l i = Some y -> sumf (holds k) (upd l i x) + holds k y = sumf (holds k) l + holds k x.
Proof. apply sumf_upd. Qed.

Lemma pinv_ext s s' :
  pinv s ->
  length (ps_st s') = length (ps_st s) ->
  (forall k st', nth_error (ps_st s') k = Some st' ->
     exists st, nth_error (ps_st s) k = Some st /\ st_chunks st' = st_chunks st) ->
  ps_rec s' = ps_rec s ->
  (forall k st', nth_error (ps_st s') k = Some st' ->
     st_use st' = holders k s' /\ (st_deleted st' = true <-> holders k s' = 0)) ->
  (forall k, length (ps_st s) <= k -> holders k s' = 0) ->
  pinv s'.
Proof.
  intros I Hl Hst Hr Hu Hz.
  assert (Hlt : forall k st, nth_error (ps_st s) k = Some st ->
            exists st', nth_error (ps_st s') k = Some st' /\ st_chunks st' = st_chunks st).
  { intros k st Hk. destruct (nth_error (ps_st s') k) as [st'|] eqn:E.
    - exists st'. split; [reflexivity|]. destruct (Hst k st' E) as [st2 [E2 Hc]]. congruence.
    - apply nth_error_None in E. apply nth_some_lt in Hk. lia. }
  constructor; auto.
  - intros k Hk. apply Hz. lia.
  - intros r a c H. rewrite Hr in H. destruct (pi_rec s I r a c H) as [k [st [Ha [Hk Hc]]]].
    destruct (Hlt k st Hk) as [st' [Hk' Hcc]]. exists k, st'. rewrite Hcc. auto.
  - rewrite Hr. apply (pi_uniq s I).
  - intros k st c Hk Hc. destruct (Hst k st Hk) as [st0 [E0 Hcc]]. rewrite Hcc in Hc.
    rewrite Hr. eapply pi_out; eauto.
  - intros k st Hk. destruct (Hst k st Hk) as [st0 [E0 Hcc]]. rewrite Hcc. eapply pi_nodup; eauto.
Qed.

(** add_ref / release succeed whenever the holder really holds, and change only that pool *)
Lemma add_ref_ok s a :
  pinv s -> (forall k, a = APtr k -> 1 <= holders k s) ->
  exists l, add_ref (ps_st s) a = Some l /\ length l = length (ps_st s) /\
    forall k st', nth_error l k = Some st' ->
      exists st, nth_error (ps_st s) k = Some st /\ st_chunks st' = st_chunks st /\
                 st_use st' = st_use st + holds k a /\
                 (holds k a = 0 -> st_deleted st' = st_deleted st) /\
                 (holds k a = 1 -> st_deleted st' = false /\ st_deleted st = false).
Proof.
  intros I H. destruct a as [| |i]; cbn [add_ref].
  1,2: exists (ps_st s); split; [reflexivity|split; [reflexivity|]]; intros k st' Hk; exists st'; cbn; repeat split; auto; lia.
  destruct (holder_st s i I (H i eq_refl)) as [st [Hi [Hd Hu]]]. rewrite Hi, Hd.
  eexists; split; [reflexivity|split; [apply upd_length|]]. intros k st' Hk. cbn [holds].
  inv_nth.
  - rewrite ?Nat.eqb_refl. exists st. cbn. repeat split; auto; lia.
  - destruct (Nat.eqb_spec i k); [congruence|]. exists st'. repeat split; auto; lia.
Qed.

Lemma release_ok l a (u : nat -> nat) :
  (forall k st, nth_error l k = Some st -> st_use st = u k /\ (st_deleted st = true <-> u k = 0)) ->
  (forall k, a = APtr k -> 1 <= u k /\ k < length l) ->
  exists l', release l a = Some l' /\ length l' = length l /\
    forall k st', nth_error l' k = Some st' ->
      exists st, nth_error l k = Some st /\ st_chunks st' = st_chunks st /\
                 st_use st' + holds k a = u k /\ (st_deleted st' = true <-> st_use st' = 0).
Proof.
  intros I H. destruct a as [| |i]; cbn [release].
  1,2: exists l; split; [reflexivity|split; [reflexivity|]]; intros k st' Hk; exists st'; cbn;
       destruct (I k st' Hk) as [Hu Hd]; rewrite Hu; repeat split; auto; try lia; apply Hd.
  destruct (H i eq_refl) as [H1 Hlt].
  destruct (nth_error l i) as [st|] eqn:Hi; [|apply nth_error_None in Hi; lia].
  destruct (I i st Hi) as [Hu Hd].
  destruct (st_deleted st) eqn:Ed; [destruct Hd as [Hd _]; specialize (Hd eq_refl); lia|].
  destruct (st_use st) as [|n] eqn:En; [lia|].
  eexists; split; [reflexivity|split; [apply upd_length|]]. intros k st' Hk. cbn [holds].
  inv_nth.
  - rewrite ?Nat.eqb_refl. exists st. cbn. repeat split; auto; try lia.
    + intros E; apply Nat.eqb_eq in E; exact E.
    + intros E; apply Nat.eqb_eq; exact E.
  - destruct (Nat.eqb_spec i k); [congruence|]. exists st'. destruct (I k st' Hk) as [Hu' Hd'].
    rewrite Hu'. repeat split; auto; try lia; apply Hd'.
Qed.

Lemma ref_lt s a : pinv s -> (forall k, a = APtr k -> 1 <= holders k s) ->
  forall k, length (ps_st s) <= k -> holds k a = 0.
Proof.
  intros I H k Hk. destruct a as [| |i]; cbn; auto. destruct (Nat.eqb_spec i k); [subst|reflexivity].
  pose proof (H k eq_refl). pose proof (pi_ref s I k Hk). lia.
Qed.

Lemma pstep_inv s o :
  pinv s ->
  match pstep s o with
  | POk s' => pinv s'
  | PBadAlloc s' => s' = s
  | PUB => exists i mv ans, o = PCreateFiber i mv ans /\ nth_error (ps_obj s) i = Some ANull
  | PTerminate | PAssert | PInvalid => True
  end.
Proof.
  intros I. destruct o as [|i|i|i j|i j|i|i mv ans|r]; cbn [pstep].
  - (* PNew *)
    destruct mem; cbn [negb]; [|exact Logic.I].
    destruct (match max with None => false | Some m => negb (size <=? m)%Z end); [exact Logic.I|].
    cbn [add_ref]. rewrite nth_app_last. cbn [st_deleted lift].
    set (n := length (ps_st s)).
    assert (Hn0 : holders n s = 0) by (apply (pi_ref s I); lia).
    assert (Hh : forall k, holders k (mk_ps (upd (ps_st s ++ [mk_st 0 false []]) n (mk_st 1 false []))
                   (ps_obj s ++ [APtr n]) (ps_rec s)) = holders k s + holds k (APtr n)).
    { intros k. unfold holders; cbn [ps_obj ps_rec]. rewrite sumf_app. cbn [sumf]. lia. }
    assert (Hnth : forall k st, nth_error (upd (ps_st s ++ [mk_st 0 false []]) n (mk_st 1 false [])) k = Some st ->
        (k = n /\ st = mk_st 1 false []) \/ (k < n /\ nth_error (ps_st s) k = Some st)).
    { intros k st Hk. rewrite nth_upd in Hk. destruct (Nat.eqb_spec n k).
      - destruct (Nat.ltb_spec n (length (ps_st s ++ [mk_st 0 false []]))); [|discriminate].
        injection Hk as <-. auto.
      - right. destruct (nth_app_cases _ _ _ _ Hk) as [[? ?]|[? ?]]; [auto|subst; unfold n in *; lia]. }
    cbn [st_use st_chunks].
    constructor; cbn [ps_st ps_rec].
    + intros k st Hk. rewrite Hh. destruct (Hnth k st Hk) as [[-> ->]|[Hlt Hk']].
      * rewrite Hn0, holds_self. cbn. split; [reflexivity|split; intros; discriminate].
      * cbn [holds]. destruct (Nat.eqb_spec n k); [lia|]. rewrite Nat.add_0_r. apply (pi_use s I); auto.
    + intros k Hk. rewrite upd_length, app_length in Hk; cbn in Hk. rewrite Hh. cbn [holds].
      destruct (Nat.eqb_spec n k); [unfold n in *; lia|]. rewrite (pi_ref s I k); lia.
    + intros r a c H. destruct (pi_rec s I r a c H) as [k [st [Ha [Hk Hc]]]]. exists k, st.
      repeat split; auto. rewrite nth_upd_ne; [|apply nth_some_lt in Hk; unfold n; lia].
      rewrite nth_error_app1; [auto|]. apply nth_some_lt in Hk; auto.
    + apply (pi_uniq s I).
    + intros k st c Hk Hc. destruct (Hnth k st Hk) as [[-> ->]|[Hlt Hk']]; [destruct Hc|].
      eapply pi_out; eauto.
    + intros k st Hk. destruct (Hnth k st Hk) as [[-> ->]|[Hlt Hk']]; [constructor|].
      eapply pi_nodup; eauto.
  - (* PCopy *)
    destruct (nth_error (ps_obj s) i) as [a|] eqn:Ei; [|exact Logic.I].
    destruct (alive a); [|exact Logic.I].
    assert (Ha : forall k, a = APtr k -> 1 <= holders k s) by (intros k ->; eapply holder_obj; eauto).
    destruct (add_ref_ok s a I Ha) as [l [-> [Hl Hspec]]]. cbn [lift].
    apply (pinv_ext s); cbn [ps_st ps_rec]; auto.
    + intros k st' Hk. destruct (Hspec k st' Hk) as [st [? [? _]]]. eauto.
    + intros k st' Hk. destruct (Hspec k st' Hk) as [st [H1 [H2 [H3 [H4 H5]]]]].
      destruct (pi_use s I k st H1) as [Hu Hd].
      assert (Hh : holders k (mk_ps l (ps_obj s ++ [a]) (ps_rec s)) = holders k s + holds k a).
      { unfold holders; cbn [ps_obj ps_rec]. rewrite sumf_app; cbn [sumf]. lia. }
      rewrite Hh. split; [lia|].
      destruct (holds k a) as [|[|?]] eqn:E.
      * rewrite (H4 eq_refl), Nat.add_0_r. exact Hd.
      * destruct (H5 eq_refl) as [-> _]. split; [discriminate|lia].
      * destruct a; cbn in E; try discriminate. destruct (s0 =? k); discriminate.
    + intros k Hk. unfold holders; cbn [ps_obj ps_rec]. rewrite sumf_app; cbn [sumf].
      rewrite (ref_lt s a I Ha k Hk). pose proof (pi_ref s I k Hk). unfold holders in *. lia.
  - (* PMove *)
    destruct (nth_error (ps_obj s) i) as [a|] eqn:Ei; [|exact Logic.I].
    destruct (alive a); [|exact Logic.I].
    assert (Hh : forall k, holders k (mk_ps (ps_st s) (upd (ps_obj s) i ANull ++ [a]) (ps_rec s)) = holders k s).
    { intros k. unfold holders; cbn [ps_obj ps_rec]. rewrite sumf_app; cbn [sumf].
      pose proof (sumf_upd (holds k) _ i ANull a Ei). cbn [holds] in *. lia. }
    apply (pinv_ext s); cbn [ps_st ps_rec]; eauto.
    + intros k st' Hk. rewrite Hh. apply (pi_use s I); auto.
    + intros k Hk. rewrite Hh. apply (pi_ref s I); auto.
  - (* PCopyAssign *)
    destruct (nth_error (ps_obj s) i) as [a|] eqn:Ei; [|exact Logic.I].
    destruct (nth_error (ps_obj s) j) as [c|] eqn:Ej; [|exact Logic.I].
    destruct (alive a && alive c); [|exact Logic.I].
    assert (Ha : forall k, a = APtr k -> 1 <= holders k s) by (intros k ->; eapply holder_obj; eauto).
    assert (Hc : forall k, c = APtr k -> 1 <= holders k s) by (intros k ->; eapply holder_obj; eauto).
    destruct (add_ref_ok s c I Hc) as [l [-> [Hl Hspec]]]. cbn [lift].
    destruct (release_ok l a (fun k => holders k s + holds k c)) as [l' [-> [Hl' Hspec']]].
    { intros k st Hk. destruct (Hspec k st Hk) as [st0 [H1 [H2 [H3 [H4 H5]]]]].
      destruct (pi_use s I k st0 H1) as [Hu Hd]. split; [lia|].
      destruct (holds k c) as [|[|?]] eqn:E.
      - rewrite (H4 eq_refl), Nat.add_0_r. exact Hd.
      - destruct (H5 eq_refl) as [-> _]. split; [discriminate|lia].
      - destruct c; cbn in E; try discriminate. destruct (s0 =? k); discriminate. }
    { intros k ->. specialize (Ha k eq_refl). split; [lia|]. rewrite Hl.
      destruct (Nat.lt_ge_cases k (length (ps_st s))) as [?|Hge]; [assumption|].
      pose proof (pi_ref s I k Hge). lia. }
    cbn [lift].
    assert (Hh : forall k, holders k (mk_ps l' (upd (ps_obj s) i c) (ps_rec s)) + holds k a = holders k s + holds k c).
    { intros k. unfold holders; cbn [ps_obj ps_rec]. pose proof (sumf_upd (holds k) _ i c a Ei). lia. }
    apply (pinv_ext s); cbn [ps_st ps_rec]; try congruence.
    + intros k st' Hk. destruct (Hspec' k st' Hk) as [st1 [E1 [C1 _]]].
      destruct (Hspec k st1 E1) as [st0 [E0 [C0 _]]]. exists st0. split; congruence.
    + intros k st' Hk. destruct (Hspec' k st' Hk) as [st1 [E1 [C1 [U1 D1]]]].
      specialize (Hh k). assert (st_use st' = holders k (mk_ps l' (upd (ps_obj s) i c) (ps_rec s))) by lia.
      split; [assumption|]. rewrite <- H. exact D1.
    + intros k Hk. specialize (Hh k). rewrite (ref_lt s c I Hc k Hk), (pi_ref s I k Hk) in Hh. lia.
  - (* PMoveAssign *)
    destruct (nth_error (ps_obj s) i) as [a|] eqn:Ei; [|exact Logic.I].
    destruct (nth_error (ps_obj s) j) as [c|] eqn:Ej; [|exact Logic.I].
    destruct (alive a && alive c); [|exact Logic.I].
    destruct (Nat.eqb_spec i j) as [->|Hij]; [exact I|].
    assert (Ha : forall k, a = APtr k -> 1 <= holders k s) by (intros k ->; eapply holder_obj; eauto).
    destruct (release_ok (ps_st s) a (fun k => holders k s)) as [l' [-> [Hl' Hspec']]].
    { apply (pi_use s I). }
    { intros k ->. specialize (Ha k eq_refl). split; [lia|].
      destruct (Nat.lt_ge_cases k (length (ps_st s))) as [?|Hge]; [assumption|].
      pose proof (pi_ref s I k Hge). lia. }
    cbn [lift].
    assert (Hh : forall k, holders k (mk_ps l' (upd (upd (ps_obj s) j ANull) i c) (ps_rec s)) + holds k a = holders k s).
    { intros k. unfold holders; cbn [ps_obj ps_rec].
      assert (Ei' : nth_error (upd (ps_obj s) j ANull) i = Some a) by (rewrite nth_upd_ne; auto).
      pose proof (sumf_upd (holds k) _ i c a Ei'). pose proof (sumf_upd (holds k) _ j ANull c Ej).
      cbn [holds] in *. lia. }
    apply (pinv_ext s); cbn [ps_st ps_rec]; try congruence.
    + intros k st' Hk. destruct (Hspec' k st' Hk) as [st1 [E1 [C1 _]]]. eauto.
    + intros k st' Hk. destruct (Hspec' k st' Hk) as [st1 [E1 [C1 [U1 D1]]]].
      specialize (Hh k).
      assert (E : st_use st' = holders k (mk_ps l' (upd (upd (ps_obj s) j ANull) i c) (ps_rec s))) by lia.
      split; [assumption|]. rewrite <- E. exact D1.
    + intros k Hk. specialize (Hh k). rewrite (pi_ref s I k Hk) in Hh. lia.
  - (* PDestroy *)
    destruct (nth_error (ps_obj s) i) as [a|] eqn:Ei; [|exact Logic.I].
    destruct (alive a); [|exact Logic.I].
    assert (Ha : forall k, a = APtr k -> 1 <= holders k s) by (intros k ->; eapply holder_obj; eauto).
    destruct (release_ok (ps_st s) a (fun k => holders k s)) as [l' [-> [Hl' Hspec']]].
    { apply (pi_use s I). }
    { intros k ->. specialize (Ha k eq_refl). split; [lia|].
      destruct (Nat.lt_ge_cases k (length (ps_st s))) as [?|Hge]; [assumption|].
      pose proof (pi_ref s I k Hge). lia. }
    cbn [lift].
    assert (Hh : forall k, holders k (mk_ps l' (upd (ps_obj s) i ADead) (ps_rec s)) + holds k a = holders k s).
    { intros k. unfold holders; cbn [ps_obj ps_rec].
      pose proof (sumf_upd (holds k) _ i ADead a Ei). cbn [holds] in *. lia. }
    apply (pinv_ext s); cbn [ps_st ps_rec]; try congruence.
    + intros k st' Hk. destruct (Hspec' k st' Hk) as [st1 [E1 [C1 _]]]. eauto.
    + intros k st' Hk. destruct (Hspec' k st' Hk) as [st1 [E1 [C1 [U1 D1]]]].
      specialize (Hh k).
      assert (E : st_use st' = holders k (mk_ps l' (upd (ps_obj s) i ADead) (ps_rec s))) by lia.
      split; [assumption|]. rewrite <- E. exact D1.
    + intros k Hk. specialize (Hh k). rewrite (pi_ref s I k Hk) in Hh. lia.
  - (* PCreateFiber *)
    destruct (nth_error (ps_obj s) i) as [[| |k0]|] eqn:Ei; try exact Logic.I.
    { exists i, mv, ans. auto. }
    destruct ans as [chunk|]; [|reflexivity].
    destruct (existsb _ (ps_st s)) eqn:Ex; [exact Logic.I|].
    assert (Hfresh : forall k st, nth_error (ps_st s) k = Some st -> ~ In chunk (st_chunks st)).
    { intros k st Hk Hin. assert (Ht : existsb (fun st => existsb (Z.eqb chunk) (st_chunks st)) (ps_st s) = true).
      { apply existsb_exists. exists st. split; [eapply nth_error_In; eauto|].
        apply existsb_exists. exists chunk. split; [exact Hin|apply Z.eqb_refl]. }
      congruence. }
    pose proof (holder_obj s i k0 Ei) as Hk0.
    destruct (holder_st s k0 I Hk0) as [st [Hst [Hd Hu]]].
    cbn [pool_malloc]. rewrite Hst, Hd. cbn [lift].
    assert (Hfin : forall u0 objs,
       (forall k, u0 = holders k0 (mk_ps (upd (ps_st s) k0 (mk_st u0 false (chunk :: st_chunks st))) objs
                                          (ps_rec s ++ [FRec (APtr k0) chunk])) /\
          (k <> k0 -> holders k (mk_ps (upd (ps_st s) k0 (mk_st u0 false (chunk :: st_chunks st))) objs
                                          (ps_rec s ++ [FRec (APtr k0) chunk])) = holders k s)) ->
       0 < u0 ->
       pinv (mk_ps (upd (ps_st s) k0 (mk_st u0 false (chunk :: st_chunks st))) objs
                   (ps_rec s ++ [FRec (APtr k0) chunk]))).
    { intros u0 objs Hcount Hpos.
      set (s' := mk_ps _ objs _) in *.
      assert (Hnth : forall k st', nth_error (ps_st s') k = Some st' ->
          (k = k0 /\ st' = mk_st u0 false (chunk :: st_chunks st)) \/ (k <> k0 /\ nth_error (ps_st s) k = Some st')).
      { intros k st' Hk. cbn [ps_st s'] in Hk. rewrite nth_upd in Hk. destruct (Nat.eqb_spec k0 k).
        - destruct (Nat.ltb_spec k0 (length (ps_st s))); [|discriminate]. injection Hk as <-. auto.
        - right; auto. }
      constructor.
      - intros k st' Hk. destruct (Hnth k st' Hk) as [[-> ->]|[Hne Hk']]; cbn [st_use st_deleted].
        + destruct (Hcount k0) as [Hc _]. split; [exact Hc|]. split; [discriminate|]. lia.
        + destruct (Hcount k) as [_ Hc]. rewrite (Hc Hne). apply (pi_use s I); auto.
      - intros k Hk. cbn [ps_st s'] in Hk. rewrite upd_length in Hk.
        destruct (Nat.eq_dec k k0) as [->|Hne].
        + apply nth_some_lt in Hst. lia.
        + destruct (Hcount k) as [_ Hc]. rewrite (Hc Hne). apply (pi_ref s I); auto.
      - intros r a c H. cbn [ps_rec s'] in H. destruct (nth_app_cases _ _ _ _ H) as [[? H']|[_ H']].
        + destruct (pi_rec s I r a c H') as [k [st1 [Ha [Hk Hc]]]]. exists k.
          destruct (Nat.eq_dec k k0) as [->|Hne].
          * exists (mk_st u0 false (chunk :: st_chunks st)). repeat split; auto.
            { cbn [ps_st s']. eapply nth_upd_eq; eauto. }
            { cbn. right. congruence. }
          * exists st1. repeat split; auto. cbn [ps_st s']. rewrite nth_upd_ne; auto.
        + injection H' as -> ->. exists k0, (mk_st u0 false (chunk :: st_chunks st)).
          repeat split; cbn; auto. eapply nth_upd_eq; eauto.
      - intros r r' a a' c H H'. cbn [ps_rec s'] in *.
        destruct (nth_app_cases _ _ _ _ H) as [[? E]|[-> E]];
          destruct (nth_app_cases _ _ _ _ H') as [[? E']|[-> E']]; auto.
        + eapply pi_uniq; eauto.
        + injection E' as -> ->. destruct (pi_rec s I r a chunk E) as [k [st1 [Ha [Hk Hc]]]].
          exfalso. eapply Hfresh; eauto.
        + injection E as -> ->. destruct (pi_rec s I r' a' chunk E') as [k [st1 [Ha [Hk Hc]]]].
          exfalso. eapply Hfresh; eauto.
      - intros k st' c Hk Hc. cbn [ps_rec s'].
        assert (Hold : forall st1, nth_error (ps_st s) k = Some st1 -> In c (st_chunks st1) ->
                 exists r, nth_error (ps_rec s ++ [FRec (APtr k0) chunk]) r = Some (FRec (APtr k) c)).
        { intros st1 H1 H2. destruct (pi_out s I k st1 c H1 H2) as [r Hr]. exists r.
          rewrite nth_error_app1; auto. eapply nth_some_lt; eauto. }
        destruct (Hnth k st' Hk) as [[-> ->]|[Hne Hk']].
        + cbn in Hc. destruct Hc as [<-|Hc]; [exists (length (ps_rec s)); apply nth_app_last|].
          eapply Hold; eauto.
        + eapply Hold; eauto.
      - intros k st' Hk. destruct (Hnth k st' Hk) as [[-> ->]|[Hne Hk']]; cbn.
        + constructor; [eapply Hfresh; eauto|eapply pi_nodup; eauto].
        + eapply pi_nodup; eauto. }
    destruct mv.
    + apply Hfin; [|lia]. intros k. unfold holders; cbn [ps_obj ps_rec].
      rewrite !sumf_app; cbn [sumf rholds].
      pose proof (sumf_upd (holds k0) _ i ANull (APtr k0) Ei) as E1.
      pose proof (sumf_upd (holds k) _ i ANull (APtr k0) Ei) as E2.
      rewrite holds_self in *. cbn [holds] in E1, E2.
      rewrite Hu. unfold holders. split; [lia|]. intros Hne. cbn [holds].
      destruct (Nat.eqb_spec k0 k); lia.
    + cbn [add_ref]. rewrite (nth_upd_eq _ _ _ _ Hst). cbn [st_deleted lift st_use st_chunks].
      assert (Huu : forall (x y : storage), upd (upd (ps_st s) k0 x) k0 y = upd (ps_st s) k0 y).
      { intros x y. clear. revert k0; induction (ps_st s) as [|z l IH]; intros [|k]; cbn; auto. now rewrite IH. }
      rewrite Huu. apply Hfin; [|lia]. intros k. unfold holders; cbn [ps_obj ps_rec].
      rewrite !sumf_app; cbn [sumf rholds]. rewrite Hu, holds_self. unfold holders. split; [lia|].
      intros Hne. cbn [holds]. destruct (Nat.eqb_spec k0 k); lia.
  - (* PEndFiber *)
    destruct (nth_error (ps_rec s) r) as [[|a chunk]|] eqn:Er; try exact Logic.I.
    cbn [release lift].
    destruct (pi_rec s I r a chunk Er) as [k0 [st [-> [Hst Hin]]]].
    pose proof (holder_rec s r k0 chunk Er) as Hk0.
    destruct (holder_st s k0 I Hk0) as [st' [Hst' [Hd Hu]]].
    assert (st' = st) by congruence. subst st'.
    cbn [pool_free]. rewrite Hst, Hd. destruct (in_dec Z.eq_dec chunk (st_chunks st)); [|contradiction].
    cbn [lift release]. rewrite (nth_upd_eq _ _ _ _ Hst). cbn [st_deleted st_use st_chunks].
    destruct (st_use st) as [|n] eqn:En; [lia|]. cbn [lift].
    assert (Huu : forall (x y : storage), upd (upd (ps_st s) k0 x) k0 y = upd (ps_st s) k0 y).
    { intros x y. clear. revert k0; induction (ps_st s) as [|z l IH]; intros [|k]; cbn; auto. now rewrite IH. }
    rewrite Huu.
    set (s' := mk_ps _ (ps_obj s) _).
    assert (Hh : forall k, holders k s' + holds k (APtr k0) = holders k s).
    { intros k. unfold holders, s'; cbn [ps_obj ps_rec].
      pose proof (sumf_upd (rholds k) _ r FGone _ Er) as E. cbn [rholds] in E. lia. }
    assert (Hnth : forall k st', nth_error (ps_st s') k = Some st' ->
        (k = k0 /\ st' = mk_st n (n =? 0) (remove Z.eq_dec chunk (st_chunks st)))
        \/ (k <> k0 /\ nth_error (ps_st s) k = Some st')).
    { intros k st' Hk. cbn [ps_st s'] in Hk. rewrite nth_upd in Hk. destruct (Nat.eqb_spec k0 k).
      - destruct (Nat.ltb_spec k0 (length (ps_st s))); [|discriminate]. injection Hk as <-. auto.
      - right; auto. }
    assert (Hrec : forall r' a c, nth_error (ps_rec s') r' = Some (FRec a c) ->
         r' <> r /\ nth_error (ps_rec s) r' = Some (FRec a c)).
    { intros r' a c H. cbn [ps_rec s'] in H. rewrite nth_upd in H. destruct (Nat.eqb_spec r r').
      - destruct (Nat.ltb r (length (ps_rec s))); discriminate.
      - auto. }
    constructor.
    + intros k st' Hk. specialize (Hh k). destruct (Hnth k st' Hk) as [[-> ->]|[Hne Hk']]; cbn [st_use st_deleted].
      * rewrite holds_self in Hh. assert (n = holders k0 s') by lia. split; [assumption|].
        rewrite <- H. split; apply Nat.eqb_eq.
      * cbn [holds] in Hh. destruct (Nat.eqb_spec k0 k); [congruence|].
        replace (holders k s') with (holders k s) by lia. apply (pi_use s I); auto.
    + intros k Hk. cbn [ps_st s'] in Hk. rewrite upd_length in Hk. specialize (Hh k).
      rewrite (pi_ref s I k Hk) in Hh. lia.
    + intros r' a c H. destruct (Hrec r' a c H) as [Hne H'].
      destruct (pi_rec s I r' a c H') as [k [st1 [Ha [Hk Hc]]]]. exists k.
      destruct (Nat.eq_dec k k0) as [->|Hk0'].
      * exists (mk_st n (n =? 0) (remove Z.eq_dec chunk (st_chunks st))). repeat split; auto.
        { cbn [ps_st s']. eapply nth_upd_eq; eauto. }
        { cbn. assert (st1 = st) by congruence. subst st1. apply in_in_remove; [|exact Hc].
          intros ->. apply Hne. eapply (pi_uniq s I); eauto. }
      * exists st1. repeat split; auto. cbn [ps_st s']. rewrite nth_upd_ne; auto.
    + intros r1 r2 a a' c H H'. destruct (Hrec _ _ _ H), (Hrec _ _ _ H'). eapply (pi_uniq s I); eauto.
    + intros k st' c Hk Hc. destruct (Hnth k st' Hk) as [[-> ->]|[Hne Hk']].
      * cbn in Hc. apply in_remove in Hc. destruct Hc as [Hc Hne].
        destruct (pi_out s I k0 st c Hst Hc) as [r' Hr']. exists r'. cbn [ps_rec s'].
        rewrite nth_upd_ne; auto. intros <-. congruence.
      * destruct (pi_out s I k st' c Hk' Hc) as [r' Hr']. exists r'. cbn [ps_rec s'].
        rewrite nth_upd_ne; auto. intros <-. congruence.
    + intros k st' Hk. destruct (Hnth k st' Hk) as [[-> ->]|[Hne Hk']]; cbn.
      * clear - I Hst. pose proof (pi_nodup s I k0 st Hst) as Hn. revert Hn.
        induction (st_chunks st) as [|z l IH]; cbn; intros Hn; [constructor|].
        inversion Hn; subst. destruct (Z.eq_dec chunk z); [auto|]. constructor; auto.
        intros Hin. apply in_remove in Hin. tauto.
      * eapply pi_nodup; eauto.
Qed.

Lemma pinv0 : pinv ps0.
Proof.
  constructor; cbn; intros; try reflexivity; try (destruct k; discriminate); try (destruct r; discriminate).
Qed.

Lemma prun_inv l : forall s, pinv s ->
  match prun s l with
  | POk s' => pinv s'
  | PBadAlloc _ => False
  | PUB => exists i mv ans, In (PCreateFiber i mv ans) l
  | PTerminate | PAssert | PInvalid => True
  end.
Proof.
  induction l as [|o l IH]; intros s Hs; cbn [prun]; [exact Hs|].
  pose proof (pstep_inv s o Hs) as H. destruct (pstep s o) as [s'|s'| | | |].
  - specialize (IH s' H). destruct (prun s' l); auto.
    destruct IH as [i [mv [ans Hin]]]. exists i, mv, ans. now right.
  - subst s'. specialize (IH s Hs). destruct (prun s l); auto.
    destruct IH as [i [mv [ans Hin]]]. exists i, mv, ans. now right.
  - exact Logic.I.
  - exact Logic.I.
  - destruct H as [i [mv [ans [-> _]]]]. exists i, mv, ans. now left.
  - exact Logic.I.
Qed.
