(** Invariants that relate the history to the state: suspensions, threads, suspended calls. *)
From Coq Require Import List Arith Bool Lia.
From Verif Require Import ListUtil Fiber FiberInv FiberInv2 FiberInv3 Micro MicroInv FiberSpec.
Import ListNotations.

(* ------------------------------------------------------------------ histories *)

Lemma always_nil P : always P [].
Proof. intros new e old H. destruct new; discriminate. Qed.
Lemma always_cons P e tr : always P (e :: tr) <-> P e tr /\ always P tr.
Proof.
  split.
  - intros H. split; [apply (H [] e tr); reflexivity|]. intros new x old E. apply (H (e :: new) x old). cbn. now f_equal.
  - intros [H1 H2] new x old E. destruct new as [|y new]; cbn in E; injection E as -> E; [subst; auto|]. eapply H2; eauto.
Qed.
Lemma always_app P es tr : always P (es ++ tr) -> always P tr.
Proof. induction es as [|e es IH]; cbn; auto. intros H. apply always_cons in H. tauto. Qed.
Lemma always_irr (P : event -> list event -> Prop) es tr : (forall e old, In e es -> P e old) -> always P tr -> always P (es ++ tr).
Proof.
  intros H Ha. induction es as [|e es IH]; cbn; auto. apply always_cons. split; [apply H; left; auto|].
  apply IH. intros; apply H; right; auto.
Qed.
Lemma always_impl (P Q : event -> list event -> Prop) tr : (forall e old, P e old -> Q e old) -> always P tr -> always Q tr.
Proof. intros H Ha new e old E. eauto. Qed.
Lemma always_and (P Q : event -> list event -> Prop) tr : always P tr -> always Q tr -> always (fun e old => P e old /\ Q e old) tr.
Proof. intros H1 H2 new e old E. eauto. Qed.

Definition no_switch (es : list event) : Prop := forallb (fun e => negb (is_switch e)) es = true.

Lemma no_switch_in es t a b c d : no_switch es -> In (EvSwitch t a b c d) es -> False.
Proof. unfold no_switch. rewrite forallb_forall. intros H Hi. apply H in Hi. discriminate. Qed.

Lemma dl_no_switch c r fs fs' es : dl c r fs fs' es -> no_switch es.
Proof. destruct 1; reflexivity. Qed.
Lemma lrule_no_switch c tr fs fs' es : lrule c tr fs fs' es -> no_switch es.
Proof.
  destruct 1; try reflexivity. destruct HD; reflexivity.
Qed.
Lemma map_no_switch p l r : no_switch r -> no_switch (map (EvCtor p) l ++ r).
Proof. intros H. induction l; cbn; auto. Qed.

(* ------------------------------------------------------------------ versions *)

Definition is_susp (st : status) : bool := match st with SSusp => true | _ => false end.
Definition vs (s : state) (c : nat) : option (nat * bool) :=
  match nth_error (s_ctxs s) c with Some cx => Some (cx_ver cx, is_susp (cx_status cx)) | None => None end.
Definition is_exit (k : swk) : bool := match k with SwExit => true | _ => false end.

Lemma vs_some s c cx : nth_error (s_ctxs s) c = Some cx -> vs s c = Some (cx_ver cx, is_susp (cx_status cx)).
Proof. unfold vs. intros ->. reflexivity. Qed.

Definition sw_view (t : nat) (s s' : state) (es1 es2 : list event) (c : nat) (h : fctx) (k : swk) (v : nat) : Prop :=
  s_tr s' = es1 ++ EvSwitch t c (mk_fc c (S v)) h k :: es2 ++ s_tr s /\ no_switch es1 /\ no_switch es2 /\
  vs s c = Some (v, false) /\
  (k <> SwCreate -> vs s (fc_ctx h) = Some (fc_ver h, true)) /\
  (k = SwCreate -> vs s (fc_ctx h) = None /\ fc_ver h = 0) /\
  c <> fc_ctx h /\
  (forall c', vs s' c' = if Nat.eqb c' (fc_ctx h) then Some (fc_ver h, false)
                         else if Nat.eqb c' c then Some (S v, negb (is_exit k)) else vs s c').

Lemma mstep_vs t s s' : mstep t s s' ->
  (exists es, s_tr s' = es ++ s_tr s /\ no_switch es /\ forall c, vs s' c = vs s c) \/
  (exists es1 es2 c h k v, sw_view t s s' es1 es2 c h k v).
Proof.
  assert (G : forall s s' c cx h tx st' fs1 fs2, nth_error (s_ctxs s) c = Some cx -> nth_error (s_ctxs s) (fc_ctx h) = Some tx ->
     cx_status cx = SRun t -> cx_status tx = SSusp -> cx_ver tx = fc_ver h ->
     s_ctxs s' = upd (upd (s_ctxs s) c (mk_cx fs1 st' (S (cx_ver cx)) (cx_alloc cx) (cx_caps cx)))
                    (fc_ctx h) (mk_cx fs2 (SRun t) (cx_ver tx) (cx_alloc tx) (cx_caps tx)) ->
     vs s c = Some (cx_ver cx, false) /\ vs s (fc_ctx h) = Some (fc_ver h, true) /\ c <> fc_ctx h /\
     (forall c', vs s' c' = if Nat.eqb c' (fc_ctx h) then Some (fc_ver h, false)
                         else if Nat.eqb c' c then Some (S (cx_ver cx), is_susp st') else vs s c')).
  { clear s s'. intros s s' c cx h tx st' fs1 fs2 Hc Htx Ht Hts Htv E.
    assert (Hne : c <> fc_ctx h) by (intros ->; congruence).
    rewrite (vs_some _ _ _ Hc), (vs_some _ _ _ Htx), Ht, Hts, Htv. repeat split; auto.
    intros c'. unfold vs at 1. rewrite E. destruct (Nat.eqb_spec c' (fc_ctx h)) as [->|N1].
    - rewrite (nth_upd2_to _ _ _ _ _ _ Htx). cbn. now rewrite Htv.
    - rewrite nth_upd_ne by auto. destruct (Nat.eqb_spec c' c) as [->|N2].
      + rewrite nth_upd_lt by (eapply nth_some_lt; eauto). reflexivity.
      + rewrite nth_upd_ne by auto. reflexivity. }
  destruct 1.
  - left. exists es. split; [exact Etr|]. split; [eapply lrule_no_switch; eauto|].
    intros c'. unfold vs. rewrite Ectx. destruct (Nat.eq_dec c' c) as [->|N].
    + rewrite nth_upd_lt by (eapply nth_some_lt; eauto). rewrite Hc. reflexivity.
    + rewrite nth_upd_ne by auto. reflexivity.
  - right. exists es, [], c, h, SwJump, (cx_ver cx). destruct (G s s' c cx h tx SSusp fsw fs') as [G1 [G2 [G3 G4]]]; auto.
    repeat split; auto; try congruence. eapply dl_no_switch; eauto.
  - right. exists es, [], c, h, (SwOntop g), (cx_ver cx). edestruct (G s s' c cx h tx SSusp) as [G1 [G2 [G3 G4]]]; eauto.
    repeat split; auto; try congruence.
  - right. exists [ev], [], c, h, SwUnwind, (cx_ver cx). edestruct (G s s' c cx h tx SSusp) as [G1 [G2 [G3 G4]]]; eauto.
    repeat split; auto; try congruence. destruct HR; reflexivity.
  - left. exists [EvDone c r]. split; [exact Etr|]. split; [reflexivity|].
    intros c'. unfold vs. rewrite Ectx. destruct (Nat.eq_dec c' c) as [->|N].
    + rewrite nth_upd_lt by (eapply nth_some_lt; eauto). rewrite Hc. reflexivity.
    + rewrite nth_upd_ne by auto. reflexivity.
  - right. exists [], [], c, h, SwExit, (cx_ver cx). edestruct (G s s' c cx h tx SDying) as [G1 [G2 [G3 G4]]]; eauto.
    repeat split; auto; try congruence.
  - right. exists [], es, c, (mk_fc d 0), SwCreate, (cx_ver cx).
    assert (Hl : c < d) by (eapply nth_some_lt; eauto).
    assert (Hn : nth_error (s_ctxs s) d = None) by (apply nth_error_None; unfold d; lia).
    repeat split; auto; try congruence.
    + apply map_no_switch. reflexivity.
    + rewrite (vs_some _ _ _ Hc), Ht. reflexivity.
    + unfold vs. cbn [fc_ctx]. now rewrite Hn.
    + cbn. lia.
    + intros c'. unfold vs at 1. rewrite Ectx. cbn [fc_ctx fc_ver]. destruct (Nat.eqb_spec c' d) as [->|N].
      * replace d with (length (upd (s_ctxs s) c (mk_cx (FCreate :: FU f :: rest) SSusp (S (cx_ver cx)) (cx_alloc cx) (cx_caps cx)))) by (rewrite upd_length; reflexivity).
        rewrite nth_app_last. reflexivity.
      * destruct (Nat.lt_ge_cases c' d) as [L|L].
        -- rewrite nth_error_app1 by (rewrite upd_length; exact L). destruct (Nat.eqb_spec c' c) as [->|N2].
           ++ rewrite nth_upd_lt by (eapply nth_some_lt; eauto). reflexivity.
           ++ rewrite nth_upd_ne by auto. reflexivity.
        -- destruct (Nat.eqb_spec c' c); [lia|]. unfold vs.
           replace (nth_error (s_ctxs s) c') with (@None ctx) by (symmetry; apply nth_error_None; fold d; lia).
           replace (nth_error (upd _ _ _ ++ _) c') with (@None ctx); [reflexivity|].
           symmetry. apply nth_error_None. rewrite app_length, upd_length. cbn. fold d. lia.
  - left. exists [EvDtor (OnCtx d) o]. split; [exact Etr|]. split; [reflexivity|].
    intros c'. unfold vs. rewrite Ectx. destruct (Nat.eq_dec c' d) as [->|N].
    + rewrite nth_upd_lt by (eapply nth_some_lt; eauto). rewrite Hdx. reflexivity.
    + rewrite nth_upd_ne by auto. reflexivity.
  - left. exists (es ++ [EvFree d a c; EvRecord d]). split; [rewrite <- app_assoc; exact Etr|].
    split; [unfold no_switch; rewrite forallb_app; apply dl_no_switch in HD; unfold no_switch in HD; rewrite HD; reflexivity|].
    assert (Hne : d <> c) by (intros ->; congruence).
    intros c'. unfold vs. rewrite Ectx. destruct (Nat.eq_dec c' c) as [->|N].
    + rewrite (nth_upd2_to _ _ _ _ _ _ Hc), Hc. reflexivity.
    + rewrite nth_upd_ne by auto. destruct (Nat.eq_dec c' d) as [->|N2].
      * rewrite nth_upd_lt by (eapply nth_some_lt; eauto). rewrite Hdx, Hds. reflexivity.
      * rewrite nth_upd_ne by auto. reflexivity.
Qed.

(** suspensions in the history and in the state *)
Record VInv (s : state) : Prop := mk_vinv {
  v_created : forall h, created (s_tr s) h -> exists v b, vs s (fc_ctx h) = Some (v, b) /\ 1 <= fc_ver h <= v;
  v_consumed : forall h, consumed (s_tr s) h ->
     exists v b, vs s (fc_ctx h) = Some (v, b) /\ (fc_ver h < v \/ (fc_ver h = v /\ b = false));
  v_susp : forall c v, vs s c = Some (v, true) -> created (s_tr s) (mk_fc c v);
  v_done : forall h v b, created (s_tr s) h -> vs s (fc_ctx h) = Some (v, b) -> (fc_ver h < v \/ b = false) ->
     consumed (s_tr s) h;
  v_me : forall t c me h k, In (EvSwitch t c me h k) (s_tr s) -> fc_ctx me = c /\ exists v b, vs s c = Some (v, b) /\ 1 <= fc_ver me <= v }.

Lemma created_app es tr h : created tr h -> created (es ++ tr) h.
Proof. intros [t [from [to [k [H1 H2]]]]]. exists t, from, to, k. split; auto. apply in_or_app; auto. Qed.
Lemma consumed_app es tr h : consumed tr h -> consumed (es ++ tr) h.
Proof. intros [t [from [to [k H1]]]]. exists t, from, to, k. apply in_or_app; auto. Qed.
Lemma created_no es tr h : no_switch es -> created (es ++ tr) h -> created tr h.
Proof.
  intros Hn [t [from [to [k [H1 H2]]]]]. apply in_app_or in H1. destruct H1 as [H1|H1].
  - exfalso. eapply no_switch_in; eauto.
  - exists t, from, to, k. auto.
Qed.
Lemma consumed_no es tr h : no_switch es -> consumed (es ++ tr) h -> consumed tr h.
Proof.
  intros Hn [t [from [to [k H1]]]]. apply in_app_or in H1. destruct H1 as [H1|H1].
  - exfalso. eapply no_switch_in; eauto.
  - exists t, from, to, k. auto.
Qed.
Lemma created_cons t c me h k tr x : created (EvSwitch t c me h k :: tr) x <-> (x = me /\ k <> SwExit) \/ created tr x.
Proof.
  split.
  - intros [t' [f' [to' [k' [[E|H1] H2]]]]]; [injection E as <- <- <- <- <-; auto|]. right. exists t', f', to', k'. auto.
  - intros [[-> H]|H]; [exists t, c, h, k; split; auto; left; auto|]. apply (created_app [_]); auto.
Qed.
Lemma consumed_cons t c me h k tr x : consumed (EvSwitch t c me h k :: tr) x <-> x = h \/ consumed tr x.
Proof.
  split.
  - intros [t' [f' [to' [k' [E|H1]]]]]; [injection E as <- <- <- <- <-; auto|]. right. exists t', f', to', k'. auto.
  - intros [->|H]; [exists t, c, me, k; left; auto|]. apply (consumed_app [_]); auto.
Qed.
Lemma created_ns es tr h : no_switch es -> created (es ++ tr) h <-> created tr h.
Proof. split; [apply created_no; auto|apply created_app]. Qed.
Lemma consumed_ns es tr h : no_switch es -> consumed (es ++ tr) h <-> consumed tr h.
Proof. split; [apply consumed_no; auto|apply consumed_app]. Qed.

Lemma fctx_eta h : mk_fc (fc_ctx h) (fc_ver h) = h.
Proof. destruct h; reflexivity. Qed.
Lemma fctx_eq a b : fc_ctx a = fc_ctx b -> fc_ver a = fc_ver b -> a = b.
Proof. destruct a, b; cbn; congruence. Qed.

Lemma m_vinv n s : mreach n s -> VInv s.
Proof.
  induction 1 as [|t s s' Hr IH Hs].
  - constructor; cbn.
    + intros h [t [f [to [k [[] _]]]]].
    + intros h [t [f [to [k []]]]].
    + intros c v. unfold vs, init; cbn. destruct (nth_error _ c) eqn:E; [|discriminate].
      apply nth_error_In, in_map_iff in E. destruct E as [x [<- _]]. discriminate.
    + intros h v b [t [f [to [k [[] _]]]]].
    + intros ? ? ? ? ? [].
  - destruct IH as [I1 I2 I3 I4 I5]. destruct (mstep_vs _ _ _ Hs) as [[es [E1 [E2 E3]]]|V].
    + constructor; rewrite ?E1.
      * intros h Hc. apply created_no in Hc; auto. rewrite E3. auto.
      * intros h Hc. apply consumed_no in Hc; auto. rewrite E3. auto.
      * intros c v. rewrite E3. intros Hv. apply created_app. auto.
      * intros h v b Hc. apply created_no in Hc; auto. rewrite E3. intros. apply consumed_app. eauto.
      * intros t' c me h k Hi. apply in_app_or in Hi. destruct Hi as [Hi|Hi]; [exfalso; eapply no_switch_in; eauto|]. rewrite E3. eauto.
    + destruct V as [es1 [es2 [c [h [k [v [V1 [V2 [V3 [V4 [V5 [V6 [V7 V8]]]]]]]]]]]]].
      assert (Cr : forall x, created (s_tr s') x <-> (x = mk_fc c (S v) /\ k <> SwExit) \/ created (s_tr s) x).
      { intros x. rewrite V1, created_ns, created_cons, created_ns by auto. tauto. }
      assert (Co : forall x, consumed (s_tr s') x <-> x = h \/ consumed (s_tr s) x).
      { intros x. rewrite V1, consumed_ns, consumed_cons, consumed_ns by auto. tauto. }
      assert (Hin : forall t' c' me' h' k', In (EvSwitch t' c' me' h' k') (s_tr s') ->
          (c' = c /\ me' = mk_fc c (S v)) \/ In (EvSwitch t' c' me' h' k') (s_tr s)).
      { intros t' c' me' h' k' Hi. rewrite V1 in Hi. apply in_app_or in Hi. destruct Hi as [Hi|[Hi|Hi]].
        - exfalso. eapply no_switch_in; [exact V2|exact Hi].
        - injection Hi as <- <- <- <- <-. auto.
        - apply in_app_or in Hi. destruct Hi as [Hi|Hi]; auto. exfalso. eapply no_switch_in; [exact V3|exact Hi]. }
      assert (Hmono : forall c' v0 b, vs s c' = Some (v0, b) -> exists v1 b1, vs s' c' = Some (v1, b1) /\ v0 <= v1).
      { intros c' v0 b Hv. rewrite V8. destruct (Nat.eqb_spec c' (fc_ctx h)) as [->|N1].
        - exists (fc_ver h), false. split; auto. destruct k; try (rewrite V5 in Hv by discriminate; injection Hv as <- <-; lia).
          destruct (V6 eq_refl) as [V6' _]. congruence.
        - destruct (Nat.eqb_spec c' c) as [->|N2].
          + rewrite V4 in Hv. injection Hv as <- <-. eexists _, _. split; [reflexivity|lia].
          + exists v0, b. split; auto. }
      constructor.
      * intros x Hx. apply Cr in Hx. destruct Hx as [[-> Hk]|Hx].
        -- cbn. rewrite V8. destruct (Nat.eqb_spec c (fc_ctx h)); [congruence|]. rewrite Nat.eqb_refl.
           eexists _, _. split; [reflexivity|lia].
        -- destruct (I1 x Hx) as [v0 [b [Hv Hle]]]. destruct (Hmono _ _ _ Hv) as [v1 [b1 [Hv1 Hle1]]].
           exists v1, b1. split; auto. lia.
      * intros x Hx. apply Co in Hx. destruct Hx as [->|Hx].
        -- rewrite V8, Nat.eqb_refl. eexists _, _. split; [reflexivity|]. auto.
        -- destruct (I2 x Hx) as [v0 [b [Hv Hle]]]. rewrite V8.
           destruct (Nat.eqb_spec (fc_ctx x) (fc_ctx h)) as [E|N1].
           ++ exists (fc_ver h), false. split; auto. rewrite E in Hv. destruct k.
              1:{ destruct (V6 eq_refl) as [V6' _]; congruence. }
              all: rewrite V5 in Hv by discriminate; injection Hv as <- <-; intuition congruence.
           ++ destruct (Nat.eqb_spec (fc_ctx x) c) as [E|N2].
              ** rewrite E, V4 in Hv. injection Hv as <- <-. eexists _, _. split; [reflexivity|]. left. lia.
              ** exists v0, b. auto.
      * intros c' v'. rewrite V8. destruct (Nat.eqb_spec c' (fc_ctx h)) as [->|N1]; [discriminate|].
        destruct (Nat.eqb_spec c' c) as [->|N2].
        -- intros E; injection E as <- E. apply Cr. left. split; auto. intros ->. discriminate.
        -- intros E. apply Cr. right. auto.
      * intros x v' b Hx Hv Hd. apply Co. rewrite V8 in Hv. apply Cr in Hx. destruct Hx as [[-> Hk]|Hx].
        -- cbn in Hv, Hd. destruct (Nat.eqb_spec c (fc_ctx h)); [congruence|]. rewrite Nat.eqb_refl in Hv. injection Hv as <- <-.
           destruct Hd as [Hd|Hd]; [lia|]. destruct k; try discriminate. congruence.
        -- destruct (Nat.eqb_spec (fc_ctx x) (fc_ctx h)) as [E|N1].
           ++ destruct (Nat.eq_dec (fc_ver x) (fc_ver h)) as [E2|N].
              ** left. apply fctx_eq; auto.
              ** right. destruct (I1 x Hx) as [v0 [b0 [Hv0 Hle]]]. eapply I4; eauto. left.
                 rewrite E in Hv0. destruct k.
                 1:{ destruct (V6 eq_refl) as [V6' _]; congruence. }
                 all: rewrite V5 in Hv0 by discriminate; injection Hv0 as <- <-; lia.
           ++ right. destruct (Nat.eqb_spec (fc_ctx x) c) as [E|N2].
              ** destruct (I1 x Hx) as [v0 [b0 [Hv0 Hle]]]. eapply I4; eauto. rewrite E, V4 in Hv0. injection Hv0 as <- <-. auto.
              ** eapply I4; eauto.
      * intros t' c' me' h' k' Hi. apply Hin in Hi. destruct Hi as [[-> ->]|Hi].
        -- split; [reflexivity|]. rewrite V8. destruct (Nat.eqb_spec c (fc_ctx h)); [congruence|]. rewrite Nat.eqb_refl.
           eexists _, _. split; [reflexivity|]. cbn. lia.
        -- destruct (I5 _ _ _ _ _ Hi) as [H1 [v0 [b [H2 H3]]]]. split; auto. destruct (Hmono _ _ _ H2) as [v1 [b1 [H4 H5]]].
           exists v1, b1. split; auto. lia.
Qed.

(** suspended in the history iff suspended in the state *)
Lemma suspended_vs s h : VInv s -> suspended (s_tr s) h <-> vs s (fc_ctx h) = Some (fc_ver h, true).
Proof.
  intros [I1 I2 I3 I4 I5]. split.
  - intros [H1 H2]. destruct (I1 h H1) as [v [b [Hv Hle]]]. destruct (Nat.eq_dec (fc_ver h) v) as [E|N].
    + destruct b; [congruence|]. exfalso. apply H2. eapply I4; eauto.
    + exfalso. apply H2. eapply I4; eauto. left. lia.
  - intros Hv. split.
    + rewrite <- (fctx_eta h). auto.
    + intros Hc. destruct (I2 h Hc) as [v [b [Hv2 Hd]]]. rewrite Hv in Hv2. injection Hv2 as <- <-. destruct Hd as [Hd|[_ Hd]]; [lia|discriminate].
Qed.

Lemma always_switch n s : mreach n s -> always switch_rule (s_tr s).
Proof.
  intros Hr. induction Hr as [|t s s' Hr IH Hs]; [apply always_nil|].
  pose proof (m_vinv _ _ Hr) as [I1 I2 I3 I4 I5].
  assert (Hirr : forall es, no_switch es -> forall e old, In e es -> switch_rule e old).
  { intros es Hn e old Hi. unfold switch_rule. destruct e; auto. exfalso. eapply no_switch_in; eauto. }
  destruct (mstep_vs _ _ _ Hs) as [[es [E1 [E2 E3]]]|V].
  - rewrite E1. apply always_irr; [apply Hirr|]; auto.
  - destruct V as [es1 [es2 [c [h [k [v [V1 [V2 [V3 [V4 [V5 [V6 [V7 V8]]]]]]]]]]]]].
    rewrite V1. apply always_irr; [apply Hirr; auto|]. apply always_cons. split; [|apply always_irr; [apply Hirr|]; auto].
    cbn [switch_rule]. split; [reflexivity|].
    assert (Hme : forall t' c' h' k', ~ In (EvSwitch t' c' (mk_fc c (S v)) h' k') (es2 ++ s_tr s)).
    { intros t' c' h' k' Hi. apply in_app_or in Hi. destruct Hi as [Hi|Hi]; [eapply no_switch_in; [exact V3|exact Hi]|].
      destruct (I5 _ _ _ _ _ Hi) as [H1 [v0 [b [H2 H3]]]]. cbn in H1, H3. subst c'. rewrite V4 in H2. injection H2 as <- <-. lia. }
    split; [exact Hme|].
    split.
    { intros Hc. apply consumed_no in Hc; auto. destruct (I2 _ Hc) as [v0 [b [H2 H3]]]. cbn in H2, H3.
      rewrite V4 in H2. injection H2 as <- <-. lia. }
    split.
    { intros Hc. apply consumed_no in Hc; auto. destruct (I2 _ Hc) as [v0 [b [H2 H3]]]. destruct k.
      1:{ destruct (V6 eq_refl); congruence. }
      all: rewrite V5 in H2 by discriminate; injection H2 as <- <-; intuition (lia || discriminate). }
    destruct k.
    2-5: apply created_app; rewrite <- (fctx_eta h); apply I3; rewrite V5 by discriminate; reflexivity.
    intros e c' Hi Hsw Hinv ->. destruct e as [| | |t' from' me' to' k'| | | | | | | | | | |]; try discriminate.
    apply in_app_or in Hi. destruct Hi as [Hi|Hi]; [eapply no_switch_in; [exact V3|exact Hi]|].
    destruct (V6 eq_refl) as [V6' _].
    destruct Hinv as [Hx|Hx].
    + destruct (I5 _ _ _ _ _ Hi) as [H1 [v0 [b [H2 H3]]]]. congruence.
    + assert (Hc : consumed (s_tr s) to') by (exists t', from', me', k'; exact Hi).
      destruct (I2 _ Hc) as [v0 [b [H2 H3]]]. congruence.
Qed.

(** the switch that created, and the switch that continued, a suspension are unique *)
Lemma switch_unique tr : always switch_rule tr ->
  forall t1 c1 t2 c2 me h1 h2 k1 k2, In (EvSwitch t1 c1 me h1 k1) tr -> In (EvSwitch t2 c2 me h2 k2) tr ->
  t1 = t2 /\ c1 = c2 /\ h1 = h2 /\ k1 = k2.
Proof.
  induction tr as [|e tr IH]; intros Ha t1 c1 t2 c2 me h1 h2 k1 k2 H1 H2; [destruct H1|].
  apply always_cons in Ha. destruct Ha as [He Ha]. destruct H1 as [->|H1], H2 as [H2|H2].
  - injection H2 as <- <- <- <-. repeat split; auto.
  - destruct He as [_ [He _]]. exfalso. eapply He; eauto.
  - subst e. destruct He as [_ [He _]]. exfalso. eapply He; eauto.
  - eauto.
Qed.
Lemma consumer_unique tr : always switch_rule tr ->
  forall t1 c1 t2 c2 m1 m2 h k1 k2, In (EvSwitch t1 c1 m1 h k1) tr -> In (EvSwitch t2 c2 m2 h k2) tr ->
  t1 = t2 /\ c1 = c2 /\ m1 = m2 /\ k1 = k2.
Proof.
  induction tr as [|e tr IH]; intros Ha t1 c1 t2 c2 m1 m2 h k1 k2 H1 H2; [destruct H1|].
  apply always_cons in Ha. destruct Ha as [He Ha]. destruct H1 as [->|H1], H2 as [H2|H2].
  - injection H2 as <- <- <- <-. repeat split; auto.
  - destruct He as [_ [_ [_ [He _]]]]. exfalso. apply He. exists t2, c2, m2, k2. auto.
  - subst e. destruct He as [_ [_ [_ [He _]]]]. exfalso. apply He. exists t1, c1, m1, k1. auto.
  - eauto.
Qed.
