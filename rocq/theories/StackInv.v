(** Stacks and objects in the history and in the state. *)
From Coq Require Import List Arith Bool Lia.
From Verif Require Import ListUtil Fiber FiberInv FiberInv2 FiberInv3 Micro MicroInv FiberSpec TraceInv CallInv CallInv2.
Import ListNotations.

Lemma always_ext (P : event -> list event -> Prop) es tr :
  always P tr -> (forall es1 e es2, es = es1 ++ e :: es2 -> P e (es2 ++ tr)) -> always P (es ++ tr).
Proof.
  intros Ha. induction es as [|e es IH]; intros H; cbn; auto. apply always_cons. split.
  - apply (H [] e es). reflexivity.
  - apply IH. intros es1 x es2 E. apply (H (e :: es1) x es2). cbn. now f_equal.
Qed.

Definition is_exit_ev (e : event) : bool := match e with EvSwitch _ _ _ _ SwExit => true | _ => false end.
Definition is_free_ev (e : event) : bool := match e with EvFree _ _ _ => true | _ => false end.
Definition no_ev (p : event -> bool) (es : list event) : Prop := forall e, In e es -> p e = false.

Lemma no_ev_app p a b : no_ev p (a ++ b) <-> no_ev p a /\ no_ev p b.
Proof.
  unfold no_ev. split.
  - intros H. split; intros e Hi; apply H; apply in_or_app; auto.
  - intros [H1 H2] e Hi. apply in_app_or in Hi. destruct Hi; auto.
Qed.
Lemma no_ev_cons p e b : no_ev p (e :: b) <-> p e = false /\ no_ev p b.
Proof. change (e :: b) with ([e] ++ b). rewrite no_ev_app. unfold no_ev; cbn. intuition (subst; auto). Qed.
Lemma no_ev_nil p : no_ev p [].
Proof. intros e []. Qed.

Lemma exited_no es tr c : no_ev is_exit_ev es -> exited (es ++ tr) c <-> exited tr c.
Proof.
  intros Hn. split; intros [t [me [to H]]]; exists t, me, to.
  - apply in_app_or in H. destruct H as [H|H]; auto. apply Hn in H. discriminate.
  - apply in_or_app; auto.
Qed.
Lemma freed_no es tr c : no_ev is_free_ev es -> freed (es ++ tr) c <-> freed tr c.
Proof.
  intros Hn. split; intros [a [on H]]; exists a, on.
  - apply in_app_or in H. destruct H as [H|H]; auto. apply Hn in H. discriminate.
  - apply in_or_app; auto.
Qed.

Definition plain_ev (e : event) : bool := match e with EvSwitch _ _ _ _ SwExit | EvFree _ _ _ | EvAlloc _ _ | EvRecord _ => true | _ => false end.

Lemma plain_exit es : no_ev plain_ev es -> no_ev is_exit_ev es.
Proof. intros H e Hi. specialize (H e Hi). destruct e; auto. Qed.
Lemma plain_free es : no_ev plain_ev es -> no_ev is_free_ev es.
Proof. intros H e Hi. specialize (H e Hi). destruct e; auto; discriminate. Qed.

(** all events of a list involve only context c *)
Definition about (c : nat) (es : list event) : Prop := forall e c', In e es -> involves e c' -> c' = c.
Lemma executes_involves e c : executes e c -> involves e c.
Proof. destruct e; cbn; try tauto; destruct p; cbn; tauto. Qed.

Lemma dl_plain c r fs fs' es : dl c r fs fs' es -> no_ev plain_ev es.
Proof. destruct 1; intros e Hi; cbn in Hi; intuition (subst; auto). Qed.
Lemma dl_about c r fs fs' es : dl c r fs fs' es -> about c es.
Proof. destruct 1; intros e c' Hi Hv; cbn in Hi; intuition (subst; cbn in Hv; auto). Qed.
Lemma lrule_plain c tr fs fs' es : lrule c tr fs fs' es -> no_ev plain_ev es.
Proof.
  destruct 1; intros e0 Hi; cbn in Hi; try (intuition (subst; auto); fail).
  apply in_app_or in Hi. destruct Hi as [Hi|[<-|[]]]; auto. eapply dl_plain; eauto.
Qed.
Lemma lrule_about c tr fs fs' es : lrule c tr fs fs' es -> about c es.
Proof.
  destruct 1; intros e0 c' Hi Hv; cbn in Hi; try (intuition (subst; cbn in Hv; auto; try tauto); fail).
  apply in_app_or in Hi. destruct Hi as [Hi|[<-|[]]]; auto. eapply dl_about; eauto.
Qed.

Definition st (s : state) (c : nat) : option status := option_map cx_status (nth_error (s_ctxs s) c).
Definition al (s : state) (c : nat) : option (option nat) := option_map cx_alloc (nth_error (s_ctxs s) c).

Record KInv (s : state) : Prop := mk_kinv {
  k_bound : forall e c, In e (s_tr s) -> involves e c -> c < length (s_ctxs s);
  k_alloc : forall c a, In (EvAlloc c a) (s_tr s) <-> al s c = Some (Some a);
  k_exited : forall c, exited (s_tr s) c <-> st s c = Some SDying \/ st s c = Some SFreed;
  k_freed : forall c, freed (s_tr s) c <-> st s c = Some SFreed;
  k_record : forall c, In (EvRecord c) (s_tr s) <-> freed (s_tr s) c }.

Lemma st_some s c cx : nth_error (s_ctxs s) c = Some cx -> st s c = Some (cx_status cx).
Proof. unfold st. intros ->. reflexivity. Qed.
Lemma al_some s c cx : nth_error (s_ctxs s) c = Some cx -> al s c = Some (cx_alloc cx).
Proof. unfold al. intros ->. reflexivity. Qed.

(** a step that emits only plain events about live contexts and changes no status to or from dead *)
Definition dead (x : option status) : bool := match x with Some SDying | Some SFreed => true | _ => false end.

Lemma kinv_plain s s' es :
  KInv s -> s_tr s' = es ++ s_tr s -> no_ev plain_ev es -> length (s_ctxs s') = length (s_ctxs s) ->
  (forall e c, In e es -> involves e c -> c < length (s_ctxs s)) ->
  (forall c, al s' c = al s c) ->
  (forall c, st s' c = st s c \/ (dead (st s c) = false /\ dead (st s' c) = false)) -> KInv s'.
Proof.
  intros [K1 K2 K3 K4 K5] Etr Hp Hlen Hb Hal Hst.
  pose proof (plain_exit _ Hp) as Hpe. pose proof (plain_free _ Hp) as Hpf.
  assert (Hd : forall c x, dead (Some x) = true -> st s' c = Some x <-> st s c = Some x).
  { intros c x Hx. destruct (Hst c) as [->|[H1 H2]]; [tauto|]. split; intros E; rewrite E in *; congruence. }
  constructor; rewrite ?Etr, ?Hlen.
  - intros e c Hi Hv. apply in_app_or in Hi. destruct Hi as [Hi|Hi]; eauto.
  - intros c a. rewrite Hal, <- K2. split; intros Hi; [|apply in_or_app; auto].
    apply in_app_or in Hi. destruct Hi as [Hi|Hi]; auto. apply Hp in Hi. discriminate.
  - intros c. rewrite exited_no by auto. rewrite K3, !Hd by reflexivity. tauto.
  - intros c. rewrite freed_no by auto. rewrite K4, !Hd by reflexivity. tauto.
  - intros c. rewrite freed_no by auto. rewrite <- K5. split; intros Hi; [|apply in_or_app; auto].
    apply in_app_or in Hi. destruct Hi as [Hi|Hi]; auto. apply Hp in Hi. discriminate.
Qed.

Lemma kinv_step t s s' : KInv s -> mstep t s s' -> KInv s'.
Proof.
  intros K Hs.
  assert (G : forall c cx h tx fs1 fs2 st', nth_error (s_ctxs s) c = Some cx -> nth_error (s_ctxs s) (fc_ctx h) = Some tx ->
     cx_status cx = SRun t -> cx_status tx = SSusp -> 
     s_ctxs s' = upd (upd (s_ctxs s) c (mk_cx fs1 st' (S (cx_ver cx)) (cx_alloc cx) (cx_caps cx)))
                    (fc_ctx h) (mk_cx fs2 (SRun t) (cx_ver tx) (cx_alloc tx) (cx_caps tx)) ->
     (forall c', al s' c' = al s c') /\
     (forall c', st s' c' = if Nat.eqb c' (fc_ctx h) then Some (SRun t) else if Nat.eqb c' c then Some st' else st s c')).
  { intros c cx h tx fs1 fs2 st' Hc Htx Ht Hts E.
    assert (Hne : c <> fc_ctx h) by (intros ->; congruence).
    split; intros c'; unfold al, st; rewrite E; destruct (Nat.eqb_spec c' (fc_ctx h)) as [->|N1].
    1,3: rewrite (nth_upd2_to _ _ _ _ _ _ Htx); rewrite ?Htx; reflexivity.
    all: rewrite nth_upd_ne by auto; destruct (Nat.eqb_spec c' c) as [->|N2].
    1,3: rewrite nth_upd_lt by (eapply nth_some_lt; eauto); rewrite ?Hc; reflexivity.
    all: rewrite nth_upd_ne by auto; reflexivity. }
  assert (Hlt : forall c cx, nth_error (s_ctxs s) c = Some cx -> c < length (s_ctxs s)) by (intros; eapply nth_some_lt; eauto).
  assert (L : forall c cx cx', nth_error (s_ctxs s) c = Some cx -> cx_status cx' = cx_status cx -> cx_alloc cx' = cx_alloc cx ->
     s_ctxs s' = upd (s_ctxs s) c cx' -> (forall c', al s' c' = al s c') /\ (forall c', st s' c' = st s c')).
  { intros c cx cx' Hc E1 E2 E. split; intros c'; unfold al, st; rewrite E; destruct (Nat.eq_dec c' c) as [->|N].
    1,3: rewrite nth_upd_lt by eauto; rewrite Hc; cbn; congruence.
    all: rewrite nth_upd_ne by auto; reflexivity. }
  destruct Hs.
  - destruct (L c cx (set_frames cx fs')) as [L1 L2]; auto.
    eapply (kinv_plain s s' es); eauto.
    + eapply lrule_plain; eauto.
    + rewrite Ectx, upd_length. reflexivity.
    + intros e c' Hi Hv. rewrite (lrule_about _ _ _ _ _ HL e c' Hi Hv). eauto.
  - edestruct (G c cx h tx) as [G1 G2]; eauto.
    eapply (kinv_plain s s' (es ++ [EvSwitch t c me h SwJump])); eauto.
    + rewrite <- app_assoc. exact Etr.
    + apply no_ev_app. split; [eapply dl_plain; eauto|]. apply no_ev_cons; split; [reflexivity|apply no_ev_nil].
    + rewrite Ectx, !upd_length. reflexivity.
    + intros e c' Hi Hv. apply in_app_or in Hi. destruct Hi as [Hi|[<-|[]]].
      * rewrite (dl_about _ _ _ _ _ HD e c' Hi Hv). eauto.
      * destruct Hv as [<-|<-]; eauto.
    + intros c'. rewrite G2. destruct (Nat.eqb_spec c' (fc_ctx h)) as [->|]; [right; rewrite (st_some _ _ _ Htx), Hts; auto|].
      destruct (Nat.eqb_spec c' c) as [->|]; [right; rewrite (st_some _ _ _ Hc), Ht; auto|]. auto.
  - edestruct (G c cx h tx) as [G1 G2]; eauto.
    eapply (kinv_plain s s' (es ++ [EvSwitch t c me h (SwOntop g)])); eauto.
    + intros e Hi. cbn in Hi. intuition (subst; auto).
    + rewrite Ectx, !upd_length. reflexivity.
    + intros e c' Hi Hv. cbn in Hi. intuition (subst; cbn in Hv; try subst; eauto). destruct Hv as [<-|<-]; eauto.
    + intros c'. rewrite G2. destruct (Nat.eqb_spec c' (fc_ctx h)) as [->|]; [right; rewrite (st_some _ _ _ Htx), Hts; auto|].
      destruct (Nat.eqb_spec c' c) as [->|]; [right; rewrite (st_some _ _ _ Hc), Ht; auto|]. auto.
  - edestruct (G c cx h tx) as [G1 G2]; eauto.
    eapply (kinv_plain s s' [ev; EvSwitch t c me h SwUnwind]); eauto.
    + intros e Hi. cbn in Hi. destruct HR; intuition (subst; auto).
    + rewrite Ectx, !upd_length. reflexivity.
    + intros e c' Hi Hv. assert (Hev : e = ev -> c' = fc_ctx h) by (destruct HR; intros ->; cbn in Hv; auto).
      cbn in Hi. destruct Hi as [<-|[<-|[]]]; [rewrite Hev; eauto|]. destruct Hv as [<-|<-]; eauto.
    + intros c'. rewrite G2. destruct (Nat.eqb_spec c' (fc_ctx h)) as [->|]; [right; rewrite (st_some _ _ _ Htx), Hts; auto|].
      destruct (Nat.eqb_spec c' c) as [->|]; [right; rewrite (st_some _ _ _ Hc), Ht; auto|]. auto.
  - destruct (L c cx (set_frames cx (FEntry3 r :: rest))) as [L1 L2]; auto.
    eapply (kinv_plain s s' [EvDone c r]); eauto.
    + intros e Hi. cbn in Hi. intuition (subst; auto).
    + rewrite Ectx, upd_length. reflexivity.
    + intros e c' Hi Hv. cbn in Hi. intuition (subst; cbn in Hv; subst; eauto).
  - (* exit *)
    edestruct (G c cx h tx) as [G1 G2]; eauto. destruct K as [K1 K2 K3 K4 K5].
    assert (Hne : c <> fc_ctx h) by (intros ->; congruence).
    set (sw := EvSwitch t c _ h SwExit) in *.
    assert (Hf : forall c', freed (sw :: s_tr s) c' <-> freed (s_tr s) c').
    { intros c'. apply (freed_no [sw]). apply no_ev_cons; split; [reflexivity|apply no_ev_nil]. }
    constructor; rewrite ?Etr.
    + rewrite Ectx, !upd_length. intros e c' [<-|Hi] Hv; eauto. destruct Hv as [<-|<-]; eauto.
    + intros c' a. rewrite G1, <- K2. split; [intros [E|E]; [discriminate|auto]|right; auto].
    + intros c'. rewrite G2. assert (Hx : exited (sw :: s_tr s) c' <-> c' = c \/ exited (s_tr s) c').
      { split.
        - intros [t' [me' [to' [E|E]]]]; [injection E; auto|right; exists t', me', to'; auto].
        - intros [->|[t' [me' [to' E]]]]; [exists t, (mk_fc c (S (cx_ver cx))), h; left; reflexivity|exists t', me', to'; right; auto]. }
      rewrite Hx, K3. destruct (Nat.eqb_spec c' (fc_ctx h)) as [->|N1].
      * rewrite (st_some _ _ _ Htx), Hts. intuition (try discriminate; congruence).
      * destruct (Nat.eqb_spec c' c) as [->|N2]; intuition.
    + intros c'. rewrite G2, Hf, K4. destruct (Nat.eqb_spec c' (fc_ctx h)) as [->|N1].
      * rewrite (st_some _ _ _ Htx), Hts. intuition discriminate.
      * destruct (Nat.eqb_spec c' c) as [->|N2]; [|tauto]. rewrite (st_some _ _ _ Hc), Ht. intuition discriminate.
    + intros c'. rewrite Hf, <- K5. split; [intros [E|E]; [discriminate|auto]|right; auto].
  - (* create *)
    destruct K as [K1 K2 K3 K4 K5]. specialize (Hlt _ _ Hc) as Hlc.
    assert (Hal : forall c', al s' c' = if Nat.eqb c' d then Some (Some a) else al s c').
    { intros c'. unfold al. rewrite Ectx. destruct (Nat.eqb_spec c' d) as [->|N].
      - replace d with (length (upd (s_ctxs s) c (mk_cx (FCreate :: FU f :: rest) SSusp (S (cx_ver cx)) (cx_alloc cx) (cx_caps cx)))) by (rewrite upd_length; reflexivity).
        rewrite nth_app_last. reflexivity.
      - destruct (Nat.lt_ge_cases c' d) as [Ld|Ld].
        + rewrite nth_error_app1 by (rewrite upd_length; exact Ld). destruct (Nat.eq_dec c' c) as [->|N2].
          * rewrite nth_upd_lt by auto. rewrite Hc. reflexivity.
          * rewrite nth_upd_ne by auto. reflexivity.
        + replace (nth_error (s_ctxs s) c') with (@None ctx) by (symmetry; apply nth_error_None; fold d; lia).
          replace (nth_error (upd _ _ _ ++ _) c') with (@None ctx); [reflexivity|].
          symmetry. apply nth_error_None. rewrite app_length, upd_length. cbn. fold d. lia. }
    assert (Hst : forall c', st s' c' = if Nat.eqb c' d then Some (SRun t) else if Nat.eqb c' c then Some SSusp else st s c').
    { intros c'. unfold st. rewrite Ectx. destruct (Nat.eqb_spec c' d) as [->|N].
      - replace d with (length (upd (s_ctxs s) c (mk_cx (FCreate :: FU f :: rest) SSusp (S (cx_ver cx)) (cx_alloc cx) (cx_caps cx)))) by (rewrite upd_length; reflexivity).
        rewrite nth_app_last. reflexivity.
      - destruct (Nat.lt_ge_cases c' d) as [Ld|Ld].
        + rewrite nth_error_app1 by (rewrite upd_length; exact Ld). destruct (Nat.eqb_spec c' c) as [->|N2].
          * rewrite nth_upd_lt by auto. reflexivity.
          * rewrite nth_upd_ne by auto. reflexivity.
        + destruct (Nat.eqb_spec c' c); [lia|]. 
          replace (nth_error (s_ctxs s) c') with (@None ctx) by (symmetry; apply nth_error_None; fold d; lia).
          replace (nth_error (upd _ _ _ ++ _) c') with (@None ctx); [reflexivity|].
          symmetry. apply nth_error_None. rewrite app_length, upd_length. cbn. fold d. lia. }
    assert (Hnone : forall x, dead (Some x) = true -> st s d <> Some x).
    { intros x _. unfold st. replace (nth_error (s_ctxs s) d) with (@None ctx) by (symmetry; apply nth_error_None; fold d; lia). discriminate. }
    set (sw := EvSwitch t c me (mk_fc d 0) SwCreate) in *.
    assert (Hes : forall e, In e es -> (exists o, e = EvCtor (OnCtx d) o) \/ e = EvAlloc d a).
    { intros e Hi. unfold es in Hi. apply in_app_or in Hi. destruct Hi as [Hi|[<-|[]]]; auto.
      apply in_map_iff in Hi. destruct Hi as [o [<- _]]. eauto. }
    assert (Hin : forall e, In e (sw :: es ++ s_tr s) <-> e = sw \/ In e es \/ In e (s_tr s)).
    { intros e. cbn. rewrite in_app_iff. intuition. }
    assert (Hne : no_ev is_exit_ev (sw :: es)).
    { apply no_ev_cons; split; [reflexivity|]. intros e Hi. apply Hes in Hi. destruct Hi as [[o ->]| ->]; reflexivity. }
    assert (Hnf : no_ev is_free_ev (sw :: es)).
    { apply no_ev_cons; split; [reflexivity|]. intros e Hi. apply Hes in Hi. destruct Hi as [[o ->]| ->]; reflexivity. }
    change (sw :: es ++ s_tr s) with ((sw :: es) ++ s_tr s) in *.
    constructor; rewrite ?Etr.
    + rewrite Ectx, app_length, upd_length. cbn [length]. fold d. intros e c' Hi Hv. apply Hin in Hi. destruct Hi as [->|[Hi|Hi]].
      * destruct Hv as [<-|<-]; cbn; unfold d in *; lia.
      * apply Hes in Hi. destruct Hi as [[o ->]| ->]; cbn in Hv; lia.
      * specialize (K1 _ _ Hi Hv). unfold d; lia.
    + intros c' a'. rewrite Hin, Hal. destruct (Nat.eqb_spec c' d) as [->|N].
      * split.
        -- intros [E|[Hi|Hi]]; [discriminate| |].
           ++ apply Hes in Hi. destruct Hi as [[o E]|E]; [discriminate|congruence].
           ++ exfalso. assert (d < length (s_ctxs s)) by (apply (K1 _ d Hi); reflexivity). unfold d in *; lia.
        -- intros E; injection E as <-. right; left. unfold es. apply in_or_app. right. left. reflexivity.
      * rewrite <- K2. split; [|auto]. intros [E|[Hi|Hi]]; auto; [discriminate|].
        apply Hes in Hi. destruct Hi as [[o E]|E]; [discriminate|congruence].
    + intros c'. rewrite exited_no by auto. rewrite K3, Hst. destruct (Nat.eqb_spec c' d) as [->|N].
      * pose proof (Hnone SDying eq_refl). pose proof (Hnone SFreed eq_refl). intuition discriminate.
      * destruct (Nat.eqb_spec c' c) as [->|N2]; [|tauto]. rewrite (st_some _ _ _ Hc), Ht. intuition discriminate.
    + intros c'. rewrite freed_no by auto. rewrite K4, Hst. destruct (Nat.eqb_spec c' d) as [->|N].
      * pose proof (Hnone SFreed eq_refl). intuition discriminate.
      * destruct (Nat.eqb_spec c' c) as [->|N2]; [|tauto]. rewrite (st_some _ _ _ Hc), Ht. intuition discriminate.
    + intros c'. rewrite freed_no by auto. rewrite <- K5, Hin. split; [|auto]. intros [E|[Hi|Hi]]; auto; [discriminate|].
      apply Hes in Hi. destruct Hi as [[o E]|E]; discriminate.
  - (* cap *)
    destruct (L d dx (set_caps dx l)) as [L1 L2]; auto.
    eapply (kinv_plain s s' [EvDtor (OnCtx d) o]); eauto.
    + intros e Hi. cbn in Hi. intuition (subst; auto).
    + rewrite Ectx, upd_length. reflexivity.
    + intros e c' Hi Hv. cbn in Hi. intuition (subst; cbn in Hv; subst; eauto).
  - (* free *)
    destruct K as [K1 K2 K3 K4 K5]. assert (Hne : d <> c) by (intros ->; congruence).
    set (fx := mk_cx [] SFreed (cx_ver dx) (cx_alloc dx) []) in *.
    assert (Hal : forall c', al s' c' = al s c').
    { intros c'. unfold al. rewrite Ectx. destruct (Nat.eq_dec c' c) as [->|N].
      - rewrite (nth_upd2_to _ _ _ _ _ _ Hc), Hc. reflexivity.
      - rewrite nth_upd_ne by auto. destruct (Nat.eq_dec c' d) as [->|N2].
        + rewrite nth_upd_lt by eauto. rewrite Hdx. reflexivity.
        + rewrite nth_upd_ne by auto. reflexivity. }
    assert (Hst : forall c', st s' c' = if Nat.eqb c' d then Some SFreed else st s c').
    { intros c'. unfold st. rewrite Ectx. destruct (Nat.eqb_spec c' d) as [->|N].
      - rewrite nth_upd_ne by auto. rewrite nth_upd_lt by eauto. reflexivity.
      - destruct (Nat.eq_dec c' c) as [->|N2].
        + rewrite (nth_upd2_to _ _ _ _ _ _ Hc), Hc. reflexivity.
        + rewrite !nth_upd_ne by auto. reflexivity. }
    pose proof (dl_plain _ _ _ _ _ HD) as Hp. pose proof (dl_about _ _ _ _ _ HD) as Hab.
    assert (Hin : forall e, In e (s_tr s') <-> In e es \/ e = EvFree d a c \/ e = EvRecord d \/ In e (s_tr s)).
    { intros e. rewrite Etr, in_app_iff. cbn. intuition. }
    assert (Hfd : forall c', freed (s_tr s') c' <-> c' = d \/ freed (s_tr s) c').
    { intros c'. split.
      - intros [a' [on Hi]]. apply Hin in Hi. destruct Hi as [Hi|[Hi|[Hi|Hi]]]; [|injection Hi; auto|discriminate|right; exists a', on; auto].
        apply Hp in Hi. discriminate.
      - intros [->|[a' [on Hi]]]; [exists a, c; apply Hin; auto|exists a', on; apply Hin; auto]. }
    assert (Hdd : st s d = Some SDying) by (rewrite (st_some _ _ _ Hdx), Hds; auto).
    constructor.
    + rewrite Ectx, !upd_length. intros e c' Hi Hv. apply Hin in Hi. destruct Hi as [Hi|[->|[->|Hi]]]; eauto.
      * rewrite (Hab _ _ Hi Hv). eauto.
      * destruct Hv as [<-|<-]; eauto.
      * cbn in Hv. subst. eauto.
    + intros c' a'. rewrite Hal, <- K2, Hin. split; [|auto]. intros [Hi|[Hi|[Hi|Hi]]]; auto; try discriminate.
      apply Hp in Hi. discriminate.
    + intros c'. rewrite Hst. assert (Hx : exited (s_tr s') c' <-> exited (s_tr s) c').
      { rewrite Etr. change (es ++ EvFree d a c :: EvRecord d :: s_tr s) with (es ++ [EvFree d a c; EvRecord d] ++ s_tr s).
        rewrite app_assoc. apply exited_no. apply no_ev_app. split; [apply plain_exit; auto|].
        intros e Hi. cbn in Hi. intuition (subst; auto). }
      rewrite Hx, K3. destruct (Nat.eqb_spec c' d) as [->|N]; [|tauto]. intuition.
    + intros c'. rewrite Hst, Hfd, K4. destruct (Nat.eqb_spec c' d) as [->|N]; intuition.
    + intros c'. rewrite Hin, Hfd, <- K5. split.
      * intros [Hi|[Hi|[Hi|Hi]]]; auto; try discriminate; [|injection Hi; auto]. apply Hp in Hi. discriminate.
      * intros [->|Hi]; auto.
Qed.

Lemma init_nth n c cx : nth_error (s_ctxs (init n)) c = Some cx -> exists t, cx = main_ctx t.
Proof.
  unfold init; cbn. intros H. apply nth_error_In, in_map_iff in H. destruct H as [x [<- _]]. eauto.
Qed.

Lemma m_kinv n s : mreach n s -> KInv s.
Proof.
  induction 1; [|eapply kinv_step; eauto].
  assert (Hx : forall c x, st (init n) c = Some x -> exists t, x = SRun t).
  { intros c x. unfold st. destruct (nth_error _ c) eqn:E; [|discriminate]. apply init_nth in E. destruct E as [t ->]. cbn. intros E; injection E as <-. eauto. }
  constructor.
  - intros e c [].
  - intros c a. split; [intros []|]. unfold al. destruct (nth_error _ c) eqn:E; [|discriminate].
    apply init_nth in E. destruct E as [t ->]. discriminate.
  - intros c. split; [intros [t [me [to []]]]|]. intros [E|E]; apply Hx in E; destruct E; discriminate.
  - intros c. split; [intros [a [on []]]|]. intros E; apply Hx in E; destruct E; discriminate.
  - intros c. split; [intros []|intros [a [on []]]].
Qed.

(* ------------------------------------------------------------------ stack_rule *)

Lemma stack_plain s es :
  KInv s -> always stack_rule (s_tr s) -> no_ev plain_ev es ->
  (forall e c, In e es -> executes e c -> dead (st s c) = false) ->
  (forall e c, In e es -> involves e c -> st s c <> Some SFreed) ->
  always stack_rule (es ++ s_tr s).
Proof.
  intros [K1 K2 K3 K4 K5] Ha Hp H1 H2. apply always_ext; auto. intros es1 e es2 E.
  assert (Hi : In e es) by (rewrite E; apply in_or_app; right; left; reflexivity).
  assert (Hp2 : no_ev plain_ev es2) by (rewrite E in Hp; apply no_ev_app in Hp; destruct Hp as [_ Hp]; apply no_ev_cons in Hp; tauto).
  unfold stack_rule. split; [|split].
  - intros c Hx He. apply exited_no in Hx; [|apply plain_exit; auto]. apply K3 in Hx. specialize (H1 e c Hi He).
    destruct Hx as [Hx|Hx]; rewrite Hx in H1; discriminate.
  - intros c Hx He. apply freed_no in Hx; [|apply plain_free; auto]. apply K4 in Hx. exact (H2 e c Hi He Hx).
  - specialize (Hp e Hi). destruct e; auto; discriminate.
Qed.

Lemma st_run s c cx t : nth_error (s_ctxs s) c = Some cx -> cx_status cx = SRun t -> st s c = Some (SRun t).
Proof. intros H E. rewrite (st_some _ _ _ H), E. reflexivity. Qed.
Lemma st_susp s c cx : nth_error (s_ctxs s) c = Some cx -> cx_status cx = SSusp -> st s c = Some SSusp.
Proof. intros H E. rewrite (st_some _ _ _ H), E. reflexivity. Qed.

Lemma m_stack n s : mreach n s -> always stack_rule (s_tr s).
Proof.
  intros Hr. induction Hr as [|t s s' Hr IH Hs]; [apply always_nil|].
  pose proof (m_kinv _ _ Hr) as K.
  assert (A : forall c cx es, nth_error (s_ctxs s) c = Some cx -> (exists t, cx_status cx = SRun t) \/ cx_status cx = SSusp -> about c es ->
     forall e c', In e es -> involves e c' -> dead (st s c') = false).
  { intros c cx es Hc Hst Hab e c' Hi Hv. rewrite (Hab e c' Hi Hv), (st_some _ _ _ Hc).
    destruct Hst as [[t0 ->]| ->]; reflexivity. }
  assert (D : forall x, dead x = false -> x <> Some SFreed) by (intros x Hx ->; discriminate).
  destruct Hs; rewrite Etr.
  - apply stack_plain; auto.
    + eapply lrule_plain; eauto.
    + intros e c' Hi He. eapply A; eauto; [eapply lrule_about; eauto|apply executes_involves; auto].
    + intros e c' Hi He. apply D. eapply A; eauto. eapply lrule_about; eauto.
  - change (es ++ EvSwitch t c me h SwJump :: s_tr s) with (es ++ [EvSwitch t c me h SwJump] ++ s_tr s). rewrite app_assoc.
    assert (X : forall e c', In e (es ++ [EvSwitch t c me h SwJump]) -> involves e c' -> dead (st s c') = false).
    { intros e c' Hi Hv. apply in_app_or in Hi. destruct Hi as [Hi|[<-|[]]].
      - eapply (A (fc_ctx h)); eauto. eapply dl_about; eauto.
      - destruct Hv as [<-|<-]; [rewrite (st_run _ _ _ _ Hc Ht)|rewrite (st_susp _ _ _ Htx Hts)]; reflexivity. }
    apply stack_plain; auto.
    + apply no_ev_app. split; [eapply dl_plain; eauto|]. apply no_ev_cons; split; [reflexivity|apply no_ev_nil].
    + intros e c' Hi He. eapply X; eauto. apply executes_involves; auto.
    + intros e c' Hi He. apply D. eapply X; eauto.
  - change (es ++ EvSwitch t c me h (SwOntop g) :: s_tr s) with ((es ++ [EvSwitch t c me h (SwOntop g)]) ++ s_tr s).
    assert (X : forall e c', In e (es ++ [EvSwitch t c me h (SwOntop g)]) -> involves e c' -> dead (st s c') = false).
    { intros e c' Hi Hv. apply in_app_or in Hi. destruct Hi as [Hi|[<-|[]]].
      - assert (c' = fc_ctx h) by (cbn in Hi; intuition (subst; cbn in Hv; auto)). subst c'. rewrite (st_susp _ _ _ Htx Hts); reflexivity.
      - destruct Hv as [<-|<-]; [rewrite (st_run _ _ _ _ Hc Ht)|rewrite (st_susp _ _ _ Htx Hts)]; reflexivity. }
    apply stack_plain; auto.
    + intros e Hi. cbn in Hi. intuition (subst; auto).
    + intros e c' Hi He. eapply X; eauto. apply executes_involves; auto.
    + intros e c' Hi He. apply D. eapply X; eauto.
  - change (ev :: EvSwitch t c me h SwUnwind :: s_tr s) with ([ev; EvSwitch t c me h SwUnwind] ++ s_tr s).
    assert (X : forall e c', In e [ev; EvSwitch t c me h SwUnwind] -> involves e c' -> dead (st s c') = false).
    { intros e c' [<-|[<-|[]]] Hv.
      - assert (c' = fc_ctx h) by (destruct HR; cbn in Hv; auto). subst c'. rewrite (st_susp _ _ _ Htx Hts); reflexivity.
      - destruct Hv as [<-|<-]; [rewrite (st_run _ _ _ _ Hc Ht)|rewrite (st_susp _ _ _ Htx Hts)]; reflexivity. }
    apply stack_plain; auto.
    + intros e Hi. cbn in Hi. destruct HR; intuition (subst; auto).
    + intros e c' Hi He. eapply X; eauto. apply executes_involves; auto.
    + intros e c' Hi He. apply D. eapply X; eauto.
  - apply (stack_plain s [EvDone c r]); auto.
    + intros e Hi. cbn in Hi. intuition (subst; auto).
    + intros e c' [<-|[]] He. cbn in He. subst. rewrite (st_run _ _ _ _ Hc Ht). reflexivity.
    + intros e c' [<-|[]] He. cbn in He. subst. rewrite (st_run _ _ _ _ Hc Ht). discriminate.
  - (* exit *) destruct K as [K1 K2 K3 K4 K5]. apply always_cons. split; [|exact IH]. unfold stack_rule. split; [|split; [|exact I]].
    + intros c' Hx He. apply K3 in Hx. destruct He as [<-|<-]; [rewrite (st_run _ _ _ _ Hc Ht) in Hx|rewrite (st_susp _ _ _ Htx Hts) in Hx]; intuition discriminate.
    + intros c' Hx He. apply K4 in Hx. destruct He as [<-|<-]; [rewrite (st_run _ _ _ _ Hc Ht) in Hx|rewrite (st_susp _ _ _ Htx Hts) in Hx]; discriminate.
  - (* create *) destruct K as [K1 K2 K3 K4 K5].
    assert (Hd : forall e, In e (s_tr s) -> ~ involves e d) by (intros e Hi Hv; specialize (K1 e d Hi Hv); unfold d in K1; lia).
    assert (Hdx : ~ exited (s_tr s) d).
    { intros [t' [me' [to' Hi]]]. apply (Hd _ Hi). left; reflexivity. }
    assert (Hdf : ~ freed (s_tr s) d).
    { intros [a' [on' Hi]]. apply (Hd _ Hi). left; reflexivity. }
    assert (Hes : forall e, In e es -> (exists o, e = EvCtor (OnCtx d) o) \/ e = EvAlloc d a).
    { intros e Hi. unfold es in Hi. apply in_app_or in Hi. destruct Hi as [Hi|[<-|[]]]; auto.
      apply in_map_iff in Hi. destruct Hi as [o [<- _]]. eauto. }
    assert (Hb : always stack_rule (es ++ s_tr s)).
    { unfold es. rewrite <- app_assoc. cbn [app].
      assert (H0 : always stack_rule (EvAlloc d a :: s_tr s)).
      { apply always_cons. split; [|exact IH]. unfold stack_rule. split; [|split].
        - intros c' _ [].
        - intros c' Hx Hv. cbn in Hv. subst. auto.
        - exact Hd. }
      assert (Hne : forall l, no_ev is_exit_ev (map (EvCtor (OnCtx d)) l ++ [EvAlloc d a]) /\ no_ev is_free_ev (map (EvCtor (OnCtx d)) l ++ [EvAlloc d a])).
      { intros l. split; intros e Hi; apply in_app_or in Hi; destruct Hi as [Hi|[<-|[]]]; try reflexivity;
          apply in_map_iff in Hi; destruct Hi as [o [<- _]]; reflexivity. }
      clear - H0 Hdx Hdf Hne. induction caps as [|o l IHl]; cbn [map app]; auto. apply always_cons. split; [|exact IHl].
      destruct (Hne l) as [N1 N2].
      change (EvAlloc d a :: s_tr s) with ([EvAlloc d a] ++ s_tr s). rewrite app_assoc.
      unfold stack_rule. split; [|split; [|exact I]].
      - intros c' Hx Hv. apply exited_no in Hx; auto. cbn in Hv. subst. auto.
      - intros c' Hx Hv. apply freed_no in Hx; auto. cbn in Hv. subst. auto. }
    apply always_cons. split; [|exact Hb].
    assert (Hne : no_ev is_exit_ev es).
    { intros e Hi. apply Hes in Hi. destruct Hi as [[o ->]| ->]; reflexivity. }
    assert (Hnf : no_ev is_free_ev es).
    { intros e Hi. apply Hes in Hi. destruct Hi as [[o ->]| ->]; reflexivity. }
    unfold stack_rule. split; [|split; [|exact I]].
    + intros c' Hx He. apply exited_no in Hx; auto. destruct He as [<-|He].
      * apply K3 in Hx. rewrite (st_run _ _ _ _ Hc Ht) in Hx; intuition discriminate.
      * cbn in He. subst. auto.
    + intros c' Hx He. apply freed_no in Hx; auto. destruct He as [<-|He].
      * apply K4 in Hx. rewrite (st_run _ _ _ _ Hc Ht) in Hx; discriminate.
      * cbn in He. subst. auto.
  - apply (stack_plain s [EvDtor (OnCtx d) o]); auto.
    + intros e Hi. cbn in Hi. intuition (subst; auto).
    + intros e c' [<-|[]] [].
    + intros e c' [<-|[]] He. cbn in He. subst. rewrite (st_some _ _ _ Hdx), Hds. discriminate.
  - (* free *)
    assert (Hne : d <> c) by (intros ->; congruence).
    assert (Hdd : st s d = Some SDying) by (rewrite (st_some _ _ _ Hdx), Hds; auto).
    pose proof (dl_plain _ _ _ _ _ HD) as Hp. pose proof (dl_about _ _ _ _ _ HD) as Hab.
    destruct K as [K1 K2 K3 K4 K5].
    assert (Hnf : ~ freed (s_tr s) d) by (rewrite K4, Hdd; discriminate).
    pose proof (st_run _ _ _ _ Hc Ht) as Hcr.
    assert (B : always stack_rule (EvFree d a c :: EvRecord d :: s_tr s)).
    { apply always_cons. split; [|apply always_cons; split; [|exact IH]].
      - unfold stack_rule. split; [|split].
        + intros c' Hx He. cbn in He. subst c'. apply (exited_no [EvRecord d] (s_tr s)) in Hx; [|intros e [<-|[]]; reflexivity].
          apply K3 in Hx. rewrite Hcr in Hx. intuition discriminate.
        + intros c' Hx He. apply (freed_no [EvRecord d] (s_tr s)) in Hx; [|intros e [<-|[]]; reflexivity].
          destruct He as [<-|<-]; auto. apply K4 in Hx. congruence.
        + split; [right; apply K2; rewrite (al_some _ _ _ Hdx), Hda; reflexivity|]. split; [reflexivity|].
          split; [intros Hx; apply (freed_no [EvRecord d] (s_tr s)) in Hx; [auto|intros e [<-|[]]; reflexivity]|].
          pose proof (c_rel _ (m_cinv _ _ Hr) _ _ Hc) as Hrel. rewrite Hcf in Hrel. destruct Hrel as [[h [o [t1 [m1 [F1 F2]]]]] _].
          exists t1, m1, h. split; [right; exact F2|]. split; [|auto].
          apply (open_ctx n s); auto. rewrite F1. left; reflexivity.
      - unfold stack_rule. split; [intros c' _ []|]. split.
        + intros c' Hx He. cbn in He. subst. auto.
        + intros Hi. apply K5 in Hi. auto. }
    apply always_ext; auto. intros es1 e es2 E.
    assert (Hi : In e es) by (rewrite E; apply in_or_app; right; left; reflexivity).
    assert (Hp2 : no_ev plain_ev es2) by (rewrite E in Hp; apply no_ev_app in Hp; destruct Hp as [_ Hp]; apply no_ev_cons in Hp; tauto).
    unfold stack_rule. split; [|split].
    + intros c' Hx He. apply executes_involves in He. rewrite (Hab _ _ Hi He) in *.
      apply exited_no in Hx; [|apply plain_exit; auto].
      apply (exited_no [EvFree d a c; EvRecord d] (s_tr s)) in Hx; [|intros x [<-|[<-|[]]]; reflexivity].
      apply K3 in Hx. rewrite Hcr in Hx. intuition discriminate.
    + intros c' Hx He. rewrite (Hab _ _ Hi He) in *. apply freed_no in Hx; [|apply plain_free; auto].
      destruct Hx as [a' [on' [Hx|[Hx|Hx]]]]; [injection Hx; intros; congruence|discriminate|].
      assert (Hq : freed (s_tr s) c) by (exists a', on'; auto). apply K4 in Hq. congruence.
    + specialize (Hp e Hi). destruct e; auto; discriminate.
Qed.
