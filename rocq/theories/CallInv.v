(** Invariant: the suspended calls recorded in the history are the waiting frames of the stacks. *)
From Coq Require Import List Arith Bool Lia.
From Verif Require Import ListUtil Fiber FiberInv FiberInv2 FiberInv3 Micro MicroInv FiberSpec TraceInv.
Import ListNotations.

Definition kindw (w : frame) (k : swk) : Prop :=
  match w, k with
  | FCreate, SwCreate | FResume, SwJump | FEntry1, SwJump | FDtor, SwUnwind => True
  | FResumeW g, SwOntop g' => g = g'
  | _, _ => False
  end.

Definition called (tr : list event) (h : fctx) (w : frame) : Prop :=
  exists t c to k, In (EvSwitch t c h to k) tr /\ kindw w k.

Fixpoint rel (tr : list event) (fs : list frame) (ops : list fctx) : Prop :=
  match fs with
  | [] => ops = []
  | FU u :: r => match uf_kind u with
                 | KOntop g => exists h o t from me, ops = h :: o /\ In (EvSwitch t from me h (SwOntop g)) tr
                 | _ => True
                 end /\ rel tr r ops
  | FExit d :: r => (exists h o t me, ops = h :: o /\ In (EvSwitch t d me h SwExit) tr) /\ rel tr r ops
  | FOntop :: r | FEntry0 _ :: r | FEntry2 :: r | FEntry3 _ :: r => rel tr r ops
  | w :: r => match ops with h :: o => called tr h w /\ rel tr r o | [] => False end
  end.

Lemma called_app es tr h w : called tr h w -> called (es ++ tr) h w.
Proof. intros [t [c [to [k [H1 H2]]]]]. exists t, c, to, k. split; auto. apply in_or_app; auto. Qed.

Lemma rel_app es tr fs : forall ops, rel tr fs ops -> rel (es ++ tr) fs ops.
Proof.
  induction fs as [|f fs IH]; intros ops; cbn [rel]; auto.
  destruct f; auto; try (destruct ops as [|h o]; [tauto|]; intros [H1 H2]; split; [apply called_app; auto|auto]).
  - intros [H1 H2]. split; auto. destruct (uf_kind f); auto. destruct H1 as [h [o [t [from [me [E H1]]]]]].
    exists h, o, t, from, me. split; auto. apply in_or_app; auto.
  - intros [[h [o [t [me [E H1]]]]] H2]. split; auto. exists h, o, t, me. split; auto. apply in_or_app; auto.
Qed.
Lemma rel_cons e tr fs ops : rel tr fs ops -> rel (e :: tr) fs ops.
Proof. apply (rel_app [e]). Qed.

Lemma rel_fu_cong tr u u' r ops : uf_kind u' = uf_kind u -> rel tr (FU u :: r) ops -> rel tr (FU u' :: r) ops.
Proof. cbn. intros ->. auto. Qed.

Lemma rel_wait tr w r ops : waiting w = true -> rel tr (w :: r) ops -> exists h o, ops = h :: o /\ called tr h w /\ rel tr r o.
Proof. destruct w; try discriminate; intros _; cbn; destruct ops as [|h o]; try tauto; intros [H1 H2]; exists h, o; auto. Qed.
Lemma rel_wait_intro tr w r h o : waiting w = true -> called tr h w -> rel tr r o -> rel tr (w :: r) (h :: o).
Proof. destruct w; try discriminate; intros _; cbn; auto. Qed.

(** events of a context that involve no other context leave the calls of the others alone *)
Definition only (c : nat) (es : list event) : Prop :=
  forall e, In e es -> match completes e with Some (c', _) => c' = c | None => True end /\
                       match e with EvDone c' _ => c' = c | EvSwitch _ _ _ _ _ => False | _ => True end.

Lemma open_only c c' es tr : only c es -> c' <> c -> open_calls (es ++ tr) c' = open_calls tr c'.
Proof.
  intros H N. induction es as [|e es IH]; [reflexivity|]. cbn [app].
  assert (IH' : open_calls (es ++ tr) c' = open_calls tr c') by (apply IH; intros x Hx; apply H; right; exact Hx).
  pose proof (H e (or_introl eq_refl)) as [H1 H2].
  destruct e; cbn [open_calls completes] in *; auto; try (destruct H2; fail); subst;
    destruct (Nat.eqb_spec c c'); try congruence; auto.
Qed.

Lemma open_ctors p l tr c : open_calls (map (EvCtor p) l ++ tr) c = open_calls tr c.
Proof. induction l; cbn; auto. Qed.

Lemma dl_only c r fs fs' es : dl c r fs fs' es -> only c es.
Proof. destruct 1; intros e Hi; cbn in Hi; intuition (subst; cbn; auto). Qed.
Lemma lrule_only c tr fs fs' es : lrule c tr fs fs' es -> only c es.
Proof.
  destruct 1; intros e0 Hi; cbn in Hi; try (intuition (subst; cbn; auto); fail).
  apply in_app_or in Hi. destruct Hi as [Hi|[<-|[]]]; [eapply dl_only; eauto|cbn; auto].
Qed.

Lemma dl_rel c r fs fs' es tr : dl c r fs fs' es -> rel tr fs (open_calls tr c) ->
  rel (es ++ tr) fs' (open_calls (es ++ tr) c).
Proof.
  intros D H. destruct D.
  - destruct (rel_wait tr w (FU f :: rest) (open_calls tr c)) as [h [o [E1 [E2 E3]]]]; [destruct w; try discriminate; reflexivity|exact H|].
    cbn [app open_calls]. rewrite Nat.eqb_refl, E1. cbn [tl]. apply rel_cons, rel_cons. exact E3.
  - destruct (rel_wait tr FDtor rest (open_calls tr c)) as [h [o [E1 [E2 E3]]]]; [reflexivity|exact H|].
    cbn [app open_calls]. rewrite Nat.eqb_refl, E1. cbn [tl]. apply rel_cons. exact E3.
  - destruct (rel_wait tr FEntry1 rest (open_calls tr c)) as [h [o [E1 [E2 E3]]]]; [reflexivity|exact H|].
    cbn [app open_calls]. rewrite Nat.eqb_refl, E1. cbn [tl]. apply rel_cons, rel_cons. cbn. auto.
Qed.

Lemma rel_cons_inv_fu tr u r ops : rel tr (FU u :: r) ops -> rel tr r ops.
Proof. cbn. tauto. Qed.
Lemma rel_push_fu tr u r ops : (forall g, uf_kind u <> KOntop g) -> rel tr r ops -> rel tr (FU u :: r) ops.
Proof. cbn. intros H1 H2. split; auto. destruct (uf_kind u); auto. exfalso; eapply H1; reflexivity. Qed.

Lemma lrule_rel c tr fs fs' es main : wfs main fs -> lrule c tr fs fs' es -> rel tr fs (open_calls tr c) ->
  rel (es ++ tr) fs' (open_calls (es ++ tr) c).
Proof.
  intros Hwf L H. destruct L; cbn [app]; try (cbn [app open_calls]; repeat apply rel_cons; exact H);
    try (cbn [app open_calls]; repeat apply rel_cons; eapply rel_fu_cong; [|exact H]; reflexivity).
  - (* ontop raised *)
    cbn [open_calls]. rewrite Nat.eqb_refl. apply rel_cons_inv_fu in H. change (rel tr (w :: FU f :: rest) (open_calls tr c)) in H.
    apply rel_wait in H; [|destruct w; try discriminate; reflexivity]. destruct H as [h [o [E1 [E2 E3]]]]. rewrite E1. cbn [tl].
    do 2 apply rel_cons. eapply rel_fu_cong; [|exact E3]. reflexivity.
  - cbn [open_calls]. rewrite Nat.eqb_refl. apply rel_cons_inv_fu in H. cbn in H.
    apply wfs_tail, wfs_tail in Hwf. destruct rest; [reflexivity|rewrite wfs_cons in Hwf; destruct Hwf as [[] _]].
  - cbn [open_calls]. rewrite Nat.eqb_refl. 
    apply wfs_tail in Hwf. destruct rest; [reflexivity|rewrite wfs_cons in Hwf; destruct Hwf as [[] _]].
  - rewrite <- app_assoc. cbn [app]. eapply dl_rel; eauto. apply rel_cons. cbn [open_calls].
    apply rel_cons_inv_fu in H. exact H.
  - apply rel_cons_inv_fu in H. eapply rel_fu_cong; [|exact H]. reflexivity.
  - apply rel_push_fu; auto. discriminate.
  - apply rel_push_fu; auto. discriminate.
Qed.

Definition susp_call (s : state) (c : nat) (cx : ctx) : Prop :=
  cx_status cx = SSusp -> exists o, open_calls (s_tr s) c = mk_fc c (cx_ver cx) :: o.

Record CInv (s : state) : Prop := mk_cinv {
  c_rel : forall c cx, nth_error (s_ctxs s) c = Some cx -> rel (s_tr s) (cx_frames cx) (open_calls (s_tr s) c);
  c_susp : forall c cx, nth_error (s_ctxs s) c = Some cx -> cx_status cx = SSusp -> hd_error (open_calls (s_tr s) c) = Some (mk_fc c (cx_ver cx));
  c_none : forall c, length (s_ctxs s) <= c -> open_calls (s_tr s) c = [] }.

Lemma cinv_step t s s' : shapes s -> CInv s -> mstep t s s' -> CInv s'.
Proof.
  intros Hsh [I1 I2 I3] Hs.
  assert (Hlt : forall c cx, nth_error (s_ctxs s) c = Some cx -> c < length (s_ctxs s)) by (intros; eapply nth_some_lt; eauto).
  destruct Hs.
  - (* local *)
    pose proof (lrule_only _ _ _ _ _ HL) as Ho. pose proof (run_shape _ _ (Hsh _ _ Hc) Ht) as [Hw _].
    constructor; rewrite Etr; [intros c' cx'| intros c' cx'|intros c']; rewrite Ectx.
    + intros Hn. apply nth_upd_inv in Hn. destruct Hn as [[-> [-> _]]|[N Hn]].
      * eapply lrule_rel; eauto.
      * rewrite (open_only c) by auto. apply rel_app. auto.
    + intros Hn Hss. apply nth_upd_inv in Hn. destruct Hn as [[-> [-> _]]|[N Hn]].
      * cbn in Hss. congruence.
      * rewrite (open_only c) by auto. auto.
    + rewrite upd_length. intros Hl. specialize (Hlt _ _ Hc). rewrite (open_only c) by (auto; lia). auto.
  - (* jump *)
    pose proof (dl_only _ _ _ _ _ HD) as Ho. assert (Hne : c <> fc_ctx h) by (intros ->; congruence).
    set (sw := EvSwitch t c me h SwJump) in *.
    assert (Oc : open_calls (sw :: s_tr s) c = me :: open_calls (s_tr s) c) by (unfold sw; cbn; now rewrite Nat.eqb_refl).
    assert (On : forall c', c' <> c -> open_calls (sw :: s_tr s) c' = open_calls (s_tr s) c').
    { intros c' N. unfold sw; cbn. destruct (Nat.eqb_spec c c'); congruence. }
    constructor; rewrite Etr; [intros c' cx'| intros c' cx'|intros c']; rewrite Ectx.
    + intros Hn. apply nth_upd2_inv in Hn. destruct Hn as [[-> ->]|[[N [-> ->]]|[N1 [N2 Hn]]]].
      * cbn [cx_frames]. eapply dl_rel; [exact HD|]. apply rel_cons. rewrite On by auto. rewrite <- Htf. auto.
      * cbn [cx_frames]. rewrite (open_only (fc_ctx h)) by auto. rewrite Oc. apply rel_app.
        pose proof (I1 _ _ Hc) as Hrel.
        inversion HJ as [f rest Hm Hr E1 E2|Hr E1 E2]; subst fsw; rewrite <- E1 in Hrel.
        -- apply rel_wait_intro; auto.
           ++ exists t, c, h, SwJump. split; [left; auto|exact I].
           ++ apply rel_cons. exact Hrel.
        -- apply rel_wait_intro; auto.
           exists t, c, h, SwJump. split; [left; auto|exact I].
      * rewrite (open_only (fc_ctx h)) by auto. rewrite On by auto. apply rel_app, rel_cons. auto.
    + intros Hn Hss. apply nth_upd2_inv in Hn. destruct Hn as [[-> ->]|[[N [-> ->]]|[N1 [N2 Hn]]]].
      * discriminate.
      * rewrite (open_only (fc_ctx h)) by auto. rewrite Oc. reflexivity.
      * rewrite (open_only (fc_ctx h)) by auto. rewrite On by auto. auto.
    + rewrite !upd_length. intros Hl. pose proof (Hlt _ _ Hc). pose proof (Hlt _ _ Htx).
      rewrite (open_only (fc_ctx h)) by (auto; lia). rewrite On by lia. auto.
  - (* ontop *)
    assert (Hne : c <> fc_ctx h) by (intros ->; congruence).
    set (sw := EvSwitch t c me h (SwOntop g)) in *.
    assert (Oc : open_calls (es ++ sw :: s_tr s) c = me :: open_calls (s_tr s) c) by (unfold sw; cbn; now rewrite Nat.eqb_refl).
    assert (On : forall c', c' <> c -> open_calls (es ++ sw :: s_tr s) c' = open_calls (s_tr s) c').
    { intros c' N. unfold sw; cbn. destruct (Nat.eqb_spec c c'); congruence. }
    assert (Hin : In sw (es ++ sw :: s_tr s)) by (apply in_or_app; right; left; reflexivity).
    constructor; rewrite Etr; [intros c' cx'| intros c' cx'|intros c']; rewrite Ectx.
    + intros Hn. apply nth_upd2_inv in Hn. destruct Hn as [[-> ->]|[[N [-> ->]]|[N1 [N2 Hn]]]].
      * cbn [cx_frames]. rewrite On by auto. pose proof (I1 _ _ Htx) as Hrel. rewrite Htf in Hrel.
        change (rel (es ++ sw :: s_tr s) (FU (mk_uf (KOntop g) [OFib v] MRun None) :: FOntop :: f1 :: r1) (open_calls (s_tr s) (fc_ctx h))).
        cbn [rel uf_kind]. split.
        -- pose proof (I2 _ _ Htx Hts) as Hh. destruct (open_calls (s_tr s) (fc_ctx h)) as [|h0 o]; [discriminate|].
           cbn in Hh. injection Hh as ->. rewrite Htv, fctx_eta. exists h, o, t, c, me. split; auto.
        -- change (rel (es ++ sw :: s_tr s) (f1 :: r1) (open_calls (s_tr s) (fc_ctx h))). apply rel_app, rel_cons. exact Hrel.
      * cbn [cx_frames]. rewrite Oc. apply rel_app. pose proof (I1 _ _ Hc) as Hrel. rewrite Hcf in Hrel.
        apply rel_wait_intro; auto.
        -- exists t, c, h, (SwOntop g). split; [left; auto|reflexivity].
        -- apply rel_cons. exact Hrel.
      * rewrite On by auto. apply rel_app, rel_cons. auto.
    + intros Hn Hss. apply nth_upd2_inv in Hn. destruct Hn as [[-> ->]|[[N [-> ->]]|[N1 [N2 Hn]]]].
      * discriminate.
      * rewrite Oc. reflexivity.
      * rewrite On by auto. auto.
    + rewrite !upd_length. intros Hl. pose proof (Hlt _ _ Hc). rewrite On by lia. auto.
  - (* unwind *)
    assert (Hne : c <> fc_ctx h) by (intros ->; congruence).
    set (sw := EvSwitch t c me h SwUnwind) in *.
    assert (Oc : open_calls (sw :: s_tr s) c = me :: open_calls (s_tr s) c) by (unfold sw; cbn; now rewrite Nat.eqb_refl).
    assert (On : forall c', c' <> c -> open_calls (sw :: s_tr s) c' = open_calls (s_tr s) c').
    { intros c' N. unfold sw; cbn. destruct (Nat.eqb_spec c c'); congruence. }
    assert (Ho : only (fc_ctx h) [ev]) by (destruct HR; intros e0 Hi; cbn in Hi; intuition (subst; cbn; auto)).
    constructor; rewrite Etr; change (ev :: sw :: s_tr s) with ([ev] ++ sw :: s_tr s); [intros c' cx'| intros c' cx'|intros c']; rewrite Ectx.
    + intros Hn. apply nth_upd2_inv in Hn. destruct Hn as [[-> ->]|[[N [-> ->]]|[N1 [N2 Hn]]]].
      * cbn [cx_frames]. pose proof (I1 _ _ Htx) as Hrel. pose proof (susp_shape _ (Hsh _ _ Htx) Hts) as [Hw _]. destruct HR.
        -- apply rel_wait in Hrel; [|destruct w; try discriminate; reflexivity]. destruct Hrel as [h0 [o [E1 [E2 E3]]]].
           assert (Hx : forall tr, open_calls ([EvRaised (fc_ctx h) (EForced me)] ++ tr) (fc_ctx h) = tl (open_calls tr (fc_ctx h)))
             by (intros; cbn; now rewrite Nat.eqb_refl).
           rewrite Hx, On by auto. rewrite E1. cbn [tl].
           apply rel_cons, rel_cons. eapply rel_fu_cong; [|exact E3]. reflexivity.
        -- destruct rest; [|rewrite wfs_cons in Hw; destruct Hw as [[] _]].
           cbn [app open_calls]. rewrite Nat.eqb_refl. reflexivity.
      * cbn [cx_frames]. rewrite (open_only (fc_ctx h)) by auto. rewrite Oc. apply rel_app.
        apply rel_wait_intro; auto.
        -- exists t, c, h, SwUnwind. split; [left; auto|exact I].
        -- apply rel_cons. apply (I1 _ _ Hc).
      * rewrite (open_only (fc_ctx h)) by auto. rewrite On by auto. apply rel_app, rel_cons. auto.
    + intros Hn Hss. apply nth_upd2_inv in Hn. destruct Hn as [[-> ->]|[[N [-> ->]]|[N1 [N2 Hn]]]].
      * discriminate.
      * rewrite (open_only (fc_ctx h)) by auto. rewrite Oc. reflexivity.
      * rewrite (open_only (fc_ctx h)) by auto. rewrite On by auto. auto.
    + rewrite !upd_length. intros Hl. pose proof (Hlt _ _ Hc). pose proof (Hlt _ _ Htx).
      rewrite (open_only (fc_ctx h)) by (auto; lia). rewrite On by lia. auto.
  - (* ret_fn *)
    assert (On : forall c', c' <> c -> open_calls (EvDone c r :: s_tr s) c' = open_calls (s_tr s) c').
    { intros c' N. cbn. destruct (Nat.eqb_spec c c'); congruence. }
    constructor; rewrite Etr; [intros c' cx'| intros c' cx'|intros c']; rewrite Ectx.
    + intros Hn. apply nth_upd_inv in Hn. destruct Hn as [[-> [-> _]]|[N Hn]].
      * cbn [open_calls]. rewrite Nat.eqb_refl. pose proof (run_shape _ _ (Hsh _ _ Hc) Ht) as [Hw _]. rewrite Hcf in Hw.
        apply wfs_tail in Hw. destruct rest; [reflexivity|rewrite wfs_cons in Hw; destruct Hw as [[] _]].
      * rewrite On by auto. apply rel_cons. auto.
    + intros Hn Hss. apply nth_upd_inv in Hn. destruct Hn as [[-> [-> _]]|[N Hn]].
      * cbn in Hss. congruence.
      * rewrite On by auto. auto.
    + rewrite upd_length. intros Hlen. pose proof (Hlt _ _ Hc). rewrite On by lia. auto.
  - (* exit *)
    assert (Hne : c <> fc_ctx h) by (intros ->; congruence).
    set (sw := EvSwitch t c _ h SwExit) in *.
    assert (On : forall c', c' <> c -> open_calls (sw :: s_tr s) c' = open_calls (s_tr s) c').
    { intros c' N. unfold sw; cbn. destruct (Nat.eqb_spec c c'); congruence. }
    constructor; rewrite Etr; [intros c' cx'| intros c' cx'|intros c']; rewrite Ectx.
    + intros Hn. apply nth_upd2_inv in Hn. destruct Hn as [[-> ->]|[[N [-> ->]]|[N1 [N2 Hn]]]].
      * cbn [cx_frames]. rewrite On by auto. cbn [rel]. split.
        -- pose proof (I2 _ _ Htx Hts) as Hh. destruct (open_calls (s_tr s) (fc_ctx h)) as [|h0 o]; [discriminate|].
           cbn in Hh. injection Hh as ->. rewrite Htv, fctx_eta. eexists h, o, t, _. split; [auto|left; reflexivity].
        -- apply rel_cons. auto.
      * cbn [cx_frames rel]. unfold sw; cbn. now rewrite Nat.eqb_refl.
      * rewrite On by auto. apply rel_cons. auto.
    + intros Hn Hss. apply nth_upd2_inv in Hn. destruct Hn as [[-> ->]|[[N [-> ->]]|[N1 [N2 Hn]]]]; try discriminate.
      rewrite On by auto. auto.
    + rewrite !upd_length. intros Hl. pose proof (Hlt _ _ Hc). rewrite On by lia. auto.
  - (* create *)
    set (sw := EvSwitch t c me (mk_fc d 0) SwCreate) in *.
    assert (Oes : forall c' tr, open_calls (es ++ tr) c' = open_calls tr c').
    { intros c' tr. unfold es. rewrite <- app_assoc. rewrite open_ctors. reflexivity. }
    assert (On : forall c', c' <> c -> open_calls (sw :: es ++ s_tr s) c' = open_calls (s_tr s) c').
    { intros c' N. unfold sw; cbn. rewrite Oes. destruct (Nat.eqb_spec c c'); congruence. }
    assert (Oc : open_calls (sw :: es ++ s_tr s) c = me :: open_calls (s_tr s) c) by (unfold sw; cbn; rewrite Nat.eqb_refl, Oes; auto).
    pose proof (Hlt _ _ Hc) as Hlc.
    constructor; rewrite Etr; [intros c' cx'| intros c' cx'|intros c']; rewrite Ectx.
    + intros Hn. apply nth_app_cases in Hn. destruct Hn as [[_ Hn]|[-> ->]].
      * apply nth_upd_inv in Hn. destruct Hn as [[-> [-> _]]|[N Hn]].
        -- cbn [cx_frames]. rewrite Oc. apply rel_wait_intro; auto.
           ++ exists t, c, (mk_fc d 0), SwCreate. split; [left; auto|exact I].
           ++ apply rel_cons, rel_app. rewrite <- Hcf. auto.
        -- rewrite On by auto. apply rel_cons, rel_app. auto.
      * rewrite upd_length. cbn [cx_frames rel]. rewrite On by lia. apply I3. lia.
    + intros Hn Hss. apply nth_app_cases in Hn. destruct Hn as [[_ Hn]|[-> ->]]; [|discriminate].
      apply nth_upd_inv in Hn. destruct Hn as [[-> [-> _]]|[N Hn]].
      * rewrite Oc. reflexivity.
      * rewrite On by auto. auto.
    + rewrite app_length, upd_length. intros Hl. rewrite On by lia. apply I3. lia.
  - (* cap *)
    constructor; rewrite Etr; [intros c' cx'| intros c' cx'|intros c']; rewrite Ectx; cbn [open_calls].
    + intros Hn. apply nth_upd_inv in Hn. destruct Hn as [[-> [-> _]]|[N Hn]]; apply rel_cons; auto.
      cbn. apply (I1 _ _ Hdx).
    + intros Hn Hss. apply nth_upd_inv in Hn. destruct Hn as [[-> [-> _]]|[N Hn]]; auto.
      cbn in Hss. congruence.
    + rewrite upd_length. auto.
  - (* free *)
    pose proof (dl_only _ _ _ _ _ HD) as Ho. assert (Hne : d <> c) by (intros ->; congruence).
    set (tr1 := EvFree d a c :: EvRecord d :: s_tr s) in *.
    assert (On : forall c', open_calls tr1 c' = open_calls (s_tr s) c') by reflexivity.
    constructor; rewrite Etr; [intros c' cx'| intros c' cx'|intros c']; rewrite Ectx.
    + intros Hn. apply nth_upd2_inv in Hn. destruct Hn as [[-> ->]|[[N [-> ->]]|[N1 [N2 Hn]]]].
      * cbn [cx_frames set_frames]. eapply dl_rel; [exact HD|]. apply rel_cons, rel_cons. rewrite On.
        pose proof (I1 _ _ Hc) as Hrel. rewrite Hcf in Hrel. destruct Hrel as [_ Hrel]. exact Hrel.
      * rewrite (open_only c) by auto. rewrite On. apply rel_app. do 2 apply rel_cons. pose proof (I1 _ _ Hdx) as Hrel.
        pose proof (Hsh _ _ Hdx) as Hx. unfold shape in Hx. rewrite Hds in Hx. destruct Hx as [Hx _]. rewrite Hx in Hrel. exact Hrel.
      * rewrite (open_only c) by auto. rewrite On. apply rel_app. do 2 apply rel_cons. auto.
    + intros Hn Hss. apply nth_upd2_inv in Hn. destruct Hn as [[-> ->]|[[N [-> ->]]|[N1 [N2 Hn]]]].
      * cbn in Hss. congruence.
      * discriminate.
      * rewrite (open_only c) by auto. rewrite On. auto.
    + rewrite !upd_length. intros Hl. pose proof (Hlt _ _ Hc). rewrite (open_only c) by (auto; lia). rewrite On. auto.
Qed.

Lemma m_cinv n s : mreach n s -> CInv s.
Proof.
  induction 1.
  - constructor; cbn; auto; intros c cx H; unfold init in H; cbn in H; apply nth_error_In, in_map_iff in H;
      destruct H as [x [<- _]]; cbn; auto; discriminate.
  - eapply cinv_step; eauto. eapply m_shapes; eauto.
Qed.
