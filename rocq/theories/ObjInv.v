(** Objects in the history and in the state. *)
From Coq Require Import List Arith Bool Lia.
From Verif Require Import ListUtil Fiber FiberInv FiberInv2 FiberInv3 Micro MicroInv FiberSpec TraceInv CallInv CallInv2 StackInv.
Import ListNotations.

Definition fobjs (f : frame) : list obj := match f with FU u => uf_objs u | _ => [] end.
Definition objs (cx : ctx) : list obj := flat_map fobjs (cx_frames cx) ++ cx_caps cx.

(** constructed once; destroyed on a stack in reverse order; none left when the stack is freed *)
Definition base_rule (e : event) (old : list event) : Prop :=
  match e with
  | EvCtor p o => forall p', ~ In (EvCtor p' o) old
  | EvDtor (OnCtx c) o => hd_error (stack_objs old c) = Some o
  | EvFree c _ _ => stack_objs old c = []
  | _ => True
  end.

Record OInv (s : state) : Prop := mk_oinv {
  o_objs : forall c cx, nth_error (s_ctxs s) c = Some cx -> stack_objs (s_tr s) c = objs cx;
  o_none : forall c, length (s_ctxs s) <= c -> stack_objs (s_tr s) c = [];
  o_old : forall p o, In (EvCtor p o) (s_tr s) -> old_obj (length (s_vars s)) (s_nusr s) o }.

Lemma sobj_about c c' es tr : about c es -> c' <> c -> stack_objs (es ++ tr) c' = stack_objs tr c'.
Proof.
  intros H N. induction es as [|e es IH]; [reflexivity|]. cbn [app].
  assert (IH' : stack_objs (es ++ tr) c' = stack_objs tr c') by (apply IH; intros x y Hx; apply H; right; exact Hx).
  destruct e; cbn [stack_objs]; auto; destruct p as [c0|]; auto; destruct (Nat.eqb_spec c0 c'); auto;
    exfalso; apply N; apply (H _ c' (or_introl eq_refl)); cbn; auto.
Qed.

Definition no_obj (es : list event) : Prop := forall e, In e es -> match e with EvCtor _ _ | EvDtor _ _ => False | _ => True end.
Lemma sobj_no c es tr : no_obj es -> stack_objs (es ++ tr) c = stack_objs tr c.
Proof.
  intros H. induction es as [|e es IH]; [reflexivity|]. cbn [app].
  assert (IH' : stack_objs (es ++ tr) c = stack_objs tr c) by (apply IH; intros x Hx; apply H; right; exact Hx).
  pose proof (H e (or_introl eq_refl)) as H0. destruct e; cbn [stack_objs]; auto; destruct H0.
Qed.

Lemma sobj_ctors c l tr : stack_objs (map (EvCtor (OnCtx c)) l ++ tr) c = l ++ stack_objs tr c.
Proof. induction l as [|o l IH]; cbn; [reflexivity|]. now rewrite Nat.eqb_refl, IH. Qed.

Lemma dl_objs c r fs fs' es tr caps : dl c r fs fs' es -> stack_objs tr c = flat_map fobjs fs ++ caps ->
  stack_objs (es ++ tr) c = flat_map fobjs fs' ++ caps.
Proof.
  intros D H. destruct D; cbn [app stack_objs]; rewrite ?Nat.eqb_refl, H; cbn [flat_map fobjs uf_objs set_objs app]; auto.
  destruct w; try discriminate; reflexivity.
Qed.

Lemma lrule_objs c tr fs fs' es caps main : wfs main fs -> lrule c tr fs fs' es -> stack_objs tr c = flat_map fobjs fs ++ caps ->
  stack_objs (es ++ tr) c = flat_map fobjs fs' ++ caps.
Proof.
  intros Hwf L H. destruct L; try (destruct Hl as [_ [Hl _]]; cbn [flat_map fobjs] in H; rewrite Hl in H);
    try (cbn [app stack_objs]; rewrite ?Nat.eqb_refl, H; cbn [flat_map fobjs set_mode set_caught set_objs uf_objs app]; auto; fail).
  - cbn [app stack_objs]. rewrite H. cbn. destruct w; try discriminate; reflexivity.
  - rewrite <- app_assoc. eapply dl_objs; eauto.
  - cbn [app stack_objs]. rewrite Nat.eqb_refl, H. cbn. rewrite Ho. reflexivity.
Qed.

(** freshness *)
Lemma ctors_in es o : (exists p, In (EvCtor p o) es) <-> In o (ctors es).
Proof.
  induction es as [|e es IH]; cbn.
  - split; [intros [p []]|intros []].
  - assert (IHr : (exists p, e = EvCtor p o \/ In (EvCtor p o) es) <-> (exists p, e = EvCtor p o) \/ In o (ctors es)).
    { rewrite <- IH. split; [intros [p [H|H]]; [left|right]; eauto|intros [[p H]|[p H]]; exists p; auto]. }
    rewrite IHr. destruct e; cbn; try (split; [intros [[p' E]|H]; [discriminate|auto]|auto]; fail).
    split; [intros [[p' E]|H]; [injection E; auto|auto]|intros [->|H]; [left; eauto|auto]].
Qed.

Lemma ctors_app a b : ctors (a ++ b) = ctors a ++ ctors b.
Proof. induction a as [|e a IH]; cbn; auto. destruct e; auto. cbn. now f_equal. Qed.

Lemma old_mono a b a' b' o : a <= a' -> b <= b' -> old_obj a b o -> old_obj a' b' o.
Proof. destruct o; cbn; lia. Qed.

Lemma old_fresh a b o : old_obj a b o -> fresh_obj a b o -> False.
Proof. destruct o; cbn; lia. Qed.

(** events between which only fresh objects are constructed *)
Lemma old_step s s' es1 es : OInv s -> s_tr s' = es1 ++ s_tr s -> ctors es1 = ctors es -> fresh_ok s s' es ->
  forall p o, In (EvCtor p o) (s_tr s') -> old_obj (length (s_vars s')) (s_nusr s') o.
Proof.
  intros O E Ec [F1 [F2 [F3 F4]]] p o Hi. rewrite E in Hi. apply in_app_or in Hi. destruct Hi as [Hi|Hi].
  - apply F4. rewrite <- Ec. apply ctors_in. eauto.
  - eapply old_mono; eauto. eapply o_old; eauto.
Qed.

Lemma base_ctors s s' es : OInv s -> fresh_ok s s' es -> forall es1 p o es2, es = es1 ++ EvCtor p o :: es2 ->
  forall p', ~ In (EvCtor p' o) (es2 ++ s_tr s).
Proof.
  intros O [F1 [F2 [F3 F4]]] es1 p o es2 E p' Hi. rewrite E, ctors_app in F3. cbn in F3.
  apply NoDup_remove_2 in F3. apply in_app_or in Hi. destruct Hi as [Hi|Hi].
  - apply F3. apply in_or_app. right. apply ctors_in. eauto.
  - eapply old_fresh; [eapply o_old; eauto|]. apply F4. rewrite E, ctors_app. apply in_or_app. right. left. reflexivity.
Qed.

Lemma fresh_base s s' es tr0 : OInv s -> fresh_ok s s' es -> always base_rule tr0 ->
  (forall p o, In (EvCtor p o) tr0 -> In (EvCtor p o) (s_tr s)) ->
  (forall es1 e es2, es = es1 ++ e :: es2 -> match e with EvCtor _ _ => True | _ => base_rule e (es2 ++ tr0) end) ->
  always base_rule (es ++ tr0).
Proof.
  intros O F Ha Hc H. apply always_ext; auto. intros es1 e es2 E. specialize (H es1 e es2 E).
  destruct e; auto. cbn. intros p' Hi. apply in_app_or in Hi.
  eapply (base_ctors s s' es O F); [exact E|]. apply in_or_app. destruct Hi as [Hi|Hi]; [left; exact Hi|right; eauto].
Qed.

Lemma evs_split {A} (es : list A) (P : A -> list A -> Prop) :
  match es with [] => True | [a] => P a [] | [a; b] => P a [b] /\ P b [] | _ => True end ->
  length es <= 2 -> forall es1 e es2, es = es1 ++ e :: es2 -> P e es2.
Proof.
  destruct es as [|a [|b [|c es]]]; cbn; try lia; intros H _ es1 e es2 E.
  - destruct es1; discriminate.
  - destruct es1 as [|x [|y es1]]; cbn in E; try discriminate. injection E as <- <-. exact H.
  - destruct es1 as [|x [|y [|z es1]]]; cbn in E; try discriminate; injection E; intros; subst; tauto.
Qed.

Lemma no_obj_base es tr : no_obj es -> (forall c a on, ~ In (EvFree c a on) es) -> always base_rule tr -> always base_rule (es ++ tr).
Proof.
  intros H Hf Ha. apply always_irr; auto. intros e old Hi. pose proof (H e Hi) as H0. destruct e; cbn; auto; try destruct H0.
  exfalso. eapply Hf; eauto.
Qed.

Lemma dl_base s s' c r fs fs' es tr0 : OInv s -> fresh_ok s s' es -> dl c r fs fs' es -> always base_rule tr0 ->
  (forall p o, In (EvCtor p o) tr0 -> In (EvCtor p o) (s_tr s)) -> always base_rule (es ++ tr0).
Proof.
  intros O F D Ha Hc. eapply fresh_base; eauto. destruct D; apply (evs_split _ (fun e es2 => match e with EvCtor _ _ => True | _ => base_rule e (es2 ++ tr0) end)); cbn; auto.
Qed.

Lemma objs_caps cx fs : objs (set_frames cx fs) = flat_map fobjs fs ++ cx_caps cx.
Proof. reflexivity. Qed.

Lemma obj_step t s s' : shapes s -> OInv s -> always base_rule (s_tr s) -> mstep t s s' -> OInv s' /\ always base_rule (s_tr s').
Proof.
  intros Hsh O Ha Hs. pose proof O as [I1 I2 I3].
  assert (Hlt : forall c cx, nth_error (s_ctxs s) c = Some cx -> c < length (s_ctxs s)) by (intros; eapply nth_some_lt; eauto).
  assert (Hid : forall p o, In (EvCtor p o) (s_tr s) -> In (EvCtor p o) (s_tr s)) by auto.
  destruct Hs.
  - (* local *)
    pose proof (lrule_about _ _ _ _ _ HL) as Hab. pose proof (run_shape _ _ (Hsh _ _ Hc) Ht) as [Hw _].
    pose proof (I1 _ _ Hc) as Hoc. unfold objs in Hoc. split.
    + constructor; [intros c' cx'|intros c'|eapply old_step; eauto]; rewrite Etr, Ectx.
      * intros Hn. apply nth_upd_inv in Hn. destruct Hn as [[-> [-> _]]|[N Hn]].
        -- rewrite objs_caps. eapply lrule_objs; eauto.
        -- rewrite (sobj_about c) by auto. auto.
      * rewrite upd_length. intros Hl. specialize (Hlt _ _ Hc). rewrite (sobj_about c) by (auto; lia). auto.
    + rewrite Etr. eapply fresh_base; eauto.
      remember (cx_frames cx) as fs0 eqn:Efs.
      destruct HL; try (apply (evs_split _ (fun e es2 => match e with EvCtor _ _ => True | _ => base_rule e (es2 ++ s_tr s) end)); cbn; auto; fail).
      * intros es1 e es2 E. destruct (dl_events _ _ _ _ _ HD) as [w' [rest' [e' [res [_ [_ [Ec [_ [_ E6]]]]]]]]].
        assert (Hi : In e (es ++ [EvOntopRet c g r])) by (rewrite E; apply in_or_app; right; left; reflexivity).
        destruct HD; cbn in Hi; intuition (subst; cbn; auto).
      * apply (evs_split _ (fun e es2 => match e with EvCtor _ _ => True | _ => base_rule e (es2 ++ s_tr s) end)); cbn; auto.
        rewrite Hoc. cbn. rewrite Ho. reflexivity.
  - (* jump *)
    pose proof (dl_about _ _ _ _ _ HD) as Hab. assert (Hne : c <> fc_ctx h) by (intros ->; congruence).
    set (sw := EvSwitch t c me h SwJump) in *.
    assert (On : forall c', stack_objs (sw :: s_tr s) c' = stack_objs (s_tr s) c') by reflexivity.
    pose proof (I1 _ _ Hc) as Hoc. pose proof (I1 _ _ Htx) as Hot. unfold objs in Hoc, Hot. rewrite Htf in Hot. split.
    + constructor; [intros c' cx'|intros c'|eapply (old_step s s' (es ++ [sw]) es); eauto; [rewrite <- app_assoc; exact Etr|rewrite ctors_app; cbn; apply app_nil_r]]; rewrite Etr, Ectx.
      * intros Hn. apply nth_upd2_inv in Hn. destruct Hn as [[-> ->]|[[N [-> ->]]|[N1 [N2 Hn]]]].
        -- unfold objs; cbn [cx_frames cx_caps]. eapply dl_objs; eauto.
        -- rewrite (sobj_about (fc_ctx h)) by auto. rewrite On. unfold objs; cbn [cx_frames cx_caps]. rewrite Hoc.
           inversion HJ; subst; reflexivity.
        -- rewrite (sobj_about (fc_ctx h)) by auto. rewrite On. auto.
      * rewrite !upd_length. intros Hl. pose proof (Hlt _ _ Htx).
        rewrite (sobj_about (fc_ctx h)) by (auto; lia). rewrite On. auto.
    + rewrite Etr. eapply dl_base; eauto.
      * apply always_cons; split; [exact Logic.I|exact Ha].
      * intros p o [E|Hi]; [discriminate|exact Hi].
  - (* ontop *)
    assert (Hne : c <> fc_ctx h) by (intros ->; congruence).
    set (sw := EvSwitch t c me h (SwOntop g)) in *.
    assert (Hab : about (fc_ctx h) es) by (intros e c' Hi Hv; unfold es in Hi; cbn in Hi; intuition (subst; cbn in Hv; auto)).
    assert (On : forall c', stack_objs (sw :: s_tr s) c' = stack_objs (s_tr s) c') by reflexivity.
    pose proof (I1 _ _ Hc) as Hoc. pose proof (I1 _ _ Htx) as Hot. unfold objs in Hoc, Hot. rewrite Htf in Hot. rewrite Hcf in Hoc. split.
    + constructor; [intros c' cx'|intros c'|eapply (old_step s s' (es ++ [sw]) es); eauto]; rewrite Etr, Ectx.
      * intros Hn. apply nth_upd2_inv in Hn. destruct Hn as [[-> ->]|[[N [-> ->]]|[N1 [N2 Hn]]]].
        -- unfold objs, es; cbn [cx_frames cx_caps app stack_objs]. rewrite Nat.eqb_refl, Hot. reflexivity.
        -- rewrite (sobj_about (fc_ctx h)) by auto. rewrite On. unfold objs; cbn [cx_frames cx_caps]. rewrite Hoc. reflexivity.
        -- rewrite (sobj_about (fc_ctx h)) by auto. rewrite On. auto.
      * rewrite !upd_length. intros Hl. pose proof (Hlt _ _ Htx).
        rewrite (sobj_about (fc_ctx h)) by (auto; lia). rewrite On. auto.
    + rewrite Etr. eapply fresh_base; eauto.
      * apply always_cons; split; [exact Logic.I|exact Ha].
      * intros p o [E|Hi]; [discriminate|exact Hi].
      * apply (evs_split _ (fun e es2 => match e with EvCtor _ _ => True | _ => base_rule e (es2 ++ sw :: s_tr s) end)); cbn; auto.
  - (* unwind *)
    assert (Hne : c <> fc_ctx h) by (intros ->; congruence).
    assert (Hno : no_obj [ev; EvSwitch t c me h SwUnwind]) by (intros e Hi; cbn in Hi; destruct HR; intuition (subst; cbn; auto)).
    assert (On : forall c', stack_objs (s_tr s') c' = stack_objs (s_tr s) c').
    { intros c'. rewrite Etr. apply (sobj_no c' [ev; EvSwitch t c me h SwUnwind]). exact Hno. }
    pose proof (I1 _ _ Hc) as Hoc. pose proof (I1 _ _ Htx) as Hot. unfold objs in Hoc, Hot. split.
    + constructor; [intros c' cx'|intros c'|].
      * rewrite On, Ectx. intros Hn. apply nth_upd2_inv in Hn. destruct Hn as [[-> ->]|[[N [-> ->]]|[N1 [N2 Hn]]]].
        -- unfold objs; cbn [cx_frames cx_caps]. rewrite Hot. destruct HR.
           ++ cbn. destruct w; try discriminate; reflexivity.
           ++ reflexivity.
        -- rewrite Hoc. reflexivity.
        -- auto.
      * rewrite On, Ectx, !upd_length. auto.
      * intros p o. rewrite Etr, Evar, Eusr. intros [E|[E|Hi]]; [destruct HR; discriminate|discriminate|eauto].
    + rewrite Etr. apply (no_obj_base [ev; EvSwitch t c me h SwUnwind]); auto.
      intros c0 a0 on0 [E|[E|[]]]; [destruct HR; discriminate|discriminate].
  - (* ret_fn *)
    pose proof (I1 _ _ Hc) as Hoc. unfold objs in Hoc. rewrite Hcf in Hoc. destruct Hl as [_ [Hl _]]. split.
    + constructor; [intros c' cx'|intros c'|]; rewrite Etr; cbn [stack_objs].
      * rewrite Ectx. intros Hn. apply nth_upd_inv in Hn. destruct Hn as [[-> [-> _]]|[N Hn]]; auto.
        rewrite objs_caps, Hoc. cbn. rewrite Hl. reflexivity.
      * rewrite Ectx, upd_length. auto.
      * rewrite Evar, Eusr. intros p o [E|Hi]; [discriminate|eauto].
    + rewrite Etr. apply always_cons; split; [exact Logic.I|exact Ha].
  - (* exit *)
    pose proof (I1 _ _ Hc) as Hoc. pose proof (I1 _ _ Htx) as Hot. unfold objs in Hoc, Hot. rewrite Hcf in Hoc. split.
    + constructor; [intros c' cx'|intros c'|]; rewrite Etr; cbn [stack_objs].
      * rewrite Ectx. intros Hn. apply nth_upd2_inv in Hn. destruct Hn as [[-> ->]|[[N [-> ->]]|[N1 [N2 Hn]]]]; auto.
      * rewrite Ectx, !upd_length. auto.
      * rewrite Evar, Eusr. intros p o [E|Hi]; [discriminate|eauto].
    + rewrite Etr. apply always_cons; split; [exact Logic.I|exact Ha].
  - (* create *)
    specialize (Hlt _ _ Hc) as Hlc. pose proof (I1 _ _ Hc) as Hoc. unfold objs in Hoc. rewrite Hcf in Hoc.
    assert (Hab : about d es).
    { intros e c' Hi Hv. unfold es in Hi. apply in_app_or in Hi. destruct Hi as [Hi|[<-|[]]]; [|cbn in Hv; auto].
      apply in_map_iff in Hi. destruct Hi as [o [<- _]]. cbn in Hv; auto. }
    split.
    + constructor; [intros c' cx'|intros c'|].
      * rewrite Etr, Ectx. cbn [stack_objs]. intros Hn. apply nth_app_cases in Hn. destruct Hn as [[_ Hn]|[E ->]].
        -- rewrite (sobj_about d); auto.
           ++ apply nth_upd_inv in Hn. destruct Hn as [[-> [-> _]]|[N Hn]]; auto.
           ++ apply nth_some_lt in Hn. rewrite upd_length in Hn. unfold d; lia.
        -- rewrite upd_length in E. subst c'. fold d. unfold es. rewrite <- app_assoc, sobj_ctors. cbn [app stack_objs].
           rewrite I2 by (unfold d; lia). rewrite app_nil_r. reflexivity.
      * rewrite Etr, Ectx, app_length, upd_length. cbn [length stack_objs]. intros Hl. rewrite (sobj_about d) by (auto; unfold d; lia). apply I2. lia.
      * eapply (old_step s s' (EvSwitch t c me (mk_fc d 0) SwCreate :: es) es); eauto.
    + rewrite Etr. apply always_cons; split; [exact Logic.I|]. eapply fresh_base; eauto.
      intros es1 e es2 E. assert (Hi : In e es) by (rewrite E; apply in_or_app; right; left; reflexivity).
      unfold es in Hi. apply in_app_or in Hi. destruct Hi as [Hi|[<-|[]]]; [|exact Logic.I].
      apply in_map_iff in Hi. destruct Hi as [o [<- _]]. exact Logic.I.
  - (* cap *)
    pose proof (I1 _ _ Hdx) as Hod. unfold objs in Hod. rewrite Hdc in Hod.
    assert (Hfd : cx_frames dx = []). { pose proof (Hsh _ _ Hdx) as X. unfold shape in X. rewrite Hds in X. tauto. }
    rewrite Hfd in Hod. cbn in Hod. split.
    + constructor; [intros c' cx'|intros c'|]; rewrite Etr; cbn [stack_objs].
      * rewrite Ectx. intros Hn. apply nth_upd_inv in Hn. destruct Hn as [[-> [-> _]]|[N Hn]].
        -- rewrite Nat.eqb_refl, Hod. unfold objs. cbn. rewrite Hfd. reflexivity.
        -- destruct (Nat.eqb_spec d c'); [congruence|]. auto.
      * rewrite Ectx, upd_length. intros Hl. pose proof (Hlt _ _ Hdx). destruct (Nat.eqb_spec d c'); [lia|]. auto.
      * rewrite Evar, Eusr. intros p o0 [E|Hi]; [discriminate|eauto].
    + rewrite Etr. apply always_cons; split; [|exact Ha]. cbn. rewrite Hod. reflexivity.
  - (* free *)
    assert (Hne : d <> c) by (intros ->; congruence).
    pose proof (dl_about _ _ _ _ _ HD) as Hab.
    pose proof (I1 _ _ Hc) as Hoc. pose proof (I1 _ _ Hdx) as Hod. unfold objs in Hoc, Hod. rewrite Hcf in Hoc. rewrite Hdc in Hod.
    assert (Hfd : cx_frames dx = []). { pose proof (Hsh _ _ Hdx) as X. unfold shape in X. rewrite Hds in X. tauto. }
    rewrite Hfd in Hod. cbn in Hod.
    assert (On : forall c', stack_objs (EvFree d a c :: EvRecord d :: s_tr s) c' = stack_objs (s_tr s) c') by reflexivity.
    split.
    + constructor; [intros c' cx'|intros c'|].
      * rewrite Etr, Ectx. intros Hn. apply nth_upd2_inv in Hn. destruct Hn as [[-> ->]|[[N [-> ->]]|[N1 [N2 Hn]]]].
        -- rewrite objs_caps. eapply dl_objs; eauto.
        -- rewrite (sobj_about c) by auto. rewrite On, Hod. reflexivity.
        -- rewrite (sobj_about c) by auto. rewrite On. auto.
      * rewrite Etr, Ectx, !upd_length. intros Hl. pose proof (Hlt _ _ Hc). rewrite (sobj_about c) by (auto; lia). rewrite On. auto.
      * eapply (old_step s s' (es ++ [EvFree d a c; EvRecord d]) es); eauto; [rewrite <- app_assoc; exact Etr|rewrite ctors_app; cbn; apply app_nil_r].
    + rewrite Etr. eapply dl_base; eauto.
      * apply always_cons; split; [cbn; exact Hod|]. apply always_cons; split; [exact Logic.I|exact Ha].
      * intros p o [E|[E|Hi]]; [discriminate|discriminate|exact Hi].
Qed.

Lemma m_obj n s : mreach n s -> OInv s /\ always base_rule (s_tr s).
Proof.
  induction 1 as [|t s s' Hr IH Hs].
  - split; [|apply always_nil]. constructor.
    + intros c cx H. apply init_nth in H. destruct H as [t ->]. reflexivity.
    + reflexivity.
    + intros p o [].
  - destruct IH. eapply obj_step; eauto. eapply m_shapes; eauto.
Qed.

(* ------------------------------------------------------------------ consequences on histories *)

Lemma base_trace tr : always base_rule tr ->
  (forall p p' o, In (EvCtor p o) tr -> In (EvCtor p' o) tr -> p = p') /\
  (forall c, NoDup (stack_objs tr c)) /\
  (forall c o, In o (stack_objs tr c) -> In (EvCtor (OnCtx c) o) tr /\ forall c', ~ In (EvDtor (OnCtx c') o) tr) /\
  (forall c o, In (EvDtor (OnCtx c) o) tr -> In (EvCtor (OnCtx c) o) tr) /\
  (forall c o, In (EvCtor (OnCtx c) o) tr -> In o (stack_objs tr c) \/ In (EvDtor (OnCtx c) o) tr).
Proof.
  induction tr as [|e tr IH]; intros Ha.
  - repeat split; try (intros; exact False_rect); cbn; try tauto; constructor.
  - apply always_cons in Ha. destruct Ha as [He Ha]. destruct (IH Ha) as [T0 [T1 [T2 [T3 T4]]]].
    assert (N : (match e with EvCtor _ _ | EvDtor (OnCtx _) _ => False | _ => True end) ->
      (forall p p' o, In (EvCtor p o) (e :: tr) -> In (EvCtor p' o) (e :: tr) -> p = p') /\
      (forall c, NoDup (stack_objs (e :: tr) c)) /\
      (forall c o, In o (stack_objs (e :: tr) c) -> In (EvCtor (OnCtx c) o) (e :: tr) /\ forall c', ~ In (EvDtor (OnCtx c') o) (e :: tr)) /\
      (forall c o, In (EvDtor (OnCtx c) o) (e :: tr) -> In (EvCtor (OnCtx c) o) (e :: tr)) /\
      (forall c o, In (EvCtor (OnCtx c) o) (e :: tr) -> In o (stack_objs (e :: tr) c) \/ In (EvDtor (OnCtx c) o) (e :: tr))).
    { intros Hn. assert (S : forall c, stack_objs (e :: tr) c = stack_objs tr c) by (intros; destruct e as [| | | | | | | | | | | | |p o|p o]; try reflexivity; destruct Hn || (destruct p; [destruct Hn|reflexivity])).
      repeat split.
      - intros p p' o [E|H1] [E2|H2]; eauto; subst; destruct Hn.
      - intros c. rewrite S. auto.
      - rewrite S in H. right. apply T2; auto.
      - rewrite S in H. intros c' [E|Hi]; [subst; destruct Hn|]. eapply T2; eauto.
      - intros c o [E|Hi]; [subst; destruct Hn|]. right; auto.
      - intros c o [E|Hi]; [subst; destruct Hn|]. rewrite S. apply T4 in Hi. destruct Hi; auto. right; right; auto. }
    destruct e as [| | | | | | | | | | | | |p o|p o]; try (apply N; exact I).
    + clear N. cbn in He.
      assert (Hnd : forall c', ~ In (EvDtor (OnCtx c') o) tr) by (intros c' Hi; eapply He; eapply T3; eauto).
      assert (Hns : forall c', ~ In o (stack_objs tr c')) by (intros c' Hi; eapply He; eapply T2; eauto).
      assert (S : forall c, stack_objs (EvCtor p o :: tr) c = match p with OnCtx c' => if Nat.eqb c' c then o :: stack_objs tr c else stack_objs tr c | _ => stack_objs tr c end).
      { intros c. cbn. destruct p; reflexivity. }
      assert (S2 : forall c x, In x (stack_objs (EvCtor p o :: tr) c) <-> (x = o /\ p = OnCtx c) \/ In x (stack_objs tr c)).
      { intros c x. rewrite S. destruct p as [c'|].
        - destruct (Nat.eqb_spec c' c) as [->|N]; cbn; [intuition|]. intuition congruence.
        - intuition discriminate. }
      repeat split.
      * intros p1 p2 x [E|H1] [E2|H2]; eauto.
        -- congruence.
        -- injection E as <- <-. exfalso. eapply He; eauto.
        -- injection E2 as <- <-. exfalso. eapply He; eauto.
      * intros c. rewrite S. destruct p as [c'|]; auto. destruct (Nat.eqb_spec c' c); auto. constructor; auto.
      * apply S2 in H. destruct H as [[-> ->]|H]; [left; reflexivity|right; apply T2; auto].
      * apply S2 in H. intros c' [E|Hi]; [discriminate|]. destruct H as [[-> ->]|H]; [eapply Hnd; eauto|eapply T2; eauto].
      * intros c x [E|Hi]; [discriminate|right; auto].
      * intros c x [E|Hi].
        -- injection E as -> ->. left. apply S2. auto.
        -- apply T4 in Hi. destruct Hi as [Hi|Hi]; [left; apply S2; auto|right; right; auto].
    + destruct p as [c0|]; [|apply N; exact I]. clear N. cbn in He.
      destruct (stack_objs tr c0) as [|o1 l] eqn:El; [discriminate|]. cbn in He. injection He as ->.
      assert (S : forall c, stack_objs (EvDtor (OnCtx c0) o :: tr) c = if Nat.eqb c0 c then l else stack_objs tr c).
      { intros c. cbn. destruct (Nat.eqb_spec c0 c) as [<-|]; [rewrite El|]; reflexivity. }
      assert (Hin : In o (stack_objs tr c0)) by (rewrite El; left; reflexivity).
      assert (Hnl : ~ In o l) by (specialize (T1 c0); rewrite El in T1; inversion T1; auto).
      assert (Sub : forall c x, In x (stack_objs (EvDtor (OnCtx c0) o :: tr) c) -> In x (stack_objs tr c) /\ x <> o).
      { intros c x. rewrite S. destruct (Nat.eqb_spec c0 c) as [<-|N]; intros Hi.
        - split; [rewrite El; right; auto|intros ->; auto].
        - split; auto. intros ->. apply N. destruct (T2 c o Hi) as [C1 _]. destruct (T2 c0 o Hin) as [C2 _].
          specialize (T0 _ _ _ C1 C2). congruence. }
      repeat split.
      * intros p1 p2 x [E|H1] [E2|H2]; try discriminate; eauto.
      * intros c. rewrite S. destruct (Nat.eqb_spec c0 c) as [<-|]; auto. specialize (T1 c0). rewrite El in T1. inversion T1; auto.
      * apply Sub in H. right. apply T2. tauto.
      * apply Sub in H. destruct H as [H1 H2]. intros c' [E|Hi]; [injection E; congruence|]. eapply T2; eauto.
      * intros c x [E|Hi]; [injection E as <- <-; right; apply T2; auto|right; auto].
      * intros c x [E|Hi]; [discriminate|]. apply T4 in Hi. destruct Hi as [Hi|Hi]; [|right; right; auto].
        rewrite S. destruct (Nat.eqb_spec c0 c) as [<-|]; auto. rewrite El in Hi. destruct Hi as [->|Hi]; auto. right; left; reflexivity.
Qed.
