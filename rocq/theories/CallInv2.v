(** Suspended calls end as the switch that continued them says. *)
From Coq Require Import List Arith Bool Lia.
From Verif Require Import ListUtil Fiber FiberInv FiberInv2 FiberInv3 Micro MicroInv FiberSpec TraceInv CallInv.
Import ListNotations.

Lemma called_ctx n s h w : mreach n s -> called (s_tr s) h w -> exists t to k, In (EvSwitch t (fc_ctx h) h to k) (s_tr s) /\ kindw w k.
Proof.
  intros Hr [t [c [to [k [H1 H2]]]]]. destruct (v_me _ (m_vinv _ _ Hr) _ _ _ _ _ H1) as [E _]. subst c. eauto.
Qed.

Lemma always_neutral (P : event -> list event -> Prop) es tr :
  (forall e old, completes e = None -> P e old) -> forallb (fun e => match completes e with None => true | _ => false end) es = true ->
  always P tr -> always P (es ++ tr).
Proof.
  intros HP Hf Ha. apply always_irr; auto. intros e old Hi. apply HP. rewrite forallb_forall in Hf. apply Hf in Hi.
  destruct (completes e); auto; discriminate.
Qed.

Lemma neutral_rule e old : completes e = None -> completion_rule e old.
Proof. unfold completion_rule. intros ->. exact I. Qed.

(** the completion event of a delivery *)
Lemma dl_events c r fs fs' es : dl c r fs fs' es ->
  exists w rest e res, fs = w :: rest /\ waiting w = true /\ completes e = Some (c, res) /\
    (res = Ret r \/ res = Continues) /\ (res = Continues <-> w = FDtor) /\
    (es = [e] \/ exists o, es = [EvCtor (OnCtx c) o; e]).
Proof.
  destruct 1.
  - exists w, (FU f :: rest), (EvResumed c r), (Ret r). repeat split; auto; try discriminate; eauto.
    + destruct w; try discriminate; reflexivity.
    + intros ->. discriminate.
  - exists FDtor, rest, (EvDestroyed c), Continues. repeat split; auto.
  - exists FEntry1, rest, (EvEnter c r), (Ret r). repeat split; auto; try discriminate; eauto.
Qed.

Lemma always_dl c r fs fs' es tr :
  dl c r fs fs' es -> always completion_rule tr ->
  (forall e w rest res, fs = w :: rest -> waiting w = true -> completes e = Some (c, res) -> (res = Ret r \/ res = Continues) ->
     (res = Continues <-> w = FDtor) -> completion_rule e tr) ->
  always completion_rule (es ++ tr).
Proof.
  intros D Ha H. destruct (dl_events _ _ _ _ _ D) as [w [rest [e [res [E1 [E2 [E3 [E4 [E5 E6]]]]]]]]].
  assert (He : completion_rule e tr) by (eapply H; eauto).
  destruct E6 as [->|[o ->]]; cbn [app].
  - apply always_cons; auto.
  - apply always_cons; split; [apply neutral_rule; reflexivity|]. apply always_cons; auto.
Qed.

Lemma kindw_unwind w k : waiting w = true -> kindw w k -> w = FDtor <-> k = SwUnwind.
Proof. destruct w; try discriminate; destruct k; cbn; try tauto; intros _ _; split; discriminate. Qed.

Lemma open_in tr c h : In h (open_calls tr c) -> exists t to k, In (EvSwitch t c h to k) tr.
Proof.
  assert (Htl : forall (l : list fctx) x, In x (tl l) -> In x l) by (intros [|y l] x; cbn; auto).
  induction tr as [|e tr IH]; cbn [open_calls]; [intros []|].
  assert (Hup : In h (open_calls tr c) -> exists t to k, In (EvSwitch t c h to k) (e :: tr)).
  { intros Hi. destruct (IH Hi) as [t [to [k Hx]]]. exists t, to, k. right. exact Hx. }
  destruct e; auto; try (destruct (Nat.eqb_spec c0 c); auto; fail);
    try (destruct (Nat.eqb_spec c0 c) as [->|]; auto; intros []; fail).
  destruct (Nat.eqb_spec from c) as [->|]; auto. destruct k; try (intros []; fail);
    (intros [<-|Hi]; [eexists _, _, _; left; reflexivity|auto]).
Qed.

Lemma open_ctx n s c h : mreach n s -> In h (open_calls (s_tr s) c) -> fc_ctx h = c.
Proof. intros Hr Hi. apply open_in in Hi. destruct Hi as [t [to [k Hi]]]. apply (v_me _ (m_vinv _ _ Hr)) in Hi. tauto. Qed.

(** the innermost call of a context whose topmost suspended frame is w *)
Lemma open_top n s c w r : mreach n s -> waiting w = true -> rel (s_tr s) (w :: r) (open_calls (s_tr s) c) ->
  exists h o t1 to1 k1, open_calls (s_tr s) c = h :: o /\ In (EvSwitch t1 c h to1 k1) (s_tr s) /\ kindw w k1.
Proof.
  intros Hr Hw Hrel. destruct (rel_wait _ _ _ _ Hw Hrel) as [h [o [E1 [E2 E3]]]].
  apply (called_ctx n) in E2; auto. rewrite (open_ctx n s c h) in E2; auto.
  - destruct E2 as [t1 [to1 [k1 [E4 E5]]]]. exists h, o, t1, to1, k1. auto.
  - rewrite E1. left. reflexivity.
Qed.

Lemma m_completion n s : mreach n s -> always completion_rule (s_tr s).
Proof.
  intros Hr. induction Hr as [|t s s' Hr IH Hs]; [apply always_nil|].
  pose proof (m_cinv _ _ Hr) as [C1 C2 C3]. pose proof (m_shapes _ _ Hr) as Hsh.
  assert (Hcr : forall e tr c res h o k1 t1 to1, completes e = Some (c, res) -> open_calls tr c = h :: o ->
     In (EvSwitch t1 c h to1 k1) tr -> (res = Continues <-> k1 = SwUnwind) ->
     (exists t from me k, In (EvSwitch t from me h k) tr /\ match k with
      | SwCreate => False
      | SwJump => res = Ret (Some me) /\ hd_error tr = Some (EvSwitch t from me h k)
      | SwUnwind => res = Exn (EForced me) /\ hd_error tr = Some (EvSwitch t from me h k)
      | SwExit => (res = Ret None \/ res = Continues) /\ exists a, hd_error tr = Some (EvFree from a c)
      | SwOntop g => (exists r, res = Ret r /\ hd_error tr = Some (EvOntopRet c g r)) \/
                     (exists x, res = Exn x /\ hd_error tr = Some (EvOntopExn c g x))
      end) -> completion_rule e tr).
  { intros e tr c res h o k1 t1 to1 E1 E2 E3 E4 E5. unfold completion_rule. rewrite E1. exists h, o. split; auto. split; eauto. }
  destruct Hs; rewrite Etr.
  - pose proof (C1 _ _ Hc) as Hrel. pose proof (run_shape _ _ (Hsh _ _ Hc) Ht) as [Hwf _].
    remember (cx_frames cx) as fs0 eqn:Efs.
    destruct HL; try (apply always_neutral; [apply neutral_rule|reflexivity|exact IH]).
    + (* ontop raised *) cbn [app]. apply always_cons. split; [|apply always_cons; split; [apply neutral_rule; reflexivity|exact IH]].
      cbn [rel] in Hrel. rewrite Hk in Hrel. destruct Hrel as [[h [o [t1 [fr [me [E1 E2]]]]]] Hrel].
      change (rel (s_tr s) (w :: FU f :: rest) (open_calls (s_tr s) c)) in Hrel.
      assert (Hwt : waiting w = true) by (destruct w; try discriminate; reflexivity).
      destruct (open_top n s c w (FU f :: rest) Hr Hwt Hrel) as [h1 [o1 [t2 [to2 [k2 [F1 [F4 F5]]]]]]].
      rewrite E1 in F1. injection F1 as <- <-.
      eapply (Hcr _ _ c (Exn e) h o k2 t2 to2); eauto.
      * right. exact F4.
      * split; [discriminate|]. intros ->. destruct w; try discriminate; destruct F5.
      * exists t1, fr, me, (SwOntop g). split; [right; auto|]. right. exists e. auto.
    + (* ret_ontop *) rewrite <- app_assoc. eapply always_dl; eauto.
      * apply always_cons; split; [apply neutral_rule; reflexivity|exact IH].
      * intros e w' rest' res E1 E2 E3 E4 E5. injection E1 as <- <-.
        cbn [rel] in Hrel. rewrite Hk in Hrel. destruct Hrel as [[h [o [t1 [fr [me [F1 F2]]]]]] Hrel].
        change (rel (s_tr s) (w :: rest) (open_calls (s_tr s) c)) in Hrel.
        destruct (open_top n s c w rest Hr E2 Hrel) as [h1 [o1 [t2 [to2 [k2 [G1 [G2 G3]]]]]]].
        rewrite F1 in G1. injection G1 as <- <-.
        assert (Hres : res = Ret r). { destruct E4 as [E4|E4]; auto. apply E5 in E4. subst w. discriminate. }
        eapply (Hcr _ _ c res h o k2 t2 to2); eauto.
        -- right. exact G2.
        -- rewrite E5. apply kindw_unwind; auto.
        -- exists t1, fr, me, (SwOntop g). split; [right; auto|]. left. exists r. auto.
  - (* jump *)
    assert (Hne : c <> fc_ctx h) by (intros ->; congruence).
    eapply always_dl; eauto; [apply always_cons; split; [apply neutral_rule; reflexivity|exact IH]|].
    intros e w rest res E1 E2 E3 E4 E5. injection E1 as <- <-.
    pose proof (C1 _ _ Htx) as Hrel. rewrite Htf in Hrel.
    destruct (open_top n s (fc_ctx h) f1 r1 Hr E2 Hrel) as [h1 [o1 [t2 [to2 [k2 [G1 [G2 G3]]]]]]].
    pose proof (C2 _ _ Htx Hts) as Hh. rewrite G1 in Hh. cbn in Hh. injection Hh as ->. rewrite Htv, fctx_eta in *.
    assert (Hres : res = Ret (Some me)).
    { destruct E4 as [E4|E4]; auto. apply E5 in E4. subst f1. inversion HJ; subst; discriminate. }
    eapply (Hcr _ _ (fc_ctx h) res h o1 k2 t2 to2); eauto.
    + cbn [open_calls]. destruct (Nat.eqb_spec c (fc_ctx h)); [congruence|]. exact G1.
    + right. exact G2.
    + rewrite E5. apply kindw_unwind; auto.
    + exists t, c, me, SwJump. split; [left; auto|]. auto.
  - apply always_neutral; [apply neutral_rule|reflexivity|]. apply always_cons; split; [apply neutral_rule; reflexivity|exact IH].
  - (* unwind *)
    assert (Hne : c <> fc_ctx h) by (intros ->; congruence).
    assert (Ha : always completion_rule (EvSwitch t c me h SwUnwind :: s_tr s)) by (apply always_cons; split; [apply neutral_rule; reflexivity|exact IH]).
    apply always_cons. split; [|exact Ha].
    pose proof (C1 _ _ Htx) as Hrel. pose proof (C2 _ _ Htx Hts) as Hh.
    remember (cx_frames tx) as fs0 eqn:Efs. destruct HR; [|apply neutral_rule; reflexivity].
    assert (Hwt : waiting w = true) by (destruct w; try discriminate; reflexivity).
    destruct (open_top n s (fc_ctx h) w _ Hr Hwt Hrel) as [h1 [o1 [t2 [to2 [k2 [G1 [G2 G3]]]]]]].
    rewrite G1 in Hh. cbn in Hh. injection Hh as ->. rewrite Htv, fctx_eta in *.
    eapply (Hcr _ _ (fc_ctx h) (Exn (EForced me)) h o1 k2 t2 to2); eauto.
    + cbn [open_calls]. destruct (Nat.eqb_spec c (fc_ctx h)); [congruence|]. exact G1.
    + right. exact G2.
    + split; [discriminate|]. intros ->. destruct w; try discriminate; destruct G3.
    + exists t, c, me, SwUnwind. split; [left; auto|]. auto.
  - apply always_cons; split; [apply neutral_rule; reflexivity|exact IH].
  - apply always_cons; split; [apply neutral_rule; reflexivity|exact IH].
  - apply always_cons; split; [apply neutral_rule; reflexivity|]. apply always_neutral; [apply neutral_rule| |exact IH].
    unfold es. rewrite forallb_app. cbn. rewrite andb_true_r. clear. induction caps; cbn; auto.
  - apply always_cons; split; [apply neutral_rule; reflexivity|exact IH].
  - (* free *)
    eapply always_dl; eauto; [do 2 (apply always_cons; split; [apply neutral_rule; reflexivity|]); exact IH|].
    intros e w rest' res E1 E2 E3 E4 E5. subst rest.
    pose proof (C1 _ _ Hc) as Hrel. rewrite Hcf in Hrel. destruct Hrel as [[h [o [t1 [m1 [F1 F2]]]]] Hrel].
    destruct (open_top n s c w rest' Hr E2 Hrel) as [h1 [o1 [t2 [to2 [k2 [G1 [G2 G3]]]]]]].
    rewrite F1 in G1. injection G1 as <- <-.
    eapply (Hcr _ _ c res h o k2 t2 to2); eauto.
    + do 2 right. exact G2.
    + rewrite E5. apply kindw_unwind; auto.
    + exists t1, d, m1, SwExit. split; [do 2 right; auto|]. split; auto. exists a. reflexivity.
Qed.
