(** Rules of histories: next events, injected functions, life of context-functions, exceptions, threads. *)
From Coq Require Import List Arith Bool Lia.
From Verif Require Import ListUtil Fiber FiberInv FiberInv2 FiberInv3 Micro MicroInv FiberSpec TraceInv CallInv CallInv2 StackInv ObjInv ExnInv.
Import ListNotations.

(** the kinds of micro-steps, for rules about single events: events before the switch, the switch,
    events after it *)
Lemma always_one (P : event -> list event -> Prop) e tr : always P tr -> P e tr -> always P (e :: tr).
Proof. intros H1 H2. apply always_cons; auto. Qed.

(* ------------------------------------------------------------------ next_rule *)

Definition pend (e : event) : bool :=
  match e with EvSwitch _ _ _ _ (SwJump | SwUnwind | SwOntop _) | EvOntopRet _ _ _ | EvOntopExn _ _ _ | EvRecord _ | EvFree _ _ _ => true | _ => false end.
Lemma settled_pend tr : settled tr <-> match tr with e :: _ => pend e = false | [] => True end.
Proof. destruct tr as [|[| | |? ? ? ? []| | | | | | | | | | |] tr]; cbn; intuition; discriminate. Qed.

Lemma next_settled e tr : settled tr -> next_rule e tr.
Proof. unfold next_rule. destruct tr as [|[| | |? ? ? ? []| | | | | | | | | | |] tr]; cbn; tauto. Qed.

Lemma next_ext es tr : always next_rule tr -> settled tr -> (forall e, In e es -> pend e = false) ->
  always next_rule (es ++ tr) /\ settled (es ++ tr).
Proof.
  intros Ha Hs H. induction es as [|e es IH]; cbn [app]; auto. destruct IH as [I1 I2]; [intros; apply H; right; auto|].
  split; [apply always_one; auto; apply next_settled; auto|]. apply settled_pend. apply H. left; reflexivity.
Qed.

Lemma dl_next c r fs fs' es tr : dl c r fs fs' es -> always next_rule tr ->
  (forall e, (exists w rest, fs = w :: rest /\ match w with FDtor => e = EvDestroyed c | FEntry1 => e = EvEnter c r | _ => e = EvResumed c r end) -> next_rule e tr) ->
  always next_rule (es ++ tr) /\ settled (es ++ tr).
Proof.
  intros D Ha H. destruct D.
  - apply (next_ext [_] (EvResumed c r :: tr)).
    + apply always_one; auto. apply H. exists w, (FU f :: rest). split; auto. destruct w; try discriminate; reflexivity.
    + exact I.
    + intros e [<-|[]]. reflexivity.
  - split; [|exact I]. apply always_one; auto. apply H. exists FDtor, rest. auto.
  - apply (next_ext [_] (EvEnter c r :: tr)).
    + apply always_one; auto. apply H. exists FEntry1, rest. auto.
    + exact I.
    + intros e [<-|[]]. reflexivity.
Qed.

Lemma m_next n s : mreach n s -> always next_rule (s_tr s) /\ settled (s_tr s).
Proof.
  intros Hr. induction Hr as [|t s s' Hr IH Hs]; [split; [apply always_nil|exact I]|].
  destruct IH as [Ha Hse]. destruct Hs; rewrite Etr.
  - destruct HL; try (apply next_ext; auto; intros e0 Hi; cbn in Hi; intuition (subst; auto); fail).
    + cbn [app]. split; [|exact I]. repeat apply always_one; auto; [apply next_settled; auto|]. cbn. auto.
    + cbn [app]. split; [|exact I]. repeat apply always_one; auto; [apply next_settled; auto|]. cbn. right. exists h. auto.
    + rewrite <- app_assoc. cbn [app]. eapply dl_next; eauto.
      * apply always_one; auto. apply next_settled; auto.
      * intros e [w' [rest' [E He]]]. injection E as <- <-. cbn. destruct w; try discriminate; auto.
  - eapply dl_next; eauto.
    + apply always_one; auto. apply next_settled; auto.
    + intros e [w [rest [E He]]]. injection E as <- <-. cbn.
      assert (Hd : f1 <> FDtor) by (intros ->; inversion HJ; discriminate).
      destruct f1; auto. congruence.
  - unfold es. cbn [app]. split; [|exact I]. repeat apply always_one; auto.
    + apply next_settled; auto.
    + cbn. reflexivity.
    + exact I.
  - split.
    + repeat apply always_one; auto.
      * apply next_settled; auto.
      * cbn. destruct HR; auto.
    + destruct HR; exact I.
  - apply (next_ext [EvDone c r]); auto. intros e [<-|[]]; reflexivity.
  - split; [|exact I]. apply always_one; auto. apply next_settled; auto.
  - assert (Hb : always next_rule (es ++ s_tr s) /\ settled (es ++ s_tr s)).
    { apply next_ext; auto. intros e Hi. unfold es in Hi. apply in_app_or in Hi. destruct Hi as [Hi|[<-|[]]]; [|reflexivity].
      apply in_map_iff in Hi. destruct Hi as [o [<- _]]. reflexivity. }
    split; [|exact I]. apply always_one; [tauto|]. apply next_settled; tauto.
  - apply (next_ext [EvDtor (OnCtx d) o]); auto. intros e [<-|[]]; reflexivity.
  - eapply dl_next; eauto.
    + repeat apply always_one; auto; [apply next_settled; auto|]. cbn. eauto.
    + intros e [w [rest' [E He]]]. cbn. destruct w; auto.
Qed.

(* ------------------------------------------------------------------ injected functions *)

Definition kon (f : frame) : list nat := match f with FU u => match uf_kind u with KOntop g => [g] | _ => [] end | _ => [] end.

Definition inj_ev (e : event) : bool := match e with EvOntop _ _ _ | EvOntopRet _ _ _ | EvOntopExn _ _ _ => true | _ => false end.
Lemma inj_no es tr c : (forall e, In e es -> inj_ev e = false) -> injected (es ++ tr) c = injected tr c.
Proof.
  intros H. induction es as [|e es IH]; [reflexivity|]. cbn [app].
  assert (IH' : injected (es ++ tr) c = injected tr c) by (apply IH; intros x Hx; apply H; right; exact Hx).
  pose proof (H e (or_introl eq_refl)) as H0. destruct e; cbn [injected]; auto; discriminate.
Qed.
Lemma inj_about c c' es tr : about c es -> c' <> c -> injected (es ++ tr) c' = injected tr c'.
Proof.
  intros H N. induction es as [|e es IH]; [reflexivity|]. cbn [app].
  assert (IH' : injected (es ++ tr) c' = injected tr c') by (apply IH; intros x y Hx; apply H; right; exact Hx).
  destruct e; cbn [injected]; auto; destruct (Nat.eqb_spec c0 c'); auto;
    exfalso; apply N; apply (H _ c' (or_introl eq_refl)); cbn; auto.
Qed.

Lemma dl_inj_no c r fs fs' es : dl c r fs fs' es -> forall e, In e es -> inj_ev e = false.
Proof. destruct 1; intros e Hi; cbn in Hi; intuition (subst; auto). Qed.

Lemma kon_wait w : waiting w = true -> kon w = [].
Proof. destruct w; try discriminate; reflexivity. Qed.

Lemma dl_kon c r fs fs' es : dl c r fs fs' es -> flat_map kon fs' = flat_map kon fs.
Proof.
  destruct 1; cbn [flat_map]; auto. rewrite (kon_wait w) by (apply userwait_waiting; auto). reflexivity.
Qed.

Definition IInv (s : state) : Prop :=
  (forall c cx, nth_error (s_ctxs s) c = Some cx -> injected (s_tr s) c = flat_map kon (cx_frames cx)) /\
  (forall c, length (s_ctxs s) <= c -> injected (s_tr s) c = []).

Lemma lrule_inj c tr fs fs' es main : wfs main fs -> lrule c tr fs fs' es -> injected tr c = flat_map kon fs ->
  injected (es ++ tr) c = flat_map kon fs' /\ (always ontop_rule tr -> always ontop_rule (es ++ tr)).
Proof.
  intros Hwf L H. destruct L;
    try (split; [cbn [app injected flat_map kon] in *; rewrite H; reflexivity|intros Ha; repeat apply always_one; auto; exact I]; fail).
  - (* ontop_raised *) cbn [flat_map kon] in H. rewrite Hk in H. cbn [app] in H. split.
    + cbn [app injected]. rewrite Nat.eqb_refl, H. cbn [tl]. rewrite (kon_wait w) by (apply userwait_waiting; auto). reflexivity.
    + intros Ha. repeat apply always_one; auto; try exact I. cbn. rewrite H. reflexivity.
  - cbn [flat_map kon] in H. rewrite Hk in H. cbn [app] in H. split.
    + cbn [app injected]. rewrite Nat.eqb_refl, H. reflexivity.
    + intros Ha. repeat apply always_one; auto; try exact I. cbn. rewrite H. reflexivity.
  - cbn [flat_map kon] in H. rewrite Hk in H. cbn [app] in H. split.
    + cbn [app injected]. rewrite H. reflexivity.
    + intros Ha. repeat apply always_one; auto; try exact I.
  - cbn [flat_map kon] in H. split; [|auto]. cbn [app]. rewrite H. destruct Hk as [Hk|[u Hk]]; rewrite Hk; reflexivity.
  - cbn [flat_map kon] in H. rewrite Hk in H. cbn [app] in H. rewrite <- app_assoc. split.
    + rewrite (inj_no es) by (eapply dl_inj_no; eauto). cbn [app injected]. rewrite Nat.eqb_refl, H. cbn [tl].
      rewrite (dl_kon _ _ _ _ _ HD). reflexivity.
    + intros Ha. apply always_irr.
      * intros e old Hi. pose proof (dl_inj_no _ _ _ _ _ HD e Hi) as X. destruct e; try exact I; discriminate.
      * apply always_one; auto. cbn. rewrite H. reflexivity.
  - cbn [flat_map kon] in H. rewrite Hk in H. split; [|auto]. cbn [app]. rewrite H. reflexivity.
Qed.

Lemma always_noinj es tr : (forall e, In e es -> inj_ev e = false) -> always ontop_rule tr -> always ontop_rule (es ++ tr).
Proof. intros H Ha. apply always_irr; auto. intros e old Hi. pose proof (H e Hi) as X. destruct e; try exact I; discriminate. Qed.

Lemma m_inj n s : mreach n s -> IInv s /\ always ontop_rule (s_tr s).
Proof.
  intros Hr. induction Hr as [|t s s' Hr IH Hs].
  - split; [|apply always_nil]. split; [|reflexivity]. intros c cx H. apply init_nth in H. destruct H as [t ->]. reflexivity.
  - destruct IH as [[I1 I2] Ha]. pose proof (m_shapes _ _ Hr) as Hsh.
    assert (Hlt : forall c cx, nth_error (s_ctxs s) c = Some cx -> c < length (s_ctxs s)) by (intros; eapply nth_some_lt; eauto).
    destruct Hs.
    + pose proof (lrule_about _ _ _ _ _ HL) as Hab. pose proof (run_shape _ _ (Hsh _ _ Hc) Ht) as [Hw _].
      destruct (lrule_inj _ _ _ _ _ _ Hw HL (I1 _ _ Hc)) as [L1 L2]. split; [split|rewrite Etr; auto].
      * intros c' cx'. rewrite Etr, Ectx. intros Hn. apply nth_upd_inv in Hn. destruct Hn as [[-> [-> _]]|[N Hn]]; auto.
        rewrite (inj_about c); auto.
      * intros c'. rewrite Etr, Ectx, upd_length. intros Hl. pose proof (Hlt _ _ Hc). rewrite (inj_about c); auto. lia.
    + assert (Hn0 : forall e, In e (es ++ [EvSwitch t c me h SwJump]) -> inj_ev e = false).
      { intros e Hi. apply in_app_or in Hi. destruct Hi as [Hi|[<-|[]]]; [|reflexivity]. eapply dl_inj_no; eauto. }
      change (es ++ EvSwitch t c me h SwJump :: s_tr s) with (es ++ [EvSwitch t c me h SwJump] ++ s_tr s) in Etr. rewrite app_assoc in Etr.
      split; [split|rewrite Etr; apply always_noinj; auto].
      * intros c' cx'. rewrite Etr, (inj_no (es ++ _)), Ectx by auto. intros Hn. apply nth_upd2_inv in Hn. destruct Hn as [[-> ->]|[[N [-> ->]]|[N1 [N2 Hn]]]]; auto.
        -- cbn [cx_frames]. rewrite (dl_kon _ _ _ _ _ HD), <- Htf. auto.
        -- cbn [cx_frames]. rewrite (I1 _ _ Hc). inversion HJ; reflexivity.
      * intros c'. rewrite Etr, (inj_no (es ++ _)), Ectx, !upd_length by auto. auto.
    + assert (Hne : c <> fc_ctx h) by (intros ->; congruence).
      assert (On : forall c', injected (s_tr s') c' = if Nat.eqb (fc_ctx h) c' then g :: injected (s_tr s) c' else injected (s_tr s) c').
      { intros c'. rewrite Etr. reflexivity. }
      split; [split|rewrite Etr; cbn [app es]].
      * intros c' cx'. rewrite On, Ectx. intros Hn. apply nth_upd2_inv in Hn. destruct Hn as [[-> ->]|[[N [-> ->]]|[N1 [N2 Hn]]]].
        -- rewrite Nat.eqb_refl. cbn. rewrite (I1 _ _ Htx), Htf. reflexivity.
        -- destruct (Nat.eqb_spec (fc_ctx h) c); [congruence|]. rewrite (I1 _ _ Hc), Hcf. reflexivity.
        -- destruct (Nat.eqb_spec (fc_ctx h) c'); [congruence|]. auto.
      * intros c'. rewrite On, Ectx, !upd_length. intros Hl. pose proof (Hlt _ _ Htx). destruct (Nat.eqb_spec (fc_ctx h) c'); [lia|]. auto.
      * unfold es. cbn [app]. repeat apply always_one; auto; try exact I. exists t, c, h. auto.
    + assert (Hn0 : forall e, In e [ev; EvSwitch t c me h SwUnwind] -> inj_ev e = false).
      { intros e Hi. cbn in Hi. destruct HR; intuition (subst; auto). }
      change (ev :: EvSwitch t c me h SwUnwind :: s_tr s) with ([ev; EvSwitch t c me h SwUnwind] ++ s_tr s) in Etr.
      split; [split|rewrite Etr; apply (always_noinj [ev; EvSwitch t c me h SwUnwind]); auto].
      * intros c' cx'. rewrite Etr, (inj_no [ev; EvSwitch t c me h SwUnwind]), Ectx by auto. intros Hn. apply nth_upd2_inv in Hn. destruct Hn as [[-> ->]|[[N [-> ->]]|[N1 [N2 Hn]]]]; auto.
        -- cbn [cx_frames]. rewrite (I1 _ _ Htx). destruct HR; cbn [flat_map]; auto.
           rewrite (kon_wait w) by (apply userwait_waiting; auto). reflexivity.
        -- cbn [cx_frames]. rewrite (I1 _ _ Hc). reflexivity.
      * intros c'. rewrite Etr, (inj_no [ev; EvSwitch t c me h SwUnwind]), Ectx, !upd_length by auto. auto.
    + split; [split|rewrite Etr; apply always_one; auto; exact I].
      * intros c' cx'. rewrite Etr, Ectx. cbn [injected]. intros Hn. apply nth_upd_inv in Hn. destruct Hn as [[-> [-> _]]|[N Hn]]; auto.
        rewrite (I1 _ _ Hc), Hcf. cbn. rewrite Hk. reflexivity.
      * intros c'. rewrite Etr, Ectx, upd_length. cbn [injected]. auto.
    + split; [split|rewrite Etr; apply always_one; auto; exact I].
      * intros c' cx'. rewrite Etr, Ectx. cbn [injected]. intros Hn. apply nth_upd2_inv in Hn. destruct Hn as [[-> ->]|[[N [-> ->]]|[N1 [N2 Hn]]]]; auto.
        -- rewrite (I1 _ _ Htx). reflexivity.
        -- rewrite (I1 _ _ Hc), Hcf. reflexivity.
      * intros c'. rewrite Etr, Ectx, !upd_length. cbn [injected]. auto.
    + assert (Hn0 : forall e, In e (EvSwitch t c me (mk_fc d 0) SwCreate :: es) -> inj_ev e = false).
      { intros e [<-|Hi]; [reflexivity|]. unfold es in Hi. apply in_app_or in Hi. destruct Hi as [Hi|[<-|[]]]; [|reflexivity].
        apply in_map_iff in Hi. destruct Hi as [o [<- _]]. reflexivity. }
      change (EvSwitch t c me (mk_fc d 0) SwCreate :: es ++ s_tr s) with ((EvSwitch t c me (mk_fc d 0) SwCreate :: es) ++ s_tr s) in Etr.
      split; [split|rewrite Etr; apply always_noinj; auto].
      * intros c' cx'. rewrite Etr, (inj_no _ (s_tr s)), Ectx by auto. intros Hn. apply nth_app_cases in Hn. destruct Hn as [[_ Hn]|[E ->]].
        -- apply nth_upd_inv in Hn. destruct Hn as [[-> [-> _]]|[N Hn]]; auto. rewrite (I1 _ _ Hc), Hcf. reflexivity.
        -- rewrite upd_length in E. subst. cbn. apply I2. fold d. lia.
      * intros c'. rewrite Etr, (inj_no _ (s_tr s)), Ectx, app_length, upd_length by auto. intros Hl. apply I2. lia.
    + split; [split|rewrite Etr; apply always_one; auto; exact I].
      * intros c' cx'. rewrite Etr, Ectx. cbn [injected]. intros Hn. apply nth_upd_inv in Hn. destruct Hn as [[-> [-> _]]|[N Hn]]; auto.
        rewrite (I1 _ _ Hdx). reflexivity.
      * intros c'. rewrite Etr, Ectx, upd_length. cbn [injected]. auto.
    + assert (Hn0 : forall e, In e (es ++ [EvFree d a c; EvRecord d]) -> inj_ev e = false).
      { intros e Hi. apply in_app_or in Hi. destruct Hi as [Hi|[<-|[<-|[]]]]; try reflexivity. eapply dl_inj_no; eauto. }
      change (es ++ EvFree d a c :: EvRecord d :: s_tr s) with (es ++ [EvFree d a c; EvRecord d] ++ s_tr s) in Etr. rewrite app_assoc in Etr.
      assert (Hfd : cx_frames dx = []). { pose proof (Hsh _ _ Hdx) as X. unfold shape in X. rewrite Hds in X. tauto. }
      split; [split|rewrite Etr; apply always_noinj; auto].
      * intros c' cx'. rewrite Etr, (inj_no (es ++ _)), Ectx by auto. intros Hn. apply nth_upd2_inv in Hn. destruct Hn as [[-> ->]|[[N [-> ->]]|[N1 [N2 Hn]]]]; auto.
        -- cbn [cx_frames set_frames]. rewrite (dl_kon _ _ _ _ _ HD), (I1 _ _ Hc), Hcf. reflexivity.
        -- rewrite (I1 _ _ Hdx), Hfd. reflexivity.
      * intros c'. rewrite Etr, (inj_no (es ++ _)), Ectx, !upd_length by auto. auto.
Qed.

(* ------------------------------------------------------------------ life of context-functions *)

Definition life_ev (e : event) : bool := match e with EvEnter _ _ | EvDone _ _ | EvSwitch _ _ _ _ _ => true | _ => false end.
Lemma life_irr es tr : (forall e, In e es -> life_ev e = false) -> always life_rule tr -> always life_rule (es ++ tr).
Proof. intros H Ha. apply always_irr; auto. intros e old Hi. pose proof (H e Hi) as X. destruct e; try exact I; discriminate. Qed.

Lemma unwound_no es tr c : (forall e, In e es -> ~ touches e c) -> unwound (es ++ tr) c -> unwound tr c.
Proof.
  intros H [m [t [c0 [to [Hi E]]]]]. apply in_app_or in Hi. destruct Hi as [Hi|Hi].
  - exfalso. exact (H _ Hi E).
  - exists m, t, c0, to. auto.
Qed.

Lemma dl_life c r fs fs' es tr main : wfs main fs -> dl c r fs fs' es -> xok tr c fs -> always life_rule tr -> always life_rule (es ++ tr).
Proof.
  intros Hw D [X1 X2 X3 X4] Ha. destruct D; try (apply life_irr; auto; intros e Hi; cbn in Hi; intuition (subst; auto); fail).
  destruct rest; [|rewrite wfs_cons in Hw; destruct Hw as [[] _]].
  cbn [app]. apply always_one; [|exact I]. apply always_one; auto. cbn. split; [|split].
  - apply X3. apply Exists_cons_hd. left. reflexivity.
  - intros U. apply X2 in U. rewrite marked_cons in U. destruct U as [U|U]; [destruct (mk_wait FEntry1 eq_refl U)|inversion U].
  - intros r0 Hi. apply X4 in Hi. eapply (not_entry3_w r0 FEntry1); eauto.
Qed.

Lemma m_life n s : mreach n s -> always life_rule (s_tr s).
Proof.
  intros Hr. induction Hr as [|t s s' Hr IH Hs]; [apply always_nil|].
  pose proof (m_shapes _ _ Hr) as Hsh. pose proof (m_xinv _ _ Hr) as X. pose proof (m_cinv _ _ Hr) as CI.
  pose proof (always_switch _ _ Hr) as Hsw. pose proof (m_kinv _ _ Hr) as K.
  (* a suspension whose waiting frame is not a destructor was not created by one *)
  assert (P : forall h tx f1 r1, nth_error (s_ctxs s) (fc_ctx h) = Some tx -> cx_status tx = SSusp -> cx_ver tx = fc_ver h -> cx_frames tx = f1 :: r1 ->
     f1 <> FDtor -> forall c, ~ unwinds (s_tr s) h c).
  { intros h tx f1 r1 Htx Hts Htv Htf Hd c [t1 [c1 [to1 [Hi _]]]].
    pose proof (susp_shape _ (Hsh _ _ Htx) Hts) as [Hw Hww]. rewrite Htf in Hww. cbn in Hww.
    pose proof (c_rel _ CI _ _ Htx) as Hrel. rewrite Htf in Hrel.
    destruct (open_top n s (fc_ctx h) f1 r1 Hr Hww Hrel) as [h1 [o1 [t2 [to2 [k2 [G1 [G2 G3]]]]]]].
    pose proof (c_susp _ CI _ _ Htx Hts) as Hh. rewrite G1 in Hh. cbn in Hh. injection Hh as ->. rewrite Htv, fctx_eta in *.
    destruct (switch_unique _ Hsw _ _ _ _ _ _ _ _ _ Hi G2) as [_ [_ [_ E]]]. subst k2. destruct f1; try discriminate Hww; try destruct G3. congruence. }
  (* a context that is not on its way out is not done *)
  assert (Q : forall c cx, nth_error (s_ctxs s) c = Some cx -> (exists f0, hd_error (cx_frames cx) = Some f0 /\ forall r, f0 <> FEntry3 r) ->
     forall r, ~ In (EvDone c r) (s_tr s)).
  { intros c cx Hc [f0 [Hf Hn]] r Hi. apply (x_done _ _ _ (X _ _ Hc)) in Hi. destruct (cx_frames cx) as [|f1 r1]; [discriminate|].
    cbn in Hf. injection Hf as ->. inversion Hi as [|? ? E1 _]; subst. apply (Hn r). reflexivity. }
  destruct Hs; rewrite Etr.
  - (* local *) pose proof (run_shape _ _ (Hsh _ _ Hc) Ht) as [Hw _]. pose proof (X _ _ Hc) as Xc.
    remember (cx_frames cx) as fs0 eqn:Efs. pose proof Xc as [X1 X2 X3 X4].
    destruct HL; try (apply life_irr; auto; intros e0 Hi; cbn in Hi; intuition (subst; auto); fail).
    + pose proof (leaving_unw _ _ Hl) as He. inversion X1 as [|a1 l1 Y1 Y]; subst.
      assert (U : unwinds (s_tr s) h c) by (apply (Y1 (EForced h)); rewrite He; left; reflexivity).
      cbn [app]. assert (U' : unwinds (EvOntopExn c g (EForced h) :: s_tr s) h c).
      { destruct U as [t1 [c1 [to1 [Hi E]]]]. exists t1, c1, to1. split; auto. right; auto. }
      apply always_one; [apply always_one; auto; exact I|]. cbn [life_rule]. split; [|split].
      * intros r' [E|Hi]; [discriminate|]. apply X4 in Hi. eapply not_entry3; eauto.
      * right. exists h. auto.
      * intros _. exists h. auto.
    + pose proof (leaving_unw _ _ Hl) as He. inversion X1 as [|a1 l1 Y1 Y]; subst.
      assert (U : unwinds (s_tr s) h c) by (apply (Y1 (EForced h)); rewrite He; left; reflexivity).
      cbn [app]. apply always_one; auto. cbn [life_rule]. split; [|split].
      * intros r' Hi. apply X4 in Hi. eapply not_entry3; eauto.
      * right. exists h. auto.
      * intros _. exists h. auto.
    + (* ret_ontop *) pose proof (leaving_ret _ _ Hl) as He. rewrite <- app_assoc. apply wfs_tail, wfs_tail in Hw.
      assert (Xm : xok ([EvOntopRet c g r] ++ s_tr s) c (w :: rest)).
      { apply (xok_new [EvOntopRet c g r] (s_tr s) c _ _) with (2 := Xc).
        - intros e [<-|[]] [].
        - inversion X1 as [|a1 l1 Y1 Y]; subst. inversion Y; subst. apply xfrs_app. auto.
        - rewrite !marked_cons, !Exists_cons, mk_fu, He. intros [[m []]|[H|H]]; auto.
          exfalso. revert H. apply mk_plain; [reflexivity|discriminate].
        - rewrite !start_cons. auto.
        - intros r0 H. exfalso. eapply not_entry3; eauto. }
      eapply dl_life; eauto. apply always_one; auto. exact I.
  - (* jump *)
    assert (Hd : f1 <> FDtor) by (intros ->; inversion HJ; discriminate).
    pose proof (susp_shape _ (Hsh _ _ Htx) Hts) as [Hw _]. rewrite Htf in Hw. pose proof (X _ _ Htx) as Xt. rewrite Htf in Xt.
    eapply dl_life; eauto.
    + apply (xok_ext [EvSwitch t c me h SwJump]); auto. intros e [<-|[]] [].
    + apply always_one; auto. cbn. split; [discriminate|]. split; [|intros c' U; exfalso; eapply P; eauto].
      intros r Hi. exfalso. apply (Q _ _ Hc) in Hi; auto. inversion HJ; eexists; (split; [reflexivity|discriminate]).
  - unfold es. cbn [app]. repeat apply always_one; auto; try exact I.
    cbn. split; [discriminate|]. split; [|intros c' U; exfalso; eapply P; eauto; intros ->; discriminate].
    intros r Hi. exfalso. apply (Q _ _ Hc) in Hi; auto. rewrite Hcf. eexists; (split; [reflexivity|discriminate]).
  - (* unwind *)
    pose proof (susp_shape _ (Hsh _ _ Htx) Hts) as [Hw _]. pose proof (X _ _ Htx) as Xt.
    assert (Hb : always life_rule (EvSwitch t c me h SwUnwind :: s_tr s)).
    { apply always_one; auto. cbn. split; [discriminate|]. split.
      { intros r Hi. exfalso. apply (Q _ _ Hc) in Hi; auto. unfold dtor_ok in Hok.
        destruct (cx_frames cx) as [|[]]; try contradiction; eexists; (split; [reflexivity|discriminate]). }
      intros c' U. exfalso.
      remember (cx_frames tx) as fs0 eqn:Efs. destruct HR as [w f rest Hw' Hrs Hm|rest].
      - eapply (P h tx w (FU f :: rest)); eauto. intros ->; discriminate.
      - eapply (P h tx FEntry1 rest); eauto. discriminate. }
    apply always_one; auto. remember (cx_frames tx) as fs0 eqn:Efs. destruct HR; [exact I|].
    destruct rest; [|rewrite wfs_cons in Hw; destruct Hw as [[] _]]. pose proof Xt as [X1 X2 X3 X4].
    assert (Hu : unwinds (EvSwitch t c me h SwUnwind :: s_tr s) me (fc_ctx h)) by (exists t, c, h; split; auto; left; reflexivity).
    cbn [life_rule]. split; [|split].
    + intros r [E|Hi]; [discriminate|]. apply X4 in Hi. eapply (not_entry3_w r FEntry1); eauto.
    + right. exists me. auto.
    + intros _. exists me. auto.
  - (* ret_fn *)
    pose proof (X _ _ Hc) as Xc. rewrite Hcf in Xc. pose proof Xc as [X1 X2 X3 X4].
    apply always_one; auto. cbn. split; [|split].
    + intros r' Hi. apply X4 in Hi. eapply not_entry3; eauto.
    + left. inversion X1 as [|a1 l1 Y1 Y]; subst. inversion Y; subst. assumption.
    + intros U. exfalso. apply X2 in U. pose proof (leaving_ret _ _ Hl) as He.
      pose proof (run_shape _ _ (Hsh _ _ Hc) Ht) as [Hw _]. rewrite Hcf in Hw. apply wfs_tail in Hw.
      assert (Hrest : rest = []) by (destruct rest; [reflexivity|rewrite wfs_cons in Hw; destruct Hw as [[] _]]). subst rest.
      rewrite marked_cons, Exists_cons, mk_fu, He in U. destruct U as [[m []]|[U|U]]; [|inversion U].
      revert U. apply mk_plain; [reflexivity|discriminate].
  - (* exit *)
    pose proof (X _ _ Hc) as Xc. rewrite Hcf in Xc. destruct Xc as [X1 X2 X3 X4].
    inversion X1 as [|a1 l1 Y1 Y]; subst. destruct Y1 as [Y1 Y2].
    apply always_one; auto. cbn. split; auto. split.
    { intros r Hi. split; auto. apply X4 in Hi. inversion Hi; congruence. }
    intros c' U. split; auto.
    destruct Y2 as [Y2|Y2].
    + destruct Y2 as [t1 [c1 [to1 [H1 E1]]]]. destruct U as [t2 [c2 [to2 [H2 E2]]]].
      destruct (switch_unique _ Hsw _ _ _ _ _ _ _ _ _ H1 H2) as [_ [_ [E _]]]. congruence.
    + destruct Y2 as [t1 [c1 [to1 [k1 [H1 E1]]]]]. destruct U as [t2 [c2 [to2 [H2 E2]]]].
      destruct (switch_unique _ Hsw _ _ _ _ _ _ _ _ _ H1 H2) as [_ [_ [_ E]]]. congruence.
  - (* create *)
    apply always_one.
    + apply life_irr; auto. intros e Hi. unfold es in Hi. apply in_app_or in Hi. destruct Hi as [Hi|[<-|[]]]; [|reflexivity].
      apply in_map_iff in Hi. destruct Hi as [o [<- _]]. reflexivity.
    + cbn. split; [discriminate|]. split.
      { intros r Hi. exfalso. apply in_app_or in Hi. destruct Hi as [Hi|Hi].
        - unfold es in Hi. apply in_app_or in Hi. destruct Hi as [Hi|[Hi|[]]]; [|discriminate]. apply in_map_iff in Hi. destruct Hi as [o [Hi _]]. discriminate.
        - apply (Q _ _ Hc) in Hi; auto. rewrite Hcf. eexists; (split; [reflexivity|discriminate]). }
      intros c' [t1 [c1 [to1 [H1 _]]]]. exfalso.
      apply in_app_or in H1. destruct H1 as [H1|H1].
      * unfold es in H1. apply in_app_or in H1. destruct H1 as [H1|[H1|[]]]; [|discriminate]. apply in_map_iff in H1. destruct H1 as [o [H1 _]]. discriminate.
      * destruct (v_me _ (m_vinv _ _ Hr) _ _ _ _ _ H1) as [Ec [v0 [b0 [Hv _]]]]. cbn in Ec. subst c1.
        unfold vs in Hv. replace (nth_error (s_ctxs s) d) with (@None ctx) in Hv by (symmetry; apply nth_error_None; unfold d; lia). discriminate.
  - apply always_one; auto. exact I.
  - (* free *)
    pose proof (run_shape _ _ (Hsh _ _ Hc) Ht) as [Hw _]. rewrite Hcf in Hw. pose proof (X _ _ Hc) as Xc. rewrite Hcf in Xc. pose proof Xc as [X1 X2 X3 X4].
    eapply (dl_life c None rest); eauto.
    + destruct rest; [destruct Hw|]. apply wfs_tail in Hw. exact Hw.
    + apply (xok_ext [EvFree d a c; EvRecord d]); [intros e [<-|[<-|[]]] []|].
      eapply (xok_new [] (s_tr s) c (FExit d :: rest)); [intros e []|exact Xc| | | |].
      * inversion X1; auto.
      * rewrite marked_cons. intros [H|H]; [|right; auto]. exfalso. revert H. apply mk_plain; [reflexivity|discriminate].
      * rewrite start_cons. auto.
      * intros r H. inversion H; discriminate.
    + repeat apply always_one; auto; exact I.
Qed.

(* ------------------------------------------------------------------ exceptions *)

Lemma m_exn n s : mreach n s -> always exn_rule (s_tr s).
Proof.
  intros Hr. induction Hr as [|t s s' Hr IH Hs]; [apply always_nil|].
  pose proof (m_xinv _ _ Hr) as X.
  assert (D : forall c r fs fs' es, dl c r fs fs' es -> forall tr, always exn_rule tr -> always exn_rule (es ++ tr)).
  { intros c r fs fs' es D tr Ha. apply always_irr; auto. intros e old Hi. destruct D; cbn in Hi; intuition (subst; exact Logic.I). }
  destruct Hs; rewrite Etr.
  - pose proof (X _ _ Hc) as Xc. remember (cx_frames cx) as fs0 eqn:Efs. pose proof Xc as [X1 X2 X3 X4].
    destruct HL; try (repeat apply always_one; auto; exact I).
    + pose proof (leaving_unw _ _ Hl) as He. inversion X1 as [|a1 l1 Y1 Y]; subst.
      assert (O : origin (s_tr s) c e) by (apply Y1; rewrite He; left; reflexivity).
      cbn [app]. repeat apply always_one; auto. cbn. apply (origin_app [_]). auto.
    + pose proof (leaving_unw _ _ Hl) as He. inversion X1 as [|a1 l1 Y1 Y]; subst.
      assert (O : origin (s_tr s) c (EForced h)) by (apply Y1; rewrite He; left; reflexivity).
      cbn [app]. repeat apply always_one; auto; exact Logic.I.
    + rewrite <- app_assoc. eapply D; eauto. apply always_one; auto. exact I.
  - eapply D; eauto. apply always_one; auto. exact I.
  - unfold es; cbn [app]. repeat apply always_one; auto; exact I.
  - repeat apply always_one; auto; try exact I. destruct HR; [|exact I]. cbn. exists t, c, h. split; auto. left; reflexivity.
  - apply always_one; auto. exact I.
  - apply always_one; auto. exact I.
  - apply always_one; [|exact I]. apply always_irr; auto. intros e old Hi. unfold es in Hi. apply in_app_or in Hi. destruct Hi as [Hi|[<-|[]]]; [|exact I].
    apply in_map_iff in Hi. destruct Hi as [o [<- _]]. exact I.
  - apply always_one; auto. exact I.
  - eapply D; eauto. repeat apply always_one; auto; exact I.
Qed.

(* ------------------------------------------------------------------ threads *)

Record TInv (n : nat) (s : state) : Prop := mk_tinv {
  t_run : forall t, t < n -> exists cx, nth_error (s_ctxs s) (running (s_tr s) t) = Some cx /\ cx_status cx = SRun t;
  t_thr : forall t c, nth_error (s_thr s) t = Some c <-> t < n /\ running (s_tr s) t = c;
  t_st : forall c cx t, nth_error (s_ctxs s) c = Some cx -> cx_status cx = SRun t -> t < n /\ running (s_tr s) t = c }.

Lemma running_ns es tr t : no_switch es -> running (es ++ tr) t = running tr t.
Proof.
  intros H. induction es as [|e es IH]; [reflexivity|]. unfold no_switch in *. cbn in H. apply andb_prop in H. destruct H as [H1 H2].
  cbn [app running]. destruct e; auto. discriminate.
Qed.
Lemma running_sw es1 t c me h k es2 tr t' : no_switch es1 -> no_switch es2 ->
  running (es1 ++ EvSwitch t c me h k :: es2 ++ tr) t' = if Nat.eqb t t' then fc_ctx h else running tr t'.
Proof. intros H1 H2. rewrite running_ns by auto. cbn. rewrite running_ns by auto. reflexivity. Qed.

Lemma tinv_quiet n s s' es : TInv n s -> s_tr s' = es ++ s_tr s -> no_switch es -> s_thr s' = s_thr s ->
  (forall c t, st s' c = Some (SRun t) <-> st s c = Some (SRun t)) -> TInv n s'.
Proof.
  intros [T1 T2 T3] E Hn Et Hst. 
  assert (R : forall t, running (s_tr s') t = running (s_tr s) t) by (intros; rewrite E; apply running_ns; auto).
  constructor.
  - intros t Ht. destruct (T1 t Ht) as [cx [H1 H2]]. rewrite R.
    assert (Hs : st s' (running (s_tr s) t) = Some (SRun t)) by (apply Hst; unfold st; rewrite H1; cbn; congruence).
    unfold st in Hs. destruct (nth_error (s_ctxs s') (running (s_tr s) t)) as [cx'|]; [|discriminate]. exists cx'. split; auto. cbn in Hs. congruence.
  - intros t c. rewrite Et, R. apply T2.
  - intros c cx t Hc Hs. rewrite R. assert (Hq : st s' c = Some (SRun t)) by (unfold st; rewrite Hc; cbn; congruence).
    apply Hst in Hq. unfold st in Hq. destruct (nth_error (s_ctxs s) c) as [cx'|] eqn:E2; [|discriminate]. cbn in Hq. eapply T3; eauto. congruence.
Qed.

Lemma tinv_switch n t s s' es1 es2 c h k me st' : TInv n s ->
  s_tr s' = es1 ++ EvSwitch t c me h k :: es2 ++ s_tr s -> no_switch es1 -> no_switch es2 ->
  s_thr s' = upd (s_thr s) t (fc_ctx h) -> st s c = Some (SRun t) -> (forall t', st s (fc_ctx h) <> Some (SRun t')) ->
  (forall c', st s' c' = if Nat.eqb c' (fc_ctx h) then Some (SRun t) else if Nat.eqb c' c then Some st' else st s c') ->
  (forall t', st' <> SRun t') -> TInv n s'.
Proof.
  intros [T1 T2 T3] E Hn1 Hn2 Et Hc Hh Hst Hst'.
  assert (R : forall t', running (s_tr s') t' = if Nat.eqb t t' then fc_ctx h else running (s_tr s) t') by (intros; rewrite E; apply running_sw; auto).
  assert (Q : forall s c t, st s c = Some (SRun t) <-> exists cx, nth_error (s_ctxs s) c = Some cx /\ cx_status cx = SRun t).
  { clear. intros s c t. unfold st. destruct (nth_error (s_ctxs s) c) as [cx|]; cbn.
    - split; [intros H; exists cx; split; congruence|intros [cx' [H1 H2]]; congruence].
    - split; [discriminate|intros [cx' [H1 H2]]; discriminate]. }
  assert (Hcn : t < n /\ running (s_tr s) t = c) by (apply Q in Hc; destruct Hc as [cx [H1 H2]]; eapply T3; eauto).
  assert (Hne : c <> fc_ctx h) by (intros ->; eapply Hh; eauto).
  assert (Hlen : t < length (s_thr s)).
  { assert (Hx : nth_error (s_thr s) t = Some c) by (apply T2; auto). eapply nth_some_lt; eauto. }
  constructor.
  - intros t' Ht'. apply Q. rewrite R, Hst. destruct (Nat.eqb_spec t t') as [<-|N].
    + rewrite Nat.eqb_refl. reflexivity.
    + specialize (T1 t' Ht'). apply Q in T1.
      destruct (Nat.eqb_spec (running (s_tr s) t') (fc_ctx h)) as [Eq|N1]; [rewrite Eq in T1; exfalso; eapply Hh; eauto|].
      destruct (Nat.eqb_spec (running (s_tr s) t') c) as [Eq|N2]; [rewrite Eq in T1; congruence|]. auto.
  - intros t' c'. rewrite Et, R, nth_upd. destruct (Nat.eqb_spec t t') as [<-|N].
    + destruct (Nat.ltb_spec t (length (s_thr s))); [|lia]. split; [intros Hq; injection Hq; intuition|intros [_ ->]; reflexivity].
    + apply T2.
  - intros c' cx' t' Hc' Hs'. assert (Hq : st s' c' = Some (SRun t')) by (apply Q; eauto). rewrite Hst in Hq. rewrite R.
    destruct (Nat.eqb_spec c' (fc_ctx h)) as [->|N1].
    + injection Hq as <-. rewrite Nat.eqb_refl. tauto.
    + destruct (Nat.eqb_spec c' c) as [->|N2]; [injection Hq as Hq; exfalso; eapply Hst'; eauto|].
      apply Q in Hq. destruct Hq as [cx [H1 H2]]. destruct (T3 _ _ _ H1 H2) as [H3 H4]. split; auto.
      destruct (Nat.eqb_spec t t') as [<-|N3]; auto. exfalso. destruct Hcn as [_ Hcn]. congruence.
Qed.

Lemma act_rule n tr c t es : t < n -> running tr t = c -> no_switch es -> (forall e x, In e es -> actor e = Some x -> x = c) ->
  always (thread_rule n) tr -> always (thread_rule n) (es ++ tr).
Proof.
  intros Ht Hc Hn Hact Ha. apply always_ext; auto. intros es1 e es2 E.
  assert (Hi : In e es) by (rewrite E; apply in_or_app; right; left; reflexivity).
  assert (Hn2 : no_switch es2).
  { subst es. unfold no_switch in *. rewrite forallb_app in Hn. cbn in Hn. apply andb_prop in Hn. destruct Hn as [_ Hn]. apply andb_prop in Hn. tauto. }
  split.
  - destruct e; try exact I. exfalso. exact (no_switch_in es _ _ _ _ _ Hn Hi).
  - intros x Hx. exists t. split; auto. rewrite running_ns by auto. rewrite (Hact e x Hi Hx). exact Hc.
Qed.

Lemma actor_involves e c : actor e = Some c -> involves e c.
Proof. destruct e; cbn; try discriminate; intros E; injection E; auto. Qed.

Lemma sw_rule n s t c cx h k me es2 : TInv n s -> always (thread_rule n) (es2 ++ s_tr s) -> no_switch es2 ->
  nth_error (s_ctxs s) c = Some cx -> cx_status cx = SRun t -> (forall t', st s (fc_ctx h) <> Some (SRun t')) ->
  always (thread_rule n) (EvSwitch t c me h k :: es2 ++ s_tr s).
Proof.
  intros [T1 T2 T3] Ha Hn Hc Ht Hh. apply always_one; auto. split; [|intros x E; discriminate].
  destruct (T3 _ _ _ Hc Ht) as [H1 H2]. split; auto. split; [rewrite running_ns; auto|].
  intros t' Ht' E. rewrite running_ns in E by auto. destruct (T1 t' Ht') as [cx' [H3 H4]]. rewrite E in H3.
  apply (Hh t'). unfold st. rewrite H3. cbn. congruence.
Qed.

Lemma nth_error_seq_0 n t : t < n -> nth_error (seq 0 n) t = Some t.
Proof.
  intros H. rewrite (nth_error_nth' _ 0) by (rewrite seq_length; exact H). rewrite seq_nth by exact H. reflexivity.
Qed.

Lemma m_thread n s : mreach n s -> TInv n s /\ always (thread_rule n) (s_tr s).
Proof.
  intros Hr. induction Hr as [|t s s' Hr IH Hs].
  - split; [|apply always_nil]. 
    assert (I0 : forall t, t < n -> nth_error (s_ctxs (init n)) t = Some (main_ctx t)).
    { intros t Ht. unfold init; cbn. rewrite nth_error_map, nth_error_seq_0 by auto. reflexivity. }
    constructor; cbn [running init s_tr].
    + intros t Ht. exists (main_ctx t). split; auto.
    + intros t c. unfold init; cbn. split.
      * intros H. assert (Ht : t < n) by (apply nth_some_lt in H; rewrite seq_length in H; auto).
        rewrite nth_error_seq_0 in H by auto. injection H; auto.
      * intros [Ht <-]. apply nth_error_seq_0; auto.
    + intros c cx t Hc Hst. assert (Hcn : c < n) by (apply nth_some_lt in Hc; unfold init in Hc; cbn in Hc; rewrite map_length, seq_length in Hc; auto).
      rewrite I0 in Hc by auto. injection Hc as <-. cbn in Hst. injection Hst as <-. auto.
  - destruct IH as [T Ha].
    assert (G : forall c cx h tx fs1 fs2 st', nth_error (s_ctxs s) c = Some cx -> nth_error (s_ctxs s) (fc_ctx h) = Some tx ->
     cx_status cx = SRun t -> cx_status tx = SSusp -> 
     s_ctxs s' = upd (upd (s_ctxs s) c (mk_cx fs1 st' (S (cx_ver cx)) (cx_alloc cx) (cx_caps cx)))
                    (fc_ctx h) (mk_cx fs2 (SRun t) (cx_ver tx) (cx_alloc tx) (cx_caps tx)) ->
     (forall c', st s' c' = if Nat.eqb c' (fc_ctx h) then Some (SRun t) else if Nat.eqb c' c then Some st' else st s c')).
    { intros c cx h tx fs1 fs2 st' Hc Htx Ht Hts E.
      intros c'; unfold st; rewrite E; destruct (Nat.eqb_spec c' (fc_ctx h)) as [->|N1].
      - rewrite (nth_upd2_to _ _ _ _ _ _ Htx). reflexivity.
      - rewrite nth_upd_ne by auto. destruct (Nat.eqb_spec c' c) as [->|N2].
        + rewrite nth_upd_lt by (eapply nth_some_lt; eauto). reflexivity.
        + rewrite nth_upd_ne by auto. reflexivity. }
    assert (Hsusp : forall h tx, nth_error (s_ctxs s) (fc_ctx h) = Some tx -> cx_status tx = SSusp -> forall t', st s (fc_ctx h) <> Some (SRun t')).
    { intros h tx Htx Hts t'. rewrite (st_susp _ _ _ Htx Hts). discriminate. }
    assert (Act : forall c es, about c es -> forall e x, In e es -> actor e = Some x -> x = c) by (intros c es Hab e x Hi Hx; apply (Hab e x Hi); apply actor_involves; auto).
    destruct Hs.
    + destruct (t_st _ _ T _ _ _ Hc Ht) as [H1 H2]. pose proof (lrule_no_switch _ _ _ _ _ HL) as Hn. split.
      * eapply tinv_quiet; eauto. intros c' t'. unfold st. rewrite Ectx. destruct (Nat.eq_dec c' c) as [->|N].
        -- rewrite nth_upd_lt by (eapply nth_some_lt; eauto). rewrite Hc. cbn. tauto.
        -- rewrite nth_upd_ne by auto. tauto.
      * rewrite Etr. eapply act_rule; eauto. apply Act. eapply lrule_about; eauto.
    + pose proof (dl_no_switch _ _ _ _ _ HD) as Hn. specialize (G _ _ _ _ _ _ _ Hc Htx Ht Hts Ectx). specialize (Hsusp _ _ Htx Hts).
      assert (T' : TInv n s') by (eapply (tinv_switch n t s s' es [] c h SwJump me SSusp); eauto; try discriminate; [reflexivity|apply (st_run _ _ _ _ Hc Ht)]).
      split; auto. rewrite Etr. destruct (t_st _ _ T _ _ _ Hc Ht) as [H1 H2].
      eapply (act_rule n _ (fc_ctx h) t); eauto.
      * cbn. rewrite Nat.eqb_refl. reflexivity.
      * apply Act. eapply dl_about; eauto.
      * eapply (sw_rule n s t c cx h SwJump me []); eauto. reflexivity.
    + specialize (G _ _ _ _ _ _ _ Hc Htx Ht Hts Ectx). specialize (Hsusp _ _ Htx Hts).
      assert (T' : TInv n s') by (eapply (tinv_switch n t s s' es [] c h (SwOntop g) me SSusp); eauto; try discriminate; [reflexivity|reflexivity|apply (st_run _ _ _ _ Hc Ht)]).
      split; auto. rewrite Etr. destruct (t_st _ _ T _ _ _ Hc Ht) as [H1 H2].
      eapply (act_rule n _ (fc_ctx h) t); eauto.
      * cbn. rewrite Nat.eqb_refl. reflexivity.
      * reflexivity.
      * intros e x [<-|[<-|[]]] E; [discriminate|injection E; auto].
      * eapply (sw_rule n s t c cx h (SwOntop g) me []); eauto. reflexivity.
    + specialize (G _ _ _ _ _ _ _ Hc Htx Ht Hts Ectx). specialize (Hsusp _ _ Htx Hts).
      assert (Hn : no_switch [ev]) by (destruct HR; reflexivity).
      assert (T' : TInv n s') by (eapply (tinv_switch n t s s' [ev] [] c h SwUnwind me SSusp); eauto; try discriminate; [reflexivity|apply (st_run _ _ _ _ Hc Ht)]).
      split; auto. rewrite Etr. destruct (t_st _ _ T _ _ _ Hc Ht) as [H1 H2].
      eapply (act_rule n (EvSwitch t c me h SwUnwind :: s_tr s) (fc_ctx h) t [ev]); eauto.
      * cbn. rewrite Nat.eqb_refl. reflexivity.
      * intros e x [<-|[]] E. destruct HR; injection E; auto.
      * eapply (sw_rule n s t c cx h SwUnwind me []); eauto. reflexivity.
    + destruct (t_st _ _ T _ _ _ Hc Ht) as [H1 H2]. split.
      * eapply (tinv_quiet n s s' [EvDone c r]); eauto; [reflexivity|]. intros c' t'. unfold st. rewrite Ectx. destruct (Nat.eq_dec c' c) as [->|N].
        -- rewrite nth_upd_lt by (eapply nth_some_lt; eauto). rewrite Hc. cbn. tauto.
        -- rewrite nth_upd_ne by auto. tauto.
      * rewrite Etr. eapply (act_rule n _ c t [EvDone c r]); eauto; [reflexivity|]. intros e x [<-|[]] E. injection E; auto.
    + specialize (G _ _ _ _ _ _ _ Hc Htx Ht Hts Ectx). specialize (Hsusp _ _ Htx Hts). split.
      * eapply (tinv_switch n t s s' [] [] c h SwExit _ SDying); eauto; try discriminate; [reflexivity|reflexivity|apply (st_run _ _ _ _ Hc Ht)].
      * rewrite Etr. eapply (sw_rule n s t c cx h SwExit _ []); eauto. reflexivity.
    + assert (Hlc : c < d) by (eapply nth_some_lt; eauto).
      assert (Hnd : nth_error (s_ctxs s) d = None) by (apply nth_error_None; unfold d; lia).
      assert (Hes : no_switch es) by (apply map_no_switch; reflexivity).
      assert (Hst : forall c', st s' c' = if Nat.eqb c' d then Some (SRun t) else if Nat.eqb c' c then Some SSusp else st s c').
      { intros c'. unfold st. rewrite Ectx. destruct (Nat.eqb_spec c' d) as [->|N].
        - replace d with (length (upd (s_ctxs s) c (mk_cx (FCreate :: FU f :: rest) SSusp (S (cx_ver cx)) (cx_alloc cx) (cx_caps cx)))) by (rewrite upd_length; reflexivity).
          rewrite nth_app_last. reflexivity.
        - destruct (Nat.lt_ge_cases c' d) as [Ld|Ld].
          + rewrite nth_error_app1 by (rewrite upd_length; exact Ld). destruct (Nat.eqb_spec c' c) as [->|N2].
            * rewrite nth_upd_lt by auto. reflexivity.
            * rewrite nth_upd_ne by auto. reflexivity.
          + destruct (Nat.eqb_spec c' c); [lia|]. 
            replace (nth_error (s_ctxs s) c') with (@None ctx) by (symmetry; apply nth_error_None; fold d; lia).
            replace (nth_error (upd _ _ _ ++ _) c') with (@None ctx); [reflexivity|].
            symmetry. apply nth_error_None. rewrite app_length, upd_length. cbn. fold d. lia. }
      assert (Hnr : forall t', st s (fc_ctx (mk_fc d 0)) <> Some (SRun t')) by (intros t'; unfold st; cbn; rewrite Hnd; discriminate).
      split.
      * eapply (tinv_switch n t s s' [] es c (mk_fc d 0) SwCreate me SSusp); eauto; try discriminate; [reflexivity|apply (st_run _ _ _ _ Hc Ht)].
      * rewrite Etr. eapply (sw_rule n s t c cx); eauto. destruct (t_st _ _ T _ _ _ Hc Ht) as [H1 H2].
        eapply (act_rule n _ c t es); eauto. intros e x Hi E. unfold es in Hi. apply in_app_or in Hi. destruct Hi as [Hi|[<-|[]]]; [|discriminate].
        apply in_map_iff in Hi. destruct Hi as [o [<- _]]. discriminate.
    + destruct (t_st _ _ T _ _ _ Hc Ht) as [H1 H2]. split.
      * eapply (tinv_quiet n s s' [EvDtor (OnCtx d) o]); eauto; [reflexivity|]. intros c' t'. unfold st. rewrite Ectx. destruct (Nat.eq_dec c' d) as [->|N].
        -- rewrite nth_upd_lt by (eapply nth_some_lt; eauto). rewrite Hdx. cbn. tauto.
        -- rewrite nth_upd_ne by auto. tauto.
      * rewrite Etr. eapply (act_rule n _ c t [EvDtor (OnCtx d) o]); eauto; [reflexivity|]. intros e x [<-|[]] E. discriminate.
    + assert (Hne : d <> c) by (intros ->; congruence).
      destruct (t_st _ _ T _ _ _ Hc Ht) as [H1 H2]. pose proof (dl_no_switch _ _ _ _ _ HD) as Hn.
      assert (Hn' : no_switch (es ++ [EvFree d a c; EvRecord d])) by (unfold no_switch in *; rewrite forallb_app, Hn; reflexivity).
      change (es ++ EvFree d a c :: EvRecord d :: s_tr s) with (es ++ [EvFree d a c; EvRecord d] ++ s_tr s) in Etr. rewrite app_assoc in Etr.
      split.
      * eapply (tinv_quiet n s s' (es ++ [EvFree d a c; EvRecord d])); eauto. intros c' t'. unfold st. rewrite Ectx. destruct (Nat.eq_dec c' c) as [->|N].
        -- rewrite (nth_upd2_to _ _ _ _ _ _ Hc), Hc. cbn. tauto.
        -- rewrite nth_upd_ne by auto. destruct (Nat.eq_dec c' d) as [->|N2].
           ++ rewrite nth_upd_lt by (eapply nth_some_lt; eauto). rewrite Hdx. cbn. rewrite Hds. split; discriminate.
           ++ rewrite nth_upd_ne by auto. tauto.
      * rewrite Etr. eapply (act_rule n _ c t); eauto. intros e x Hi E. apply in_app_or in Hi. destruct Hi as [Hi|[<-|[<-|[]]]].
        -- eapply Act; eauto. eapply dl_about; eauto.
        -- injection E; auto.
        -- discriminate.
Qed.
