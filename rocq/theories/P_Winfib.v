(** * C51: Windows fibers follow the contexts (winfib implementation) *)
From Coq Require Import List Arith Bool Lia.
From Verif Require Import ListUtil Uctx UctxSpec UctxInv UctxInv2 UctxInv3 UctxInv4 UctxInv5 UctxInv6 UctxInv7 UctxInj UctxObj UctxObj2 UctxObj3 P_Uctx P_Uctx2 UctxFail P_Hooks Winfib.
Import ListNotations.

Lemma set_eq {A} (f : nat -> A) i x : set f i x i = x.
Proof. unfold set. rewrite Nat.eqb_refl. reflexivity. Qed.
Lemma set_ne {A} (f : nat -> A) i x j : j <> i -> set f i x j = f j.
Proof. unfold set. intros H. apply Nat.eqb_neq in H. rewrite H. reflexivity. Qed.
Lemma wevents_app a b : wevents (a ++ b) = wevents a ++ wevents b.
Proof. induction a as [|[] a IH]; cbn; congruence. Qed.
Lemma used_cons e tr t : used tr t -> used (e :: tr) t.
Proof. intros (c & d & k & H). exists c, d, k. right. exact H. Qed.
Lemma not_switch_used e tr t : (forall c d k, e <> EvSwitch t c d k) -> used (e :: tr) t -> used tr t.
Proof. intros N (c & d & k & [H|H]); [destruct (N c d k H)|exists c, d, k; exact H]. Qed.

Section Inv.
  Variables (n : nat) (pre conv_ok create_ok : nat -> bool).
  Hypothesis conv : forall t, conv_ok t = true.
  Hypothesis crea : forall c, create_ok c = true.

  Record WI (l : list witem) (w : wst) : Prop := mk_WI {
    u_thr : forall t, t < n ->
      (w_rec w t = None /\ ~ used (wevents l) t /\ running (wevents l) t = t /\
         o_cur (w_os w) t = (if pre t then Some t else None) /\ (pre t = true -> o_live (w_os w) t = true)) \/
      (w_rec w t = Some (running (wevents l) t) /\ used (wevents l) t /\
         (~ ended l t -> o_cur (w_os w) t = Some (running (wevents l) t)) /\
         (ended l t -> o_cur (w_os w) t = None /\ running (wevents l) t = t));
    u_ctx : forall c, exists_ n (wevents l) c -> ~ freed (wevents l) c -> (c < n -> used (wevents l) c /\ ~ ended l c) ->
      w_fib w c = Some c /\ o_live (w_os w) c = true;
    u_fresh : forall c, ~ exists_ n (wevents l) c -> forall t, t < n -> running (wevents l) t <> c;
    u_alloc : forall c a, In (EvAlloc c a) (wevents l) -> n <= c;
    u_del : forall d, In d (w_del w) -> freed (wevents l) d }.

  Lemma wi_cur l w t f : WI l w -> t < n -> o_cur (w_os w) t = Some f -> f = running (wevents l) t.
  Proof.
    intros V Lt E. destruct (u_thr _ _ V t Lt) as [(_ & _ & R & C & _)|(_ & _ & A & B)].
    - rewrite C in E. destruct (pre t); congruence.
    - destruct (in_dec (fun a b : witem => ltac:(clear; repeat decide equality) : {a = b} + {a <> b}) (WEnd t) l) as [D|D].
      + destruct (B D). congruence.
      + rewrite (A D) in E. congruence.
  Qed.
  Lemma wi_busy l w f : WI l w -> (forall t, t < n -> running (wevents l) t <> f) -> busy n (w_os w) f = false.
  Proof.
    intros V N. unfold busy. apply not_true_is_false. intros H. apply existsb_exists in H. destruct H as (t & Hs & H).
    apply in_seq in Hs. destruct (o_cur (w_os w) t) as [g|] eqn:E; [|discriminate]. apply Nat.eqb_eq in H. subst g.
    assert (Lt : t < n) by lia. apply (N t Lt). symmetry. eapply wi_cur; eauto.
  Qed.

  Lemma wi_init : WI [] (winit n pre).
  Proof.
    split; cbn [wevents winit w_rec w_os w_fib w_del o_cur o_live running].
    - intros t Lt. left. split; [reflexivity|]. split; [intros (c & d & k & [])|]. split; [reflexivity|]. split; [reflexivity|].
      intros ->. apply Nat.ltb_lt in Lt. rewrite Lt. reflexivity.
    - intros c [L|[a []]] _ H. destruct (H L) as [(? & ? & ? & []) _].
    - intros c N t Lt <-. apply N. left. exact Lt.
    - intros c a [].
    - intros d [].
  Qed.

  (** events that concern neither switches nor the existence of contexts *)
  Lemma wi_dull l w e : WI l w -> dull e = true -> WI (WEv e :: l) w.
  Proof.
    intros [V1 V2 V3 V4 V5] D.
    assert (U : forall t, used (e :: wevents l) t <-> used (wevents l) t).
    { intros t. split; [apply not_switch_used; intros c d k ->; discriminate|apply used_cons]. }
    assert (F : forall c, freed (e :: wevents l) c <-> freed (wevents l) c).
    { intros c. split; [|apply (freed_app [e])]. intros (a & on & [->|H]); [discriminate|exists a, on; exact H]. }
    assert (En : forall t, ended (WEv e :: l) t <-> ended l t).
    { intros t. split; [intros [H|H]; [discriminate|exact H]|right; assumption]. }
    split; cbn [wevents].
    - intros t Lt. rewrite (dull_run _ _ _ D). destruct (V1 t Lt) as [(A1 & A2 & A3 & A4 & A5)|(A1 & A2 & A3 & A4)]; [left|right].
      + split; [exact A1|]. split; [intros H; apply A2, U, H|]. auto.
      + split; [exact A1|]. split; [apply U, A2|]. split; intros H; [apply A3; intros H'; apply H, En, H'|apply A4, En, H].
    - intros c Ex Nf Hm. apply V2; [apply (proj1 (dull_ex n e _ _ D)), Ex|intros H; apply Nf, F, H|].
      intros L. destruct (Hm L) as [M1 M2]. split; [apply U, M1|intros H; apply M2, En, H].
    - intros c N t Lt. rewrite (dull_run _ _ _ D). apply V3; [|exact Lt]. intros H. apply N. apply (proj2 (dull_ex n e _ _ D)), H.
    - intros c a [->|H]; [discriminate|eauto].
    - intros d H. apply F. auto.
  Qed.

  (** the record of the main context exists after current() *)
  Lemma wi_current l w t : WI l w -> t < n -> ~ ended l t ->
    let w' := current conv_ok w t in
    w_rec w' t = Some (running (wevents l) t) /\ o_cur (w_os w') t = Some (running (wevents l) t) /\
    (forall t', t' <> t -> w_rec w' t' = w_rec w t' /\ o_cur (w_os w') t' = o_cur (w_os w) t') /\
    (running (wevents l) t = t -> ~ used (wevents l) t -> w_fib w' t = Some t /\ o_live (w_os w') t = true) /\
    (forall c, c <> t \/ used (wevents l) t -> w_fib w' c = w_fib w c /\ o_live (w_os w') c = o_live (w_os w) c) /\
    w_del w' = w_del w.
  Proof.
    intros V Lt Ne. cbv zeta. unfold current. destruct (u_thr _ _ V t Lt) as [(A1 & A2 & A3 & A4 & A5)|(A1 & A2 & A3 & A4)].
    - rewrite A1, A4, A3. destruct (pre t) eqn:Ep.
      + cbn [w_rec w_os w_fib w_del]. rewrite !set_eq, A4. split; [reflexivity|]. split; [reflexivity|]. split; [intros t' H; rewrite set_ne by exact H; auto|].
        split; [auto|]. split; [|reflexivity]. intros c [H|H]; [rewrite set_ne by exact H; auto|contradiction].
      + unfold convert_thread. rewrite conv. cbn [w_rec w_os w_fib w_del o_cur o_live]. rewrite !set_eq. split; [reflexivity|]. split; [reflexivity|].
        split; [intros t' H; rewrite !set_ne by exact H; auto|]. split; [auto|]. split; [|reflexivity]. intros c [H|H]; [rewrite !set_ne by exact H; auto|contradiction].
    - rewrite A1. split; [exact A1|]. split; [auto|]. split; [auto|]. split; [tauto|]. auto.
  Qed.

  Lemma wi_step l w i : WI l w -> ends_ok n (i :: l) ->
    match i with WEv e => hk_rule n e (wevents l) /\ (forall c, e <> EvFail c) | _ => True end ->
    exists w', wstep n conv_ok create_ok w i = Some w' /\ WI (i :: l) w'.
  Proof.
    intros V Hok Hr. destruct i as [e|t].
    - destruct Hr as [Hr Nf]. destruct e as [c a|c|c a on|t c d k| | | | | | | | | | |];
        try (exists w; split; [reflexivity|]; apply wi_dull; [exact V|reflexivity]); cbn [wstep].
      + (* EvAlloc *)
        destruct Hr as (_ & (Ln & Nal) & _). unfold create. rewrite crea. eexists. split; [reflexivity|]. destruct V as [V1 V2 V3 V4 V5].
        assert (U : forall t, used (EvAlloc c a :: wevents l) t <-> used (wevents l) t).
        { intros t. split; [apply not_switch_used; intros; discriminate|apply used_cons]. }
        assert (F : forall x, freed (EvAlloc c a :: wevents l) x <-> freed (wevents l) x).
        { intros x. split; [|apply (freed_app [_])]. intros (a' & on & [H|H]); [discriminate|exists a', on; exact H]. }
        assert (En : forall t, ended (WEv (EvAlloc c a) :: l) t <-> ended l t).
        { intros t. split; [intros [H|H]; [discriminate|exact H]|right; assumption]. }
        split; cbn [wevents w_os w_fib w_rec w_del o_cur o_live running].
        * intros t Lt. destruct (V1 t Lt) as [(A1 & A2 & A3 & A4 & A5)|(A1 & A2 & A3 & A4)]; [left|right].
          -- split; [exact A1|]. split; [intros H; apply A2, U, H|]. split; [exact A3|]. split; [exact A4|]. intros P. rewrite set_ne by lia. auto.
          -- split; [exact A1|]. split; [apply U, A2|]. split; intros H; [apply A3; intros H'; apply H, En, H'|apply A4, En, H].
        * intros x Ex Nfr Hm. destruct (Nat.eq_dec x c) as [->|Ne]; [rewrite !set_eq; auto|]. rewrite !set_ne by exact Ne. apply V2.
          -- destruct Ex as [L|[a' [E|Hx]]]; [left; exact L|congruence|right; eauto].
          -- intros H. apply Nfr, F, H.
          -- intros L. destruct (Hm L) as [M1 M2]. split; [apply U, M1|intros H; apply M2, En, H].
        * intros x N t Lt. apply V3; [|exact Lt]. intros [L|[a' H]]; apply N; [left; exact L|right; exists a'; right; exact H].
        * intros x a' [E|H]; [injection E as <- _; exact Ln|eauto].
        * intros x H. apply F. auto.
      + destruct (Nf c eq_refl).
      + (* EvFree *)
        destruct Hr as (((_ & Hfr) & _) & _ & _ & _ & Nrun). cbn in Hfr, Nrun. destruct Hfr as (Hal & Hnf & _ & _).
        assert (Lc : n <= c) by (eapply (u_alloc _ _ V); eauto).
        destruct (u_ctx _ _ V c) as [Hf Hl]; [right; eauto|exact Hnf|lia|].
        unfold delete. rewrite Hf, Hl, (wi_busy _ _ _ V Nrun). cbn [andb negb]. eexists. split; [reflexivity|]. destruct V as [V1 V2 V3 V4 V5].
        assert (U : forall t, used (EvFree c a on :: wevents l) t <-> used (wevents l) t).
        { intros t. split; [apply not_switch_used; intros; discriminate|apply used_cons]. }
        assert (En : forall t, ended (WEv (EvFree c a on) :: l) t <-> ended l t).
        { intros t. split; [intros [H|H]; [discriminate|exact H]|right; assumption]. }
        split; cbn [wevents w_os w_fib w_rec w_del o_cur o_live running].
        * intros t Lt. destruct (V1 t Lt) as [(A1 & A2 & A3 & A4 & A5)|(A1 & A2 & A3 & A4)]; [left|right].
          -- split; [exact A1|]. split; [intros H; apply A2, U, H|]. split; [exact A3|]. split; [exact A4|]. intros P. rewrite set_ne by lia. auto.
          -- split; [exact A1|]. split; [apply U, A2|]. split; intros H; [apply A3; intros H'; apply H, En, H'|apply A4, En, H].
        * intros x Ex Nfr Hm. assert (Ne : x <> c) by (intros ->; apply Nfr; exists a, on; left; reflexivity). rewrite set_ne by exact Ne. apply V2.
          -- destruct Ex as [L|[a' [E|Hx]]]; [left; exact L|discriminate|right; eauto].
          -- intros H. apply Nfr. apply (freed_app [_]), H.
          -- intros L. destruct (Hm L) as [M1 M2]. split; [apply U, M1|intros H; apply M2, En, H].
        * intros x N t Lt. apply V3; [|exact Lt]. intros [L|[a' H]]; apply N; [left; exact L|right; exists a'; right; exact H].
        * intros x a' [E|H]; [discriminate|eauto].
        * intros x [<-|H]; [exists a, on; left; reflexivity|apply (freed_app [_]); auto].
      + (* EvSwitch *)
        destruct Hr as (((Hex & _) & (Hth & _) & _) & Htg & _). cbn in Hth, Htg. destruct Hth as (Lt & Rt & Nd).
        cbn [ends_ok] in Hok. destruct Hok as [_ Hne].
        destruct (wi_current _ _ _ V Lt Hne) as (C1 & C2 & C3 & C4 & C5 & C6). cbv zeta. set (w1 := current conv_ok w t) in *.
        assert (Nfd : ~ freed (wevents l) d) by (intros H; apply (Hex d H); cbn; auto).
        assert (Md : d < n -> used (wevents l) d /\ ~ ended l d).
        { intros L. destruct (u_thr _ _ V d L) as [(_ & _ & R & _)|(_ & M & _ & R)]; [destruct (Nd d L R)|]. split; [exact M|]. intros H. destruct (R H) as [_ R']. exact (Nd d L R'). }
        destruct (u_ctx _ _ V d Htg Nfd Md) as [Fd Ld].
        assert (Keep : forall x, exists_ n (wevents l) x -> ~ freed (wevents l) x -> (x < n -> (used (wevents l) x \/ x = t) /\ ~ ended l x) -> w_fib w1 x = Some x /\ o_live (w_os w1) x = true).
        { intros x Ex Nx Mx. destruct (Nat.eq_dec x t) as [->|Ne].
          - destruct (u_thr _ _ V t Lt) as [(_ & N & R & _)|(_ & M & _)]; [exact (C4 R N)|].
            destruct (C5 t (or_intror M)) as [-> ->]. apply (u_ctx _ _ V t Ex Nx). intros _. auto.
          - destruct (C5 x (or_introl Ne)) as [-> ->]. apply (u_ctx _ _ V x Ex Nx). intros L. destruct (Mx L) as [[M|M] M']; [auto|contradiction]. }
        destruct (Keep d Htg Nfd) as [Fd1 Ld1]; [intros L; destruct (Md L); auto|].
        assert (Bd : busy n (w_os w1) d = false).
        { unfold busy. apply not_true_is_false. intros H. apply existsb_exists in H. destruct H as (t' & Hs & H). apply in_seq in Hs. assert (Lt' : t' < n) by lia.
          destruct (o_cur (w_os w1) t') as [g|] eqn:E; [|discriminate]. apply Nat.eqb_eq in H. subst g. apply (Nd t' Lt').
          destruct (Nat.eq_dec t' t) as [->|Ne]; [congruence|]. rewrite (proj2 (C3 t' Ne)) in E. symmetry. eapply wi_cur; eauto. }
        unfold switch_to. rewrite C2, Fd1, Ld1, Bd. cbn [andb negb]. eexists. split; [reflexivity|].
        assert (En : forall x, ended (WEv (EvSwitch t c d k) :: l) x <-> ended l x).
        { intros x. split; [intros [H|H]; [discriminate|exact H]|right; assumption]. }
        assert (U : forall x, x <> t -> used (EvSwitch t c d k :: wevents l) x <-> used (wevents l) x).
        { intros x Ne. split; [apply not_switch_used; intros; congruence|apply used_cons]. }
        assert (Ut : used (EvSwitch t c d k :: wevents l) t) by (exists c, d, k; left; reflexivity).
        assert (Ex : forall x, exists_ n (EvSwitch t c d k :: wevents l) x <-> exists_ n (wevents l) x).
        { intros x. unfold exists_. split; intros [L|[a' Hx]]; auto; right; exists a'; [destruct Hx as [E|Hx]; [discriminate|exact Hx]|right; exact Hx]. }
        assert (F : forall x, freed (EvSwitch t c d k :: wevents l) x <-> freed (wevents l) x).
        { intros x. split; [|apply (freed_app [_])]. intros (a' & on & [H|H]); [discriminate|exists a', on; exact H]. }
        split; cbn [wevents w_os w_fib w_rec w_del o_cur o_live running].
        * intros t' Lt'. destruct (Nat.eqb_spec t t') as [<-|Ne].
          -- right. rewrite !set_eq. split; [reflexivity|]. split; [exact Ut|]. split; [reflexivity|]. intros H. apply En in H. contradiction.
          -- assert (Ne' : t' <> t) by auto. rewrite !set_ne by exact Ne'. destruct (C3 t' Ne') as [-> ->].
             destruct (u_thr _ _ V t' Lt') as [(A1 & A2 & A3 & A4 & A5)|(A1 & A2 & A3 & A4)]; [left|right].
             ++ split; [exact A1|]. split; [intros H; apply A2, (U t' Ne'), H|]. split; [exact A3|]. split; [exact A4|]. intros P. rewrite (proj2 (C5 t' (or_introl Ne'))). auto.
             ++ split; [exact A1|]. split; [apply (U t' Ne'), A2|]. split; intros H; [apply A3; intros H'; apply H, En, H'|apply A4, En, H].
        * intros x Hx Nfr Hm. apply Keep; [apply Ex, Hx|intros H; apply Nfr, F, H|]. intros L. destruct (Hm L) as [M1 M2]. split; [|intros H; apply M2, En, H].
          destruct (Nat.eq_dec x t) as [->|Ne]; [auto|left; apply (U x Ne), M1].
        * intros x N t' Lt'. destruct (Nat.eqb_spec t t') as [<-|Ne].
          -- intros <-. apply N, Ex, Htg.
          -- apply (u_fresh _ _ V); [|exact Lt']. intros H. apply N, Ex, H.
        * intros x a' [E|H]; [discriminate|eapply (u_alloc _ _ V); eauto].
        * intros x H. apply F. rewrite C6 in H. apply (u_del _ _ V). exact H.
    - (* a thread ends *)
      cbn [ends_ok] in Hok. destruct Hok as (_ & Lt & Hne & Rt). cbn [wstep].
      assert (U : forall x, ended (WEnd t :: l) x <-> x = t \/ ended l x).
      { intros x. split; [intros [H|H]; [injection H as ->; auto|auto]|intros [->|H]; [left; reflexivity|right; exact H]]. }
      destruct (u_thr _ _ V t Lt) as [(A1 & A2 & A3 & A4 & A5)|(A1 & A2 & A3 & A4)].
      + rewrite A1. exists w. split; [reflexivity|]. destruct V as [V1 V2 V3 V4 V5]. split; cbn [wevents]; auto.
        * intros t' Lt'. destruct (V1 t' Lt') as [B|(B1 & B2 & B3 & B4)]; [left; exact B|right].
          assert (Ne : t' <> t) by (intros ->; contradiction).
          split; [exact B1|]. split; [exact B2|]. split; intros H; [apply B3; intros H'; apply H, U; auto|]. apply U in H. destruct H; [contradiction|auto].
        * intros x Ex Nfr Hm. apply V2; auto. intros L. destruct (Hm L) as [M1 M2]. split; [exact M1|]. intros H. apply M2, U. auto.
      + rewrite A1, Rt. apply Nat.ltb_lt in Lt as Ltb. rewrite Ltb. eexists. split; [reflexivity|]. unfold convert_fiber. rewrite (A3 Hne), Rt.
        destruct V as [V1 V2 V3 V4 V5]. split; cbn [wevents w_os w_fib w_rec w_del o_cur o_live].
        * intros t' Lt'. destruct (Nat.eq_dec t' t) as [->|Ne].
          -- right. rewrite set_eq, Rt. rewrite Rt in A1. split; [exact A1|]. split; [exact A2|]. split; [intros H; destruct H; apply U; auto|auto].
          -- rewrite !set_ne by exact Ne. destruct (V1 t' Lt') as [B|(B1 & B2 & B3 & B4)]; [left; exact B|right].
             split; [exact B1|]. split; [exact B2|]. split; intros H; [apply B3; intros H'; apply H, U; auto|]. apply U in H. destruct H; [contradiction|auto].
        * intros x Ex Nfr Hm. assert (Ne : x <> t) by (intros ->; apply (proj2 (Hm Lt)), U; auto). rewrite set_ne by exact Ne. apply V2; auto.
          intros L. destruct (Hm L) as [M1 M2]. split; [exact M1|]. intros H. apply M2, U. auto.
        * exact V3.
        * exact V4.
        * exact V5.
  Qed.

  Lemma wi_all l : ends_ok n l -> always (hk_rule n) (wevents l) -> (forall c, ~ In (EvFail c) (wevents l)) ->
    exists w, wins n pre conv_ok create_ok l = Some w /\ WI l w.
  Proof.
    induction l as [|i l IH]; intros Hok Hr Hf; [eexists; split; [reflexivity|apply wi_init]|].
    destruct IH as (w & Hw & V).
    - destruct i as [e|t]; [|apply Hok]. destruct e; cbn [ends_ok] in Hok; try exact Hok. apply Hok.
    - destruct i as [e|t]; cbn [wevents] in Hr; [eapply (always_suffix _ [e]); exact Hr|exact Hr].
    - intros c H. apply (Hf c). destruct i; [right|]; exact H.
    - destruct (wi_step l w i V Hok) as (w' & Hw' & V').
      + destruct i as [e|]; [|exact Logic.I]. split; [apply (Hr [] e (wevents l)); reflexivity|]. intros c ->. apply (Hf c). left. reflexivity.
      + exists w'. cbn [wins]. rewrite Hw. auto.
  Qed.
End Inv.

Lemma ends_ok_app n a b : ends_ok n (a ++ b) -> ends_ok n b.
Proof. induction a as [|i a IH]; [auto|]. cbn [app]. intros H. apply IH. destruct i as [e|t]; [destruct e; try exact H; apply H|apply H]. Qed.

Lemma wi_run n pre conv_ok create_ok l s new old :
  (forall t, conv_ok t = true) -> (forall c, create_ok c = true) ->
  run (init n) l = Next s -> calm (s_tr s) -> (forall c, ~ In (EvFail c) (s_tr s)) -> ends_ok n (new ++ old) -> wevents (new ++ old) = s_tr s ->
  exists w, wins n pre conv_ok create_ok old = Some w /\ WI n pre old w.
Proof.
  intros Hc Hcr H C Nf Ok E. apply wi_all; auto.
  - eapply ends_ok_app; eauto.
  - pose proof (hk_rules n l s H C) as R. rewrite <- E, wevents_app in R. eapply always_suffix; eauto.
  - intros c Hi. apply (Nf c). rewrite <- E, wevents_app. apply in_or_app. auto.
Qed.

(** C51: if the operating system can create fibers and convert threads, then at every point of every calm
    history no call of the operating system was undefined or ended a thread; every thread that has used
    the library and has not ended executes exactly the fiber of the context it runs, and the library
    knows which one this is. *)
Theorem C51_fibers_follow_contexts_partial n pre conv_ok create_ok l s new old :
  (forall t, conv_ok t = true) -> (forall c, create_ok c = true) ->
  run (init n) l = Next s -> calm (s_tr s) -> (forall c, ~ In (EvFail c) (s_tr s)) -> ends_ok n (new ++ old) -> wevents (new ++ old) = s_tr s ->
  exists w, wins n pre conv_ok create_ok old = Some w /\ forall t, t < n -> used (wevents old) t -> ~ ended old t ->
    o_cur (w_os w) t = Some (running (wevents old) t) /\ w_rec w t = Some (running (wevents old) t).
Proof.
  intros Hc Hcr H C Nf Ok E. destruct (wi_run n pre conv_ok create_ok l s new old Hc Hcr H C Nf Ok E) as (w & Hw & V). exists w. split; [exact Hw|].
  intros t Lt Us Ne. destruct (u_thr _ _ _ _ V t Lt) as [(_ & N & _)|(A & _ & B & _)]; [contradiction|]. auto.
Qed.
Print Assumptions C51_fibers_follow_contexts_partial.

(** C51: before the stack of a context is given back its fiber is deleted, for the first time, and while no
    thread executes it.  The fiber of a context that can still be resumed exists. *)
Theorem C51_fibers_deleted_partial n pre conv_ok create_ok l s new old d a on :
  (forall t, conv_ok t = true) -> (forall c, create_ok c = true) ->
  run (init n) l = Next s -> calm (s_tr s) -> (forall c, ~ In (EvFail c) (s_tr s)) ->
  ends_ok n (new ++ WEv (EvFree d a on) :: old) -> wevents (new ++ WEv (EvFree d a on) :: old) = s_tr s ->
  exists w w', wins n pre conv_ok create_ok old = Some w /\ wins n pre conv_ok create_ok (WEv (EvFree d a on) :: old) = Some w' /\
    w_del w' = d :: w_del w /\ ~ In d (w_del w) /\ o_live (w_os w) d = true /\ o_live (w_os w') d = false /\
    (forall t, t < n -> o_cur (w_os w) t <> Some d) /\
    (forall c b, In (EvAlloc c b) (wevents old) -> ~ freed (wevents old) c -> c <> d -> o_live (w_os w') c = true).
Proof.
  intros Hc Hcr H C Nf Ok E. pose proof (hk_rules n l s H C) as Rl.
  assert (E2 : s_tr s = wevents new ++ EvFree d a on :: wevents old) by (rewrite <- E, wevents_app; reflexivity).
  destruct (Rl _ _ _ E2) as (((_ & Rf) & _) & _ & _ & _ & Rn). cbn in Rf, Rn. destruct Rf as (Ra & Rx & _ & _).
  destruct (wi_run n pre conv_ok create_ok l s (new ++ [WEv (EvFree d a on)]) old Hc Hcr H C Nf) as (w & Hw & V); [rewrite <- app_assoc; exact Ok|rewrite <- app_assoc; exact E|].
  assert (Ld : n <= d) by (eapply (u_alloc _ _ _ _ V); eauto).
  destruct (u_ctx _ _ _ _ V d) as [Hf Hl]; [right; eauto|exact Rx|lia|].
  exists w. eexists. split; [exact Hw|]. split.
  { cbn [wins wstep]. rewrite Hw. unfold delete. rewrite Hf, Hl, (wi_busy _ _ _ _ _ V Rn). reflexivity. }
  cbn [w_del w_os o_live o_cur]. rewrite set_eq. split; [reflexivity|]. split; [intros Hd; apply Rx; eapply (u_del _ _ _ _ V); eauto|].
  split; [exact Hl|]. split; [reflexivity|]. split.
  - intros t Lt Et. apply (Rn t Lt). symmetry. eapply wi_cur; eauto.
  - intros c b Hb Nc Ne. rewrite set_ne by exact Ne. apply (u_ctx _ _ _ _ V c); [right; eauto|exact Nc|]. intros L. pose proof (u_alloc _ _ _ _ V c b Hb). lia.
Qed.
Print Assumptions C51_fibers_deleted_partial.

(** C51: a thread that was no fiber before it used the library is none after it has ended. *)
Theorem C51_thread_restored_partial n pre conv_ok create_ok l s new old t :
  (forall t, conv_ok t = true) -> (forall c, create_ok c = true) ->
  run (init n) l = Next s -> calm (s_tr s) -> (forall c, ~ In (EvFail c) (s_tr s)) -> ends_ok n (new ++ old) -> wevents (new ++ old) = s_tr s ->
  ended old t -> pre t = false ->
  exists w, wins n pre conv_ok create_ok old = Some w /\ o_cur (w_os w) t = None.
Proof.
  intros Hc Hcr H C Nf Ok E En Hp. destruct (wi_run n pre conv_ok create_ok l s new old Hc Hcr H C Nf Ok E) as (w & Hw & V). exists w. split; [exact Hw|].
  assert (Lt : t < n).
  { apply ends_ok_app in Ok. clear - Ok En. induction old as [|[e|t'] old IH]; [destruct En| |].
    - destruct En as [En|En]; [discriminate|]. apply IH; [destruct e; try exact Ok; apply Ok|exact En].
    - destruct Ok as (Ok & L & _). destruct En as [En|En]; [injection En as <-; exact L|auto]. }
  destruct (u_thr _ _ _ _ V t Lt) as [(_ & _ & _ & A & _)|(_ & _ & _ & B)]; [rewrite A, Hp; reflexivity|apply B, En].
Qed.
Print Assumptions C51_thread_restored_partial.

(** The hypotheses are met: in the history of [demo] a context is entered, left, continued and released; then
    the thread ends. *)
Theorem C51_hypotheses_met : exists s w, run (init 1) demo = Next s /\ calm (s_tr s) /\ (forall c, ~ In (EvFail c) (s_tr s)) /\
  ends_ok 1 (WEnd 0 :: map WEv (s_tr s)) /\ wevents (WEnd 0 :: map WEv (s_tr s)) = s_tr s /\ used (s_tr s) 0 /\
  wins 1 (fun _ => false) (fun _ => true) (fun _ => true) (WEnd 0 :: map WEv (s_tr s)) = Some w /\ w_del w = [1].
Proof.
  destruct uctx_hypotheses_met as (s & H & Hc & _). exists s.
  assert (E : Next s = run (init 1) demo) by (symmetry; exact H). vm_compute in E. injection E as ->.
  eexists. split; [exact H|]. split; [exact Hc|].
  split; [intros c Hi; cbn in Hi; repeat (destruct Hi as [Hi|Hi]; [discriminate|]); exact Hi|].
  split; [cbn; repeat split; auto; intros Hi; cbn in Hi; repeat (destruct Hi as [Hi|Hi]; [discriminate|]); exact Hi|].
  split; [reflexivity|]. split; [do 3 eexists; cbn; eauto 40|]. split; [vm_compute; reflexivity|reflexivity].
Qed.
Print Assumptions C51_hypotheses_met.

(** "A thread is left as it was": refuted if the thread was a fiber already.  The constructor of the main
    record takes over the existing fiber (L80-81), the destructor converts it back nevertheless (L102-103). *)
Theorem C51_thread_restored_refuted : exists l s w,
  run (init 1) l = Next s /\ calm (s_tr s) /\ (forall c, ~ In (EvFail c) (s_tr s)) /\ ends_ok 1 (WEnd 0 :: map WEv (s_tr s)) /\
  o_cur (w_os (winit 1 (fun _ => true))) 0 = Some 0 /\
  wins 1 (fun _ => true) (fun _ => true) (fun _ => true) (WEnd 0 :: map WEv (s_tr s)) = Some w /\ o_cur (w_os w) 0 = None.
Proof.
  destruct C51_hypotheses_met as (s & _ & H & Hc & Hf & Ho & _). exists demo, s.
  assert (E : Next s = run (init 1) demo) by (symmetry; exact H). vm_compute in E. injection E as ->.
  eexists. split; [exact H|]. split; [exact Hc|]. split; [exact Hf|]. split; [exact Ho|]. split; [reflexivity|]. split; [vm_compute; reflexivity|reflexivity].
Qed.
Print Assumptions C51_thread_restored_refuted.

(** "A fiber whose constructor returned can be resumed": refuted if CreateFiber() failed: the result is not
    checked (L257), and the first resume() calls SwitchToFiber( nullptr). *)
Theorem C51_create_fails_refuted : exists l s new t c d k old w,
  run (init 1) l = Next s /\ calm (s_tr s) /\ (forall c, ~ In (EvFail c) (s_tr s)) /\
  s_tr s = new ++ EvSwitch t c d k :: old /\
  wins 1 (fun _ => false) (fun _ => true) (fun _ => false) (map WEv old) = Some w /\ w_fib w d = None /\
  wins 1 (fun _ => false) (fun _ => true) (fun _ => false) (map WEv (EvSwitch t c d k :: old)) = None.
Proof.
  exists [(0, LUser (UCreate 3 [] CrOk)); (0, LUser (UResume 0))].
  eexists. eexists [_; _]. exists 0, 0, 1, SwJump. eexists. eexists. split; [vm_compute; reflexivity|]. cbn [s_tr].
  split; [unfold calm; calm_step; cbn; auto; try split; try no_ev; some_ev|].
  split; [intros c Hi; cbn in Hi; repeat (destruct Hi as [Hi|Hi]; [discriminate|]); exact Hi|].
  split; [reflexivity|]. split; [vm_compute; reflexivity|]. split; reflexivity.
Qed.
Print Assumptions C51_create_fails_refuted.

(** Likewise if the thread cannot be converted to a fiber (L83, unchecked): the first switch is undefined. *)
Theorem C51_convert_fails_refuted : exists l s new t c d k old,
  run (init 1) l = Next s /\ calm (s_tr s) /\ (forall c, ~ In (EvFail c) (s_tr s)) /\
  s_tr s = new ++ EvSwitch t c d k :: old /\
  wins 1 (fun _ => false) (fun _ => false) (fun _ => true) (map WEv old) <> None /\
  wins 1 (fun _ => false) (fun _ => false) (fun _ => true) (map WEv (EvSwitch t c d k :: old)) = None.
Proof.
  exists [(0, LUser (UCreate 3 [] CrOk)); (0, LUser (UResume 0))].
  eexists. eexists [_; _]. exists 0, 0, 1, SwJump. eexists. split; [vm_compute; reflexivity|]. cbn [s_tr].
  split; [unfold calm; calm_step; cbn; auto; try split; try no_ev; some_ev|].
  split; [intros c Hi; cbn in Hi; repeat (destruct Hi as [Hi|Hi]; [discriminate|]); exact Hi|].
  split; [reflexivity|]. split; [vm_compute; discriminate|]. reflexivity.
Qed.
Print Assumptions C51_convert_fails_refuted.
