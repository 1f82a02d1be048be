(** * C50: sanitizers and split stacks follow the context switches (ucontext implementation) *)
From Coq Require Import List Arith Bool Lia ZArith.
From Verif Require Import ListUtil Uctx UctxSpec UctxInv UctxInv2 UctxInv3 UctxInv4 UctxInv5 UctxInv6 UctxInv7 UctxInj UctxObj UctxObj2 UctxObj3 P_Uctx P_Uctx2 UctxFail Hooks.
Import ListNotations.

(* ------------------------------------------------------------------ rules of histories *)

(** a record is freed when no thread executes it *)
Definition free_rule (n : nat) (e : event) (old : list event) : Prop :=
  match e with EvFree d _ _ => forall t, t < n -> running old t <> d | _ => True end.
Lemma step_free n s t a s' : SInv n s' -> step s t a = Next s' -> always (free_rule n) (s_tr s) -> always (free_rule n) (s_tr s').
Proof.
  intros HI' H A.
  destruct (nth_error (s_thr s) t) as [c|] eqn:Ht; [|unfold step in H; rewrite Ht in H; discriminate].
  destruct (nth_error (s_rec s) c) as [x|] eqn:Hc; [|unfold step in H; rewrite Ht, Hc in H; discriminate].
  destruct (C47_step s t a s' c Ht H) as (new & En & Th & _).
  destruct (step_fx s t a s' c x Ht Hc H) as [[(n1 & E1 & _ & F1)|[(d & b & al & n1 & Hd & E1 & _ & F1 & Th')|(m1 & m2 & al & E1 & _ & F1 & G1)]] _].
  - rewrite E1. apply always_app; [exact A|]. intros m e k ->. apply Forall_app in F1. destruct F1 as [_ F1]. pose proof (Forall_inv F1) as He.
    destruct e; try exact Logic.I. destruct He.
  - assert (N1 : no_sw n1).
    { change (EvFree d al c :: s_tr s) with ([EvFree d al c] ++ s_tr s) in E1. rewrite app_assoc in E1. rewrite E1 in En. apply app_inv_tail in En.
      destruct Th as [[N _]|(d' & k & m1 & m2 & E & N1 & N2 & Th)].
      - rewrite <- En in N. unfold no_sw in *. rewrite forallb_app in N. apply andb_prop in N. apply N.
      - exfalso. assert (Hd0 : nth_error (s_thr s') t = Some d') by (rewrite Th; apply nth_upd_lt; eapply nth_some_lt; eauto).
        rewrite Th', Ht in Hd0. injection Hd0 as <-.
        assert (R2 : running (s_tr s') t = c) by (apply (proj2 (i_thr _ _ _ _ HI')); rewrite Th'; exact Ht).
        (* a switch from c to c contradicts the history rule *)
        pose proof (i_tr _ _ _ _ HI') as Tr. assert (Es : s_tr s' = m1 ++ EvSwitch t c c k :: (m2 ++ s_tr s)).
        { rewrite E1, En, E, <- app_assoc. reflexivity. }
        destruct (Tr _ _ _ Es) as (_ & (T1 & _) & _). cbn in T1. destruct T1 as (L & Rn & Ne). exact (Ne t L Rn). }
    rewrite E1. apply always_app.
    + intros m e k E. destruct m as [|y m]; injection E as <- E.
      * cbn. intros t' Lt Rt. destruct (i_thr _ _ _ _ HI') as [L R]. destruct (nth_error (s_thr s') t') as [c'|] eqn:Ec; [|apply nth_error_None in Ec; lia].
        pose proof (R _ _ Ec) as Rc. rewrite E1 in Rc. rewrite (running_nosw n1 _ _ N1) in Rc. cbn in Rc. rewrite E in Rc. assert (Ecd : c' = d) by congruence. rewrite Ecd in Ec. clear Rt Rc Ecd.
        pose proof (i_runs _ _ _ _ HI' t' d Ec) as Al. unfold alive in Al. destruct (nth_error (s_rec s') d) as [z|] eqn:Hz; [|discriminate].
        assert (Fd : freed (s_tr s') d) by (exists al, c; rewrite E1; apply in_or_app; right; left; reflexivity).
        pose proof (proj1 (i_freed _ _ _ _ HI' d z Hz) Fd). congruence.
      * apply (A m e k). exact E.
    + intros m e k ->. apply Forall_app in F1. destruct F1 as [_ F1]. pose proof (Forall_inv F1) as He. destruct e; try exact Logic.I. destruct He.
  - rewrite E1. rewrite app_assoc. change (EvAlloc (length (s_rec s)) al :: s_tr s) with ([EvAlloc (length (s_rec s)) al] ++ s_tr s). rewrite app_assoc.
    apply always_app; [exact A|]. intros m e k E. assert (Hi : In e ((m1 ++ m2) ++ [EvAlloc (length (s_rec s)) al])) by (rewrite E; apply in_or_app; right; left; reflexivity).
    apply in_app_or in Hi. destruct Hi as [Hi|[<-|[]]]; [|exact Logic.I]. apply in_app_or in Hi. destruct Hi as [Hi|Hi].
    + destruct G1 as [[-> _]|(p & o & ->)]; destruct Hi as [<-|[]]; exact Logic.I.
    + rewrite Forall_forall in F1. specialize (F1 _ Hi). destruct e; try contradiction; exact Logic.I.
Qed.
Lemma run_free n l : forall l0 s s', run (init n) l0 = Next s -> always (free_rule n) (s_tr s) -> run s l = Next s' -> calm (s_tr s') -> always (free_rule n) (s_tr s').
Proof.
  induction l as [|[t a] l IH]; intros l0 s s' H0 HF; cbn [run]; [injection 1 as <-; auto|].
  destruct (step s t a) as [s1| | | | |] eqn:E; try discriminate. intros H Hc.
  assert (H1 : run (init n) (l0 ++ [(t, a)]) = Next s1) by (rewrite run_app, H0; cbn; rewrite E; reflexivity).
  assert (C1 : calm (s_tr s1)) by (destruct (run_grows _ _ _ H) as [m Em]; rewrite Em in Hc; eapply always_suffix; eauto).
  apply (IH _ _ _ H1); auto. apply (step_free n s t a s1); auto. eapply calm_inv; eauto.
Qed.

Definition hk_rule (n : nat) (e : event) (old : list event) : Prop :=
  rule n e old /\ target_rule n e old /\ fail_rule e old /\ calm_ev e old /\ free_rule n e old.
Lemma hk_rules n l s : run (init n) l = Next s -> calm (s_tr s) -> always (hk_rule n) (s_tr s).
Proof.
  intros H C. pose proof (calm_inv n l s H C) as HI. intros m e k E. split; [eapply (i_tr _ _ _ _ HI); eauto|].
  split; [eapply (targets n l s H); eauto|]. split; [eapply (failed_never_entered n l s H C); eauto|]. split; [eapply C; eauto|].
  eapply (run_free n l [] (init n) s); eauto; try reflexivity. intros m' e' k' E'. destruct m'; discriminate.
Qed.

(* ------------------------------------------------------------------ the invariant *)

Definition exists_ (n : nat) (tr : list event) (c : nat) : Prop := c < n \/ exists a, In (EvAlloc c a) tr.

Record HI (B : nat -> Z * Z) (seg0 : nat -> nat) (n : nat) (l : list item) (h : hst) : Prop := mk_HI {
  v_thr : forall t, t < n -> let c := running (events l) t in
     s_t h t = mk_t (mk_a (B c) None (own_fake l c)) (Some c) (own_seg seg0 l c) /\ exists_ n (events l) c;
  v_ctx : forall c, exists_ n (events l) c -> (forall t, t < n -> running (events l) t <> c) ->
     h_fake (s_c h c) = own_fake l c /\ h_seg (s_c h c) = own_seg seg0 l c /\ (~ In (EvFail c) (events l) -> h_stack (s_c h c) = B c);
  v_fib : forall c, exists_ n (events l) c -> (~ In (EvFail c) (events l) -> h_fiber (s_c h c) = Some c) /\ (In (EvFail c) (events l) -> h_fiber (s_c h c) = None);
  v_term : forall c, h_term (s_c h c) = true -> done (events l) c;
  v_none : forall c, ~ exists_ n (events l) c -> own_fake l c = None /\ own_seg seg0 l c = seg0 c /\ (forall t, t < n -> running (events l) t <> c) /\ ~ In (EvFail c) (events l);
  v_gone : s_gone h = [];
  v_unfib : forall d, In (Some d) (s_unfib h) -> freed (events l) d;
  v_inj : forall t t', t < n -> t' < n -> running (events l) t = running (events l) t' -> t = t' }.

Lemma put_eq {A} (f : nat -> A) i x : put f i x i = x.
Proof. unfold put. rewrite Nat.eqb_refl. reflexivity. Qed.
Lemma put_ne {A} (f : nat -> A) i x j : j <> i -> put f i x j = f j.
Proof. unfold put. intros H. apply Nat.eqb_neq in H. rewrite H. reflexivity. Qed.
Lemma done_cons e tr c : done tr c -> done (e :: tr) c.
Proof. intros [r H]. exists r. right. exact H. Qed.

Section Inv.
  Variables (B : nat -> Z * Z) (seg0 : nat -> nat) (n : nat).
  Notation HI := (HI B seg0 n).
  Lemma hi_init : HI [] (hinit B seg0).
  Proof.
    split; cbn; auto.
    - intros t Lt. split; [reflexivity|left; exact Lt].
    - intros c [L|[a []]] N. destruct (N c L eq_refl).
    - intros c _. split; [reflexivity|intros []].
    - discriminate.
    - intros c N. split; [reflexivity|]. split; [reflexivity|]. split; [|intros []]. intros t Lt <-. apply N. left. exact Lt.
    - intros d [].
  Qed.
  (** events that concern neither switches nor the existence of contexts *)
  Definition dull (e : event) : bool := match e with EvSwitch _ _ _ _ | EvAlloc _ _ | EvFail _ | EvFree _ _ _ => false | _ => true end.
  Lemma dull_ex e tr c : dull e = true -> exists_ n (e :: tr) c <-> exists_ n tr c.
  Proof.
    intros D. unfold exists_. split; intros [L|[a H]]; auto; right; exists a; [destruct H as [->|H]; [discriminate|exact H]|right; exact H].
  Qed.
  Lemma dull_fail e tr c : dull e = true -> In (EvFail c) (e :: tr) <-> In (EvFail c) tr.
  Proof. intros D. split; [intros [->|H]; [discriminate|exact H]|right; assumption]. Qed.
  Lemma dull_run e tr t : dull e = true -> running (e :: tr) t = running tr t.
  Proof. destruct e; try discriminate; reflexivity. Qed.
  Lemma hi_dull l h e : HI l h -> dull e = true -> HI (IEv e :: l) h.
  Proof.
    intros [V1 V2 V3 V4 V5 V6 V7 V8] D. assert (E : events (IEv e :: l) = e :: events l) by reflexivity. split; rewrite ?E.
    - intros t Lt. rewrite (dull_run _ _ _ D). destruct (V1 t Lt) as [A A']. split; [exact A|]. apply (proj2 (dull_ex e _ _ D)). exact A'.
    - intros c Ex N. apply (proj1 (dull_ex e _ _ D)) in Ex. destruct (V2 c Ex) as (A1 & A2 & A3); [intros t Lt; rewrite <- (dull_run e _ _ D); auto|].
      split; [exact A1|]. split; [exact A2|]. intros F. apply A3. intros F'. apply F. right. exact F'.
    - intros c Ex. apply (proj1 (dull_ex e _ _ D)) in Ex. destruct (V3 c Ex) as [A1 A2]. split; intros F; [apply A1; intros F'; apply F; right; exact F'|]. apply A2. apply (proj1 (dull_fail e _ _ D)) in F. exact F.
    - intros c Hc. apply done_cons. auto.
    - intros c N. destruct (V5 c) as (A1 & A2 & A3 & A4); [intros Ex; apply N; apply (proj2 (dull_ex e _ _ D)); exact Ex|]. split; [exact A1|]. split; [exact A2|].
      split; [intros t Lt; rewrite (dull_run _ _ _ D); auto|]. intros F. apply (proj1 (dull_fail e _ _ D)) in F. auto.
    - exact V6.
    - intros d Hd. apply (freed_app [e]). auto.
    - intros t t' L L'. rewrite !(dull_run _ _ _ D). auto.
  Qed.

  Lemma hi_step l h i : HI l h -> items_ok n (i :: l) -> match i with IEv e => hk_rule n e (events l) | _ => True end ->
    exists h', hook B seg0 h i = Some h' /\ HI (i :: l) h'.
  Proof.
    intros V Hok Hr. destruct i as [e|t f|t v].
    - destruct e as [c a|c|c a on|t c d k| | | | | | | | | | |]; try (exists h; split; [reflexivity|]; apply hi_dull; [exact V|reflexivity]); cbn [hook].
      + (* EvAlloc *)
        destruct Hr as (_ & (Ln & Nal) & _). eexists. split; [reflexivity|]. destruct V as [V1 V2 V3 V4 V5 V6 V7 V8].
        assert (Nx : ~ exists_ n (events l) c) by (intros [L|[a' Ha]]; [lia|exact (Nal _ Ha)]).
        destruct (V5 c Nx) as (N1 & N2 & N3 & N4).
        assert (Ex : forall x, exists_ n (EvAlloc c a :: events l) x -> x = c \/ (x <> c /\ exists_ n (events l) x)).
        { intros x Hx. destruct (Nat.eq_dec x c) as [->|Ne]; [auto|right; split; [exact Ne|]]. destruct Hx as [L|[a' [E|Hx]]]; [left; exact L|congruence|right; eauto]. }
        split; cbn [events s_t s_c s_gone s_unfib own_fake own_seg running].
        * intros t Lt. destruct (V1 t Lt) as [A A']. split; [exact A|]. destruct A' as [L|[a' Ha]]; [left; exact L|right; exists a'; right; exact Ha].
        * intros x Hx N. destruct (Ex x Hx) as [->|[Ne Hx']].
          -- rewrite put_eq. cbn. auto.
          -- rewrite put_ne by exact Ne. destruct (V2 x Hx' N) as (A1 & A2 & A3). split; [exact A1|]. split; [exact A2|]. intros F. apply A3. intros F'. apply F. right. exact F'.
        * intros x Hx. destruct (Ex x Hx) as [->|[Ne Hx']].
          -- rewrite put_eq. cbn. split; [reflexivity|]. intros [E|F]; [discriminate|]. destruct (N4 F).
          -- rewrite put_ne by exact Ne. destruct (V3 x Hx') as [A1 A2]. split; intros F; [apply A1; intros F'; apply F; right; exact F'|]. destruct F as [E|F]; [discriminate|auto].
        * intros x Hx. apply done_cons. apply V4. destruct (Nat.eq_dec x c) as [->|Ne]; [rewrite put_eq in Hx; discriminate|]. rewrite put_ne in Hx by exact Ne. exact Hx.
        * intros x N. destruct (V5 x) as (A1 & A2 & A3 & A4); [intros [L|[a' Ha]]; apply N; [left; exact L|right; exists a'; right; exact Ha]|].
          split; [exact A1|]. split; [exact A2|]. split; [exact A3|]. intros [E|F]; [discriminate|auto].
        * exact V6.
        * intros x Hx. apply (freed_app [_]). auto.
        * exact V8.
      + (* EvFail *)
        destruct Hr as (_ & [al Hal] & _). eexists. split; [reflexivity|]. destruct V as [V1 V2 V3 V4 V5 V6 V7 V8].
        assert (Xc : exists_ n (events l) c) by (right; eauto).
        assert (Ex : forall x, exists_ n (EvFail c :: events l) x -> exists_ n (events l) x).
        { intros x [L|[a' [E|Hx]]]; [left; exact L|discriminate|right; eauto]. }
        split; cbn [events s_t s_c s_gone s_unfib own_fake own_seg running].
        * intros t Lt. destruct (V1 t Lt) as [A A']. split; [exact A|]. destruct A' as [L|[a' Ha]]; [left; exact L|right; exists a'; right; exact Ha].
        * intros x Hx N. apply Ex in Hx. destruct (V2 x Hx N) as (A1 & A2 & A3). destruct (Nat.eq_dec x c) as [->|Ne].
          -- rewrite put_eq. cbn. split; [exact A1|]. split; [exact A2|]. intros F. destruct F. left. reflexivity.
          -- rewrite put_ne by exact Ne. split; [exact A1|]. split; [exact A2|]. intros F. apply A3. intros F'. apply F. right. exact F'.
        * intros x Hx. apply Ex in Hx. destruct (V3 x Hx) as [A1 A2]. destruct (Nat.eq_dec x c) as [->|Ne].
          -- rewrite put_eq. cbn. split; [intros F; destruct F; left; reflexivity|reflexivity].
          -- rewrite put_ne by exact Ne. split; intros F; [apply A1; intros F'; apply F; right; exact F'|]. destruct F as [E|F]; [congruence|auto].
        * intros x Hx. apply done_cons. apply V4. destruct (Nat.eq_dec x c) as [->|Ne]; [rewrite put_eq in Hx; exact Hx|]. rewrite put_ne in Hx by exact Ne. exact Hx.
        * intros x N. destruct (V5 x) as (A1 & A2 & A3 & A4); [intros [L|[a' Ha]]; apply N; [left; exact L|right; exists a'; right; exact Ha]|].
          split; [exact A1|]. split; [exact A2|]. split; [exact A3|]. intros [E|F]; [|auto]. injection E as ->. apply N. right. exists al. right. exact Hal.
        * exact V6.
        * intros x Hx. apply (freed_app [_]). auto.
        * exact V8.
      + (* EvFree *)
        destruct Hr as (((_ & Hfr) & _) & _). cbn in Hfr. eexists. split; [reflexivity|]. destruct V as [V1 V2 V3 V4 V5 V6 V7 V8].
        assert (Ex : forall x, exists_ n (EvFree c a on :: events l) x -> exists_ n (events l) x).
        { intros x [L|[a' [E|Hx]]]; [left; exact L|discriminate|right; eauto]. }
        assert (Fl : forall x, In (EvFail x) (EvFree c a on :: events l) -> In (EvFail x) (events l)) by (intros x [E|H]; [discriminate|exact H]).
        assert (Xc : exists_ n (events l) c) by (right; eexists; apply (proj1 Hfr)).
        split; cbn [events s_t s_c s_gone s_unfib own_fake own_seg running].
        * intros t Lt. destruct (V1 t Lt) as [A A']. split; [exact A|]. destruct A' as [L|[a' Ha]]; [left; exact L|right; exists a'; right; exact Ha].
        * intros x Hx N. apply Ex in Hx. destruct (V2 x Hx N) as (A1 & A2 & A3). split; [exact A1|]. split; [exact A2|]. intros F. apply A3. intros F'. apply F. right. exact F'.
        * intros x Hx. apply Ex in Hx. destruct (V3 x Hx) as [A1 A2]. split; intros F; [apply A1; intros F'; apply F; right; exact F'|auto].
        * intros x Hx. apply done_cons. auto.
        * intros x N. destruct (V5 x) as (A1 & A2 & A3 & A4); [intros [L|[a' Ha]]; apply N; [left; exact L|right; exists a'; right; exact Ha]|].
          split; [exact A1|]. split; [exact A2|]. split; [exact A3|]. intros F; auto.
        * exact V6.
        * intros x [Hx|Hx]; [|apply (freed_app [_]); auto]. destruct (V3 c Xc) as [A1 A2].
          assert (In (EvFail c) (events l) \/ ~ In (EvFail c) (events l)) as [F|F].
          { destruct (in_dec (fun e1 e2 : event => ltac:(clear; repeat decide equality) : {e1 = e2} + {e1 <> e2}) (EvFail c) (events l)); auto. }
          -- rewrite (A2 F) in Hx. discriminate.
          -- rewrite (A1 F) in Hx. injection Hx as <-. exists a, on. left. reflexivity.
        * exact V8.
      + (* EvSwitch *)
        destruct Hr as ((_ & (Hth & _) & _ & Hlife) & Htg & Hfl & Hcalm & _). cbn in Hth, Htg, Hfl.
        destruct Hth as (Lt & Rt & Nd). destruct V as [V1 V2 V3 V4 V5 V6 V7 V8].
        destruct (V1 t Lt) as [T1 T2]. rewrite Rt in T1, T2.
        assert (Xd : exists_ n (events l) d) by exact Htg.
        destruct (V2 d Xd Nd) as (D1 & D2 & D3). specialize (D3 Hfl). destruct (V3 d Xd) as [F1 _]. specialize (F1 Hfl).
        assert (Kl : match k with SwOntop _ | SwUnwind => false | _ => h_term (s_c h d) end = false).
        { destruct k; try reflexivity; (destruct (h_term (s_c h d)) eqn:Et; [|reflexivity]); exfalso; apply V4 in Et; cbn in Hcalm; tauto. }
        assert (Ncd : c <> d) by (intros ->; exact (Nd t Lt Rt)).
        unfold hswitch. rewrite Kl, T1. cbn [t_asan t_tsan t_seg start_switch finish_switch a_next a_stack a_fake app].
        eexists. split; [reflexivity|].
        assert (Ex : forall x, exists_ n (EvSwitch t c d k :: events l) x <-> exists_ n (events l) x).
        { intros x. unfold exists_. split; intros [L|[a' Hx]]; auto; right; exists a'; [destruct Hx as [E|Hx]; [discriminate|exact Hx]|right; exact Hx]. }
        assert (Fl : forall x, In (EvFail x) (EvSwitch t c d k :: events l) <-> In (EvFail x) (events l)) by (intros x; split; [intros [E|H]; [discriminate|exact H]|right; assumption]).
        split; cbn [events s_t s_c s_gone s_unfib own_fake own_seg running].
        * intros t' Lt'. destruct (Nat.eqb_spec t t') as [<-|Ne].
          -- rewrite put_eq. split; [|apply Ex; exact Xd]. rewrite D1, D2, D3, F1. destruct (own_fake l d); reflexivity.
          -- rewrite put_ne by auto. destruct (V1 t' Lt') as [A A']. split; [exact A|apply Ex; exact A'].
        * intros x Hx N. apply (proj1 (Ex _)) in Hx.
          assert (Nx : x <> d) by (intros ->; apply (N t Lt); rewrite Nat.eqb_refl; reflexivity).
          destruct (Nat.eq_dec x c) as [->|Ne].
          -- rewrite put_eq. cbn. auto.
          -- rewrite put_ne by exact Ne. destruct (V2 x Hx) as (A1 & A2 & A3).
             { intros t' Lt' E. destruct (Nat.eq_dec t t') as [<-|Nt]; [congruence|]. apply (N t' Lt'). apply Nat.eqb_neq in Nt. rewrite Nt. exact E. }
             split; [exact A1|]. split; [exact A2|]. intros F. apply A3. intros F'. apply F. right. exact F'.
        * intros x Hx. apply (proj1 (Ex _)) in Hx. assert (Q : h_fiber (put (s_c h) c (mk_h (own_fake l c) (B c) (h_fiber (match k with SwExit => mk_h (h_fake (s_c h c)) (h_stack (s_c h c)) (h_fiber (s_c h c)) (h_seg (s_c h c)) true | _ => s_c h c end)) (own_seg seg0 l c) (h_term (match k with SwExit => mk_h (h_fake (s_c h c)) (h_stack (s_c h c)) (h_fiber (s_c h c)) (h_seg (s_c h c)) true | _ => s_c h c end))) x) = h_fiber (s_c h x)).
          { destruct (Nat.eq_dec x c) as [->|Ne]; [rewrite put_eq; destruct k; reflexivity|rewrite put_ne by exact Ne; reflexivity]. }
          cbn [h_fake h_stack h_fiber h_seg h_term] in *. destruct (V3 x Hx) as [A1 A2]. rewrite Q. split; intros F; [apply A1; intros F'; apply F; right; exact F'|]. apply A2. apply Fl. exact F.
        * intros x Hx. destruct (Nat.eq_dec x c) as [->|Ne].
          -- rewrite put_eq in Hx. cbn in Hx. destruct k; cbn in Hx; try (apply done_cons; apply V4; exact Hx).
             apply done_cons. exists (Some d). exact Hlife.
          -- rewrite put_ne in Hx by exact Ne. apply done_cons. auto.
        * intros x N. destruct (V5 x) as (A1 & A2 & A3 & A4); [intros Hx; apply N; apply Ex; exact Hx|]. split; [exact A1|]. split; [exact A2|].
          split; [|intros F; apply A4, Fl, F]. intros t' Lt'. destruct (Nat.eqb_spec t t') as [<-|Nt]; [|auto]. intros ->. apply N. apply Ex. exact Xd.
        * exact V6.
        * intros x Hx. apply (freed_app [_]). auto.
        * intros t1 t2 L1 L2. destruct (Nat.eqb_spec t t1) as [<-|N1]; destruct (Nat.eqb_spec t t2) as [<-|N2]; auto.
          -- intros E. destruct (Nd t2 L2). auto.
          -- intros E. destruct (Nd t1 L1). auto.
    - (* IFake *)
      assert (Lt : t < n) by (apply (Hok (IFake t f)); left; reflexivity). destruct V as [V1 V2 V3 V4 V5 V6 V7 V8]. destruct (V1 t Lt) as [T1 T2].
      cbn [hook]. eexists. split; [reflexivity|]. rewrite T1. cbn [t_asan t_tsan t_seg a_next a_stack a_fake].
      split; cbn [events s_t s_c s_gone s_unfib own_fake own_seg]; auto.
      + intros t' Lt'. destruct (Nat.eq_dec t' t) as [->|Ne].
        * rewrite put_eq, Nat.eqb_refl. split; [reflexivity|exact T2].
        * rewrite put_ne by exact Ne. destruct (V1 t' Lt') as [A A']. split; [|exact A'].
          destruct (Nat.eqb_spec (running (events l) t) (running (events l) t')) as [E|E]; [|exact A]. destruct Ne. auto.
      + intros c Hc N. destruct (V2 c Hc N) as (A1 & A2 & A3). destruct (Nat.eqb_spec (running (events l) t) c) as [E|E]; [destruct (N t Lt E)|auto].
      + intros c N. destruct (V5 c N) as (A1 & A2 & A3 & A4). destruct (Nat.eqb_spec (running (events l) t) c) as [E|E]; [destruct (A3 t Lt E)|auto].
    - (* ISeg *)
      assert (Lt : t < n) by (apply (Hok (ISeg t v)); left; reflexivity). destruct V as [V1 V2 V3 V4 V5 V6 V7 V8]. destruct (V1 t Lt) as [T1 T2].
      cbn [hook]. eexists. split; [reflexivity|]. rewrite T1. cbn [t_asan t_tsan t_seg a_next a_stack a_fake].
      split; cbn [events s_t s_c s_gone s_unfib own_fake own_seg]; auto.
      + intros t' Lt'. destruct (Nat.eq_dec t' t) as [->|Ne].
        * rewrite put_eq, Nat.eqb_refl. split; [reflexivity|exact T2].
        * rewrite put_ne by exact Ne. destruct (V1 t' Lt') as [A A']. split; [|exact A'].
          destruct (Nat.eqb_spec (running (events l) t) (running (events l) t')) as [E|E]; [|exact A]. destruct Ne. auto.
      + intros c Hc N. destruct (V2 c Hc N) as (A1 & A2 & A3). destruct (Nat.eqb_spec (running (events l) t) c) as [E|E]; [destruct (N t Lt E)|auto].
      + intros c N. destruct (V5 c N) as (A1 & A2 & A3 & A4). destruct (Nat.eqb_spec (running (events l) t) c) as [E|E]; [destruct (A3 t Lt E)|auto].
  Qed.
End Inv.

Lemma hi_all B seg0 n l : items_ok n l -> always (hk_rule n) (events l) -> exists h, hooks B seg0 l = Some h /\ HI B seg0 n l h.
Proof.
  induction l as [|i l IH]; intros Hok Hr; [eexists; split; [reflexivity|apply hi_init]|].
  destruct IH as (h & Hh & V).
  - intros j Hj. apply (Hok j). right. exact Hj.
  - destruct i; cbn [events] in Hr; try exact Hr. eapply (always_suffix _ [e]); exact Hr.
  - destruct (hi_step B seg0 n l h i V Hok) as (h' & Hh' & V').
    + destruct i; try exact Logic.I. apply (Hr [] e (events l)). reflexivity.
    + exists h'. cbn [hooks]. rewrite Hh. auto.
Qed.
Lemma events_app a b : events (a ++ b) = events a ++ events b.
Proof. induction a as [|[] a IH]; cbn; congruence. Qed.
Lemma hi_run B seg0 n l s new old : run (init n) l = Next s -> calm (s_tr s) -> items_ok n (new ++ old) -> events (new ++ old) = s_tr s ->
  exists h, hooks B seg0 old = Some h /\ HI B seg0 n old h.
Proof.
  intros H C Ok E. apply hi_all.
  - intros i Hi. apply Ok. apply in_or_app. auto.
  - pose proof (hk_rules n l s H C) as R. rewrite <- E, events_app in R. eapply always_suffix; eauto.
Qed.

(** C50: at every point of every calm history, for every thread: the sanitizer runtime has never been called
    out of order; AddressSanitizer takes the stack of the context the thread executes for the current
    one, and uses the fake stack that belongs to that context; ThreadSanitizer attributes the
    execution to that context; and the split-stack state is the context's own. *)
Theorem C50_runtime_follows_switches_partial B seg0 n l s new old :
  run (init n) l = Next s -> calm (s_tr s) -> items_ok n (new ++ old) -> events (new ++ old) = s_tr s ->
  exists h, hooks B seg0 old = Some h /\ forall t, t < n ->
    let c := running (events old) t in
    a_stack (t_asan (s_t h t)) = B c /\ a_next (t_asan (s_t h t)) = None /\ a_fake (t_asan (s_t h t)) = own_fake old c /\
    t_tsan (s_t h t) = Some c /\ t_seg (s_t h t) = own_seg seg0 old c.
Proof.
  intros H C Ok E. destruct (hi_run B seg0 n l s new old H C Ok E) as (h & Hh & V). exists h. split; [exact Hh|]. intros t Lt.
  destruct (v_thr _ _ _ _ _ V t Lt) as [T _]. cbv zeta. rewrite T. cbn. auto.
Qed.
Print Assumptions C50_runtime_follows_switches_partial.

(** C50: when the stack of a context is given back, its ThreadSanitizer fiber is destroyed: the fiber created
    for this context, for the first time, and while no thread uses it; and the split-stack segments
    given back are those the context ended with.  (If the construction of the context failed, no fiber
    exists and the null pointer is passed to __tsan_destroy_fiber.) *)
Theorem C50_release_partial B seg0 n l s new old d a on :
  run (init n) l = Next s -> calm (s_tr s) -> items_ok n (new ++ IEv (EvFree d a on) :: old) -> events (new ++ IEv (EvFree d a on) :: old) = s_tr s ->
  exists h h', hooks B seg0 old = Some h /\ hooks B seg0 (IEv (EvFree d a on) :: old) = Some h' /\
    (~ In (EvFail d) (events old) -> s_unfib h' = Some d :: s_unfib h) /\
    (In (EvFail d) (events old) -> s_unfib h' = None :: s_unfib h) /\
    ~ In (Some d) (s_unfib h) /\ (forall t, t < n -> t_tsan (s_t h t) <> Some d) /\
    s_unseg h' = (d, own_seg seg0 old d) :: s_unseg h.
Proof.
  intros H C Ok E. pose proof (hk_rules n l s H C) as Rl.
  assert (E2 : s_tr s = events new ++ EvFree d a on :: events old) by (rewrite <- E, events_app; reflexivity).
  destruct (Rl _ _ _ E2) as (((_ & Rf) & _) & Rt & _ & _ & Ri). cbn in Rf, Rt, Ri.
  destruct (hi_run B seg0 n l s (new ++ [IEv (EvFree d a on)]) old H C) as (h & Hh & V); [rewrite <- app_assoc; exact Ok|rewrite <- app_assoc; exact E|].
  exists h. eexists. split; [exact Hh|]. split; [cbn [hooks]; rewrite Hh; reflexivity|]. cbn [s_unfib s_unseg].
  assert (X : exists_ n (events old) d) by (right; exists a; apply (proj1 Rf)).
  destruct (v_fib _ _ _ _ _ V d X) as [F1 F2]. destruct (v_ctx _ _ _ _ _ V d X Ri) as (_ & S2 & _).
  split; [intros F; rewrite (F1 F); reflexivity|]. split; [intros F; rewrite (F2 F); reflexivity|]. split; [intros Hi; apply (v_unfib _ _ _ _ _ V) in Hi; tauto|].
  split; [|rewrite S2; reflexivity]. intros t Lt. destruct (v_thr _ _ _ _ _ V t Lt) as [T _]. rewrite T. cbn. intros Et. injection Et as Et. exact (Ri t Lt Et).
Qed.
Print Assumptions C50_release_partial.

(** C50, suspended contexts: what AddressSanitizer will be told when the context is continued is right. *)
Theorem C50_suspended_partial B seg0 n l s new old c :
  run (init n) l = Next s -> calm (s_tr s) -> items_ok n (new ++ old) -> events (new ++ old) = s_tr s ->
  (c < n \/ exists a, In (EvAlloc c a) (events old)) -> (forall t, t < n -> running (events old) t <> c) ->
  exists h, hooks B seg0 old = Some h /\ h_fake (s_c h c) = own_fake old c /\ h_seg (s_c h c) = own_seg seg0 old c /\
    (~ In (EvFail c) (events old) -> h_stack (s_c h c) = B c).
Proof.
  intros H C Ok E X N. destruct (hi_run B seg0 n l s new old H C Ok E) as (h & Hh & V). exists h. split; [exact Hh|]. exact (v_ctx _ _ _ _ _ V c X N).
Qed.
Print Assumptions C50_suspended_partial.

(** "A finished context's fake stack is released": refuted.  L149 tests the flag of the context that is
    continued, not of the one that is left; so in calm histories no fake stack is ever released ... *)
Theorem C50_fake_stacks_never_released B seg0 n l s items :
  run (init n) l = Next s -> calm (s_tr s) -> items_ok n items -> events items = s_tr s ->
  exists h, hooks B seg0 items = Some h /\ s_gone h = [].
Proof.
  intros H C Ok E. destruct (hi_run B seg0 n l s [] items H C Ok E) as (h & Hh & V). exists h. split; [exact Hh|]. apply (v_gone _ _ _ _ _ V).
Qed.
Print Assumptions C50_fake_stacks_never_released.

(** ... although contexts that own one finish and are deallocated: here context 1 owns fake stack 43, has
    finished, its stack is deallocated, and the fake stack is never given back. *)
Definition weave (tr : list event) : list item :=
  flat_map (fun e => match e with EvEnter c _ => [ISeg 0 (10 + c); IFake 0 (42 + c); IEv e] | _ => [IEv e] end) tr.
Lemma weave_events tr : events (weave tr) = tr.
Proof. induction tr as [|e tr IH]; [reflexivity|]. unfold weave in *. cbn [flat_map]. rewrite events_app, IH. destruct e; reflexivity. Qed.
Lemma weave_ok n tr : 0 < n -> items_ok n (weave tr).
Proof.
  intros Hn i Hi. unfold weave in Hi. apply in_flat_map in Hi as (e & _ & Hi). destruct e; cbn in Hi; repeat destruct Hi as [<-|Hi]; try exact Logic.I; try exact Hn; destruct Hi.
Qed.
Theorem C50_fake_stack_leak_refuted : exists l s items h f,
  run (init 1) l = Next s /\ calm (s_tr s) /\ items_ok 1 items /\ events items = s_tr s /\
  hooks (fun c => (Z.of_nat c * 65536, 4096)%Z) (fun c => c) items = Some h /\
  own_fake items 1 = Some f /\ done (s_tr s) 1 /\ freed (s_tr s) 1 /\ ~ In f (s_gone h).
Proof.
  destruct uctx_hypotheses_met as (s & H & Hc & _ & Hf & _). exists demo, s, (weave (s_tr s)).
  destruct (C50_fake_stacks_never_released (fun c => (Z.of_nat c * 65536, 4096)%Z) (fun c => c) 1 demo s (weave (s_tr s)) H Hc (weave_ok 1 _ Nat.lt_0_1) (weave_events _)) as (h & Hh & Hg).
  exists h, 43. split; [exact H|]. split; [exact Hc|]. split; [apply weave_ok; lia|]. split; [apply weave_events|]. split; [exact Hh|].
  split; [|split; [|split; [exact Hf|rewrite Hg; auto]]].
  - assert (E : Next s = run (init 1) demo) by (symmetry; exact H). vm_compute in E. injection E as ->. reflexivity.
  - assert (E : Next s = run (init 1) demo) by (symmetry; exact H). vm_compute in E. injection E as ->. clear. unfold done. cbn. eauto 40.
Qed.
Print Assumptions C50_fake_stack_leak_refuted.

(** Failed getcontext() (L322-328) under ThreadSanitizer: the record's destructor destroys a fiber that was
    never created (null pointer). *)
Theorem C50_tsan_failed_getcontext_refuted : exists l s h,
  run (init 1) l = Next s /\ calm (s_tr s) /\
  hooks (fun c => (Z.of_nat c * 65536, 4096)%Z) (fun c => c) (map IEv (s_tr s)) = Some h /\ In None (s_unfib h).
Proof.
  exists [(0, LUser (UCreate 3 [] CrNoCtx)); (0, LTau)]. eexists. eexists. split; [vm_compute; reflexivity|]. split; [|split; [vm_compute; reflexivity|left; reflexivity]].
  cbn. repeat (apply always_cons; split; [|]); try exact Logic.I. apply always_nil.
Qed.
Print Assumptions C50_tsan_failed_getcontext_refuted.

(** The hypotheses are met: a context is entered, gets a fake stack and more segments, is left, continued
    and released. *)
Theorem C50_hypotheses_met : exists s h, run (init 1) demo = Next s /\ calm (s_tr s) /\ items_ok 1 (weave (s_tr s)) /\ events (weave (s_tr s)) = s_tr s /\
  hooks (fun c => (Z.of_nat c * 65536, 4096)%Z) (fun c => c) (weave (s_tr s)) = Some h /\ s_unfib h = [Some 1] /\ s_unseg h = [(1, 11)] /\
  own_fake (weave (s_tr s)) 1 = Some 43 /\ own_seg (fun c => c) (weave (s_tr s)) 0 = 0.
Proof.
  destruct uctx_hypotheses_met as (s & H & Hc & _). exists s.
  assert (E : Next s = run (init 1) demo) by (symmetry; exact H). vm_compute in E. injection E as ->.
  eexists. split; [exact H|]. split; [exact Hc|]. split; [apply weave_ok; lia|]. split; [apply weave_events|]. split; [vm_compute; reflexivity|].
  split; [reflexivity|]. split; [reflexivity|]. split; reflexivity.
Qed.
Print Assumptions C50_hypotheses_met.
