(** C56: what a hand-over of a fiber to another thread has to transport. A thread that switches away
    from a fiber has seen all stores to what the suspended call owns, and nobody stores there until the
    fiber is switched to again. A thread that has seen what that thread has seen can thus switch to it. *)
From Coq Require Import ZArith List String Lia Bool Arith.
From Verif Require Import ListUtil Fiber FiberSpec LinkHist LinkShuffle.
From Verif Require Import Word AsmMachine AsmSym AsmAbi AsmCheck AsmCode AsmCode2 AsmFacts AsmHist P_Asm AsmIl Link P_Link.
From Verif Require Import LinkStep LinkStepInv LinkStepInv2 LinkStepInv3 P_LinkStep LinkWeak LinkWeakInv P_LinkWeak.
Import ListNotations.
Open Scope list_scope.
Open Scope Z_scope.

Section Hand.
  Variable A : port.
  Variable L : string -> Z.
  Variable n : nat.
  Hypothesis IN : In A ports.
  Hypothesis LAB : labels_ok A L.
  Local Notation B := (p_abi A).
  Local Notation C := (p_code A).
  Local Notation P := (ab_cpu (p_abi A)).

  Definition seen_by_left (tr : list event) (W : weak) : Prop :=
    forall t c h to k a, In (EvSwitch t c h to k) tr -> suspended tr h -> (forall t', goal (k_ph W t') <> Some (fc_ctx h)) ->
      owned A (k_m W) h a -> latest W t a.

  Lemma put_latest W t r val pos p t0 a : val a = None -> latest W t0 a -> latest (put_stores W t r val pos p) t0 a.
  Proof. intros E H q. unfold put_stores. cbn [k_seen k_msg]. rewrite E. apply H. Qed.

  Lemma not_switch e tr h (t c : nat) (to : fctx) k : match e with EvSwitch _ _ _ _ _ => False | _ => True end ->
    In (EvSwitch t c h to k) (e :: tr) -> suspended (e :: tr) h -> In (EvSwitch t c h to k) tr /\ suspended tr h.
  Proof.
    intros Q I S. split; [destruct I as [->|I]; [contradiction|exact I]|]. apply (susp_quiet e); [|exact S]. destruct e; try reflexivity. contradiction.
  Qed.

  Lemma hand tr W : wexec A L n tr W -> good n tr -> seen_by_left tr W.
  Proof.
    induction 1 as [M Wf Bd D|tr W seen X IH SE|tr W t r val pos X IH Ht NI RB VB OW FT PL|tr W e X IH Q
      |tr W c a lo hi X IH B0 B1 D
      |tr W t d X IH Ht FR s c UT UC MS O1 O2 T1 T2 LA|tr W t me to hh c0 X IH Ht FR s c CS AT OS LA
      |tr W t me to k X IH Ht FR K s c S UC HO CS AT OS LA|tr W t r i rest b s v val pos X IH Ht FR E V1 V2 PL
      |tr W t r x rest b s X IH Ht FR GO|tr W t d x rest b s X IH Ht FR
      |tr W t r me to k c0 x rest b s X IH Ht FR GO KK]; intros G; intros t0 c1 h to1 k1 a1 EV SU GL OW1.
    - destruct EV.
    - intros q Hq. cbn [k_seen k_msg] in *. destruct (SE t0 a1) as [H _].
      apply (IH G t0 c1 h to1 k1 a1 EV SU GL OW1). lia.
    - apply put_latest; [eapply OW; eauto|]. apply (IH G t0 c1 h to1 k1 a1 EV SU); [|exact OW1].
      intros t' Q. apply (GL t'). cbn [put_stores k_ph]. destruct (Nat.eqb_spec t' t) as [E|]; [subst t'|]; exact Q.
    - destruct (not_switch e tr h t0 c1 to1 k1 ltac:(destruct e; auto) EV SU) as [EV' SU'].
      exact (IH (good_tl _ _ _ G) t0 c1 h to1 k1 a1 EV' SU' GL OW1).
    - destruct (not_switch (EvAlloc c a) tr h t0 c1 to1 k1 Logic.I EV SU) as [EV' SU'].
      exact (IH (good_tl _ _ _ G) t0 c1 h to1 k1 a1 EV' SU' GL OW1).
    - apply (IH G t0 c1 h to1 k1 a1 EV SU); [|exact OW1].
      intros t' Q. apply (GL t'). cbn [wset_ph k_ph]. destruct (Nat.eqb_spec t' t) as [E|]; [subst t'; rewrite FR in Q; discriminate|exact Q].
    - apply (IH G t0 c1 h to1 k1 a1 EV SU); [|exact OW1].
      intros t' Q. apply (GL t'). cbn [wset_ph k_ph]. destruct (Nat.eqb_spec t' t) as [E|]; [subst t'; rewrite FR in Q; exact Q|exact Q].
    - apply (IH G t0 c1 h to1 k1 a1 EV SU); [|exact OW1].
      intros t' Q. apply (GL t'). cbn [wset_ph k_ph]. destruct (Nat.eqb_spec t' t) as [E|]; [subst t'; rewrite FR in Q; discriminate|exact Q].
    - (* step *)
      assert (GL' : forall t', goal (k_ph W t') <> Some (fc_ctx h)).
      { intros t' Q. apply (GL t'). cbn [put_stores k_ph]. destruct (Nat.eqb_spec t' t) as [Z|]; [subst t'; rewrite FR in Q; exact Q|exact Q]. }
      apply put_latest; [|exact (IH G t0 c1 h to1 k1 a1 EV SU GL' OW1)].
      destruct (val a1) as [y|] eqn:VA; [|reflexivity]. exfalso. destruct (V1 a1 y VA) as [TO _].
      destruct (weak_sim A L n IN LAB tr W X G) as (F & top & XF & Y). destruct (fgets A L n IN LAB tr F XF G) as (N & XN & R & V).
      pose proof (wnext A L n tr W F top N Y R t _ _ _ _ _ a1 FR TO) as FT.
      assert (OF : owned A (f_m F) h a1) by (unfold owned in *; rewrite <- (y_at _ _ _ _ Y); exact OW1).
      destruct (foot_home A L n IN LAB tr F N t a1 R V G Ht FT) as (c & HC & Hc).
      pose proof (owned_in A L n IN LAB tr F N h a1 R V SU OF) as Ho.
      destruct HC as [-> |HC].
      + apply (owned_out A L n IN LAB tr F N h a1 (running tr t) R XN G SU OF); [left; eauto|exact Hc].
      + rewrite <- (goal_same A _ _ _ (y_ph _ _ _ _ Y t)) in HC.
        assert (HS : has_stack n tr c).
        { pose proof (l_ph _ _ _ _ _ _ R t Ht) as PH. rewrite (goal_same A _ _ _ (y_ph _ _ _ _ Y t)) in HC.
          exact (proj1 (goal_ctx A L n _ _ _ _ _ _ G PH HC)). }
        refine (stacks_disj A L n _ _ _ _ _ a1 R V (has_susp n tr h G SU) HS _ Ho Hc).
        intros Q. apply (GL' t). rewrite Q. exact HC.
    - apply (IH G t0 c1 h to1 k1 a1 EV SU); [|exact OW1].
      intros t' Q. apply (GL t'). cbn [wset_ph k_ph]. destruct (Nat.eqb_spec t' t) as [E|]; [subst t'; rewrite FR in Q; exact Q|exact Q].
    - apply (IH G t0 c1 h to1 k1 a1 EV SU); [|exact OW1].
      intros t' Q. apply (GL t'). cbn [wset_ph k_ph]. destruct (Nat.eqb_spec t' t) as [E|]; [subst t'; rewrite FR in Q; exact Q|exact Q].
    - (* done *)
      pose proof (good_tl _ _ _ G) as G'. pose proof (good_hd _ _ _ G) as ((M1 & M2 & M3 & M4 & M5) & _).
      destruct (weak_sim A L n IN LAB tr W X G') as (F & top & XF & Y). destruct (fgets A L n IN LAB tr F XF G') as (N & XN & R & V).
      apply susp_switch in SU as (SU1 & SU2 & SU3). unfold owned in OW1. cbn [wset_ph k_m put_susp m_at] in OW1.
      destruct EV as [EV|EV].
      + injection EV as <- <- <- <- <-. rewrite fc_eqb_refl in OW1.
        assert (FO : foot A (k_m W) (k_ph W t) a1) by (rewrite FR; destruct KK as [[-> ->]| ->]; left; exact OW1).
        apply (foot_same A L n IN LAB tr F N W top t a1 R V Y) in FO.
        exact (top_latest A W F top Y t a1 (y_upd _ _ _ _ Y t a1 FO)).
      + assert (NE : h <> me) by (intros ->; exact (M2 _ _ _ _ EV)).
        rewrite fc_eqb_ne in OW1 by exact NE.
        assert (SU' : suspended tr h) by (split; [destruct SU1 as [[Q _]|Q]; [contradiction|exact Q]|exact SU2]).
        apply (IH G' t0 c1 h to1 k1 a1 EV SU'); [|exact OW1].
        intros t' Q. destruct (Nat.eq_dec t' t) as [-> |NT].
        * rewrite FR in Q. destruct KK as [[-> ->]| ->]; cbn [goal] in Q; injection Q as Q.
          -- destruct (created_from _ _ _ G' (proj1 SU')) as (t2 & to2 & k2 & H2 & _).
             exact (M5 _ (fc_ctx h) H2 eq_refl (or_introl eq_refl) (eq_sym Q)).
          -- apply SU3. symmetry. apply (f_one _ _ (good_facts _ _ G')); [|exact SU'|exact Q].
             pose proof (y_ph _ _ _ _ Y t) as PS. rewrite FR in PS. apply phase_inside in PS as (r' & s' & FR' & RS & _).
             pose proof (l_ph _ _ _ _ _ _ R t Ht) as PH. rewrite FR' in PH.
             destruct r' as [|me' to'|me' to' k']; cbn [r_sim] in RS; try contradiction. destruct RS as (-> & -> & ->).
             cbn [ph_ok entry] in PH. apply PH.
        * apply (GL t'). cbn [wset_ph k_ph]. rewrite (proj2 (Nat.eqb_neq t' t) NT). exact Q.
  Qed.
End Hand.

(** Thread t0 has switched away from a fiber; no thread is about to switch to it. t0 has seen all
    stores to what the suspended call owns, and a thread t that has seen at least what t0 has seen (as
    when t0 has released a lock that t has acquired) has so too. *)
Theorem C56_handover A L n s new tr W t0 c h to k t a :
  In A ports -> labels_ok A L -> reachable n s -> shuffled (s_tr s) (new ++ tr) -> wexec A L n tr W ->
  In (EvSwitch t0 c h to k) tr -> suspended tr h -> (forall t', goal (k_ph W t') <> Some (fc_ctx h)) ->
  owned A (k_m W) h a ->
  latest W t0 a /\ ((k_seen W t0 a <= k_seen W t a)%nat -> latest W t a).
Proof.
  intros IN LAB RE ET X EV SU GL OW.
  pose proof (hand A L n IN LAB tr W X ltac:(apply (good_app n new); eapply shuffled_good; eauto) t0 c h to k a EV SU GL OW) as H.
  split; [exact H|]. intros LE q Hq. apply H. lia.
Qed.
