(** * Finer interleavings of histories

    In the fiber machine (Fiber.v) a call of the API is one step, so its events are adjacent in the
    history: another thread does nothing between the allocation of a stack and the first switch to it, or
    between the switch out of a finished context and the release of its stack. Real threads do. Events
    of different threads that have no context in common can be exchanged: [shuffled h h'] says that
    h' is h after any number of such exchanges. *)
From Coq Require Import List Arith Bool Lia.
From Verif Require Import ListUtil Fiber FiberSpec TraceInv LinkHist.
Import ListNotations.

Definition independent (e e' : event) : Prop := forall c, involves e c -> ~ involves e' c.

Inductive shuffled : list event -> list event -> Prop :=
| sh_refl h : shuffled h h
| sh_swap h new e e' old : independent e e' -> shuffled h (new ++ e' :: e :: old) -> shuffled h (new ++ e :: e' :: old).

Lemma executes_involves e c : executes e c -> involves e c.
Proof. destruct e; cbn; try tauto; destruct p; tauto. Qed.
Lemma actor_involves e c : actor e = Some c -> involves e c.
Proof. destruct e; cbn; intros [= <-]; auto. Qed.

(** rules look at the set of the earlier events and at who runs *)
Definition same (o o' : list event) : Prop := (forall e, In e o <-> In e o') /\ forall t, running o t = running o' t.

Lemma same_consumed o o' h : same o o' -> consumed o h -> consumed o' h.
Proof. intros [H _] (t & f & m & k & I). exists t, f, m, k. apply H. exact I. Qed.
Lemma same_created o o' h : same o o' -> created o h -> created o' h.
Proof. intros [H _] (t & f & m & k & I & K). exists t, f, m, k. split; [apply H; exact I|exact K]. Qed.
Lemma same_exited o o' c : same o o' -> exited o c -> exited o' c.
Proof. intros [H _] (t & m & to & I). exists t, m, to. apply H. exact I. Qed.
Lemma same_freed o o' c : same o o' -> freed o c -> freed o' c.
Proof. intros [H _] (a & on & I). exists a, on. apply H. exact I. Qed.
Lemma same_sym o o' : same o o' -> same o' o.
Proof. intros [H1 H2]. split; [intros e; symmetry; apply H1|intros t; symmetry; apply H2]. Qed.
Lemma same_cons e o o' : same o o' -> same (e :: o) (e :: o').
Proof.
  intros [H1 H2]. split; [intros x; cbn; rewrite H1; reflexivity|]. intros t. destruct e; cbn; try apply H2.
  destruct (Nat.eqb _ t); [reflexivity|apply H2].
Qed.

Definition law (n : nat) (e : event) (o : list event) : Prop :=
  switch_rule e o /\ thread_rule n e o /\ stack_law e o /\ alloc_rule n e o.

Lemma good_law n tr : good n tr <-> always (law n) tr.
Proof.
  split.
  - intros (A & B & C & D) new e old E. split; [|split; [|split]]; eauto.
  - intros H. split; [|split; [|split]]; intros new e old E; apply (H _ _ _ E).
Qed.

Lemma law_same n e o o' : same o o' -> law n e o -> law n e o'.
Proof.
  intros S (H1 & H2 & H3 & H4). pose proof (same_sym _ _ S) as S'. destruct S as [SI SR].
  split; [|split; [|split]].
  - destruct e; try exact Logic.I. destruct H1 as (A & B & C & D & E). split; [exact A|]. split; [intros a b c d Q; apply (B a b c d), SI, Q|].
    split; [intros Q; apply C; eapply same_consumed; eauto|]. split; [intros Q; apply D; eapply same_consumed; eauto|].
    destruct k; try (eapply same_created; [|exact E]; apply same_sym; exact S'). intros e c Q. apply E, SI, Q.
  - destruct H2 as [A B]. split.
    + destruct e; try exact Logic.I. rewrite <- SR. destruct A as (A1 & A2 & A3). split; [exact A1|]. split; [exact A2|].
      intros t' Ht. rewrite <- SR. auto.
    + intros c Q. destruct (B c Q) as (t' & T1 & T2). exists t'. rewrite <- SR. auto.
  - destruct H3 as (A & B & C). split; [|split].
    + intros c Q. apply A. eapply same_exited; eauto.
    + intros c Q. apply B. eapply same_freed; eauto.
    + destruct e; try exact Logic.I.
      * intros e' Q. apply C, SI, Q.
      * destruct C as (C1 & C2 & C3 & t & me & to & C4 & C5). split; [apply SI; exact C1|]. split; [apply SI; exact C2|].
        split; [intros Q; apply C3; eapply same_freed; eauto|]. exists t, me, to. split; [apply SI; exact C4|exact C5].
  - destruct e; try exact Logic.I; try exact H4. destruct k; try exact H4; destruct H4 as (a' & H4); exists a'; apply SI; exact H4.
Qed.

(** who runs before and after an event *)
Lemma run_step n e o t : thread_rule n e o -> running (e :: o) t = running o t \/ involves e (running (e :: o) t) /\ involves e (running o t).
Proof.
  intros [H _]. destruct e; try (left; reflexivity). cbn [running involves]. destruct (Nat.eqb_spec t0 t) as [<-|]; [|left; reflexivity].
  right. destruct H as (_ & H & _). auto.
Qed.
Lemma run_fwd n e o t c : thread_rule n e o -> ~ involves e c -> running o t = c -> running (e :: o) t = c.
Proof. intros H N E. destruct (run_step n e o t H) as [Q|[_ Q]]; [congruence|]. rewrite E in Q. contradiction. Qed.
Lemma run_bwd n e o t c : thread_rule n e o -> ~ involves e c -> running (e :: o) t = c -> running o t = c.
Proof. intros H N E. destruct (run_step n e o t H) as [Q|[Q _]]; [congruence|]. rewrite E in Q. contradiction. Qed.

Lemma law_drop n e e' o : independent e e' -> law n e o -> law n e' (e :: o) -> law n e' o.
Proof.
  intros ID (A1 & A2 & A3 & A4) (B1 & B2 & B3 & B4).
  assert (ID' : forall c, involves e' c -> ~ involves e c) by (intros c Q Q'; exact (ID c Q' Q)).
  split; [|split; [|split]].
  - destruct e'; try exact Logic.I. destruct B1 as (C1 & C2 & C3 & C4 & C5). split; [exact C1|].
    split; [intros a b c d Q; apply (C2 a b c d); right; exact Q|].
    split; [intros (a & b & c & d & Q); apply C3; exists a, b, c, d; right; exact Q|].
    split; [intros (a & b & c & d & Q); apply C4; exists a, b, c, d; right; exact Q|].
    assert (CR : created (e :: o) to -> created o to).
    { intros (a & b & c & d & [Q|Q] & K); [|exists a, b, c, d; auto]. exfalso. subst e. destruct A1 as (Q & _).
      apply (ID (fc_ctx to)); cbn; auto. }
    destruct k; auto. intros x c Q. apply C5. right. exact Q.
  - destruct B2 as [C1 C2]. split.
    + destruct e'; try exact Logic.I. destruct C1 as (D1 & D2 & D3). split; [exact D1|]. split.
      * apply (run_bwd n e); auto. apply ID'. cbn. auto.
      * intros t' Ht Q. apply (D3 t' Ht). apply (run_fwd n e); auto. apply ID'. cbn. auto.
    + intros c Q. destruct (C2 c Q) as (t & T1 & T2). exists t. split; [exact T1|]. apply (run_bwd n e); auto. apply ID'. apply actor_involves. exact Q.
  - destruct B3 as (C1 & C2 & C3). split; [|split].
    + intros c (t & m & to & Q). apply C1. exists t, m, to. right. exact Q.
    + intros c (a & on & Q). apply C2. exists a, on. right. exact Q.
    + destruct e'; try exact Logic.I.
      * intros x Q. apply C3. right. exact Q.
      * destruct C3 as (D1 & D2 & D3 & t & me & to & D4 & D5).
        split; [destruct D1 as [Q|Q]; [exfalso; subst e; apply (ID c); cbn; auto|exact Q]|].
        split; [destruct D2 as [Q|Q]; [exfalso; subst e; apply (ID c); cbn; auto|exact Q]|].
        split; [intros (x & y & Q); apply D3; exists x, y; right; exact Q|].
        exists t, me, to. split; [|exact D5]. destruct D4 as [Q|Q]; [exfalso; subst e; apply (ID c); cbn; auto|exact Q].
  - destruct e'; try exact Logic.I; try exact B4.
    destruct k; try exact B4; destruct B4 as (x & [Q|Q]); try (exists x; exact Q); exfalso; subst e.
    + apply (ID (fc_ctx to)); cbn; auto.
    + apply (ID from); cbn; auto.
Qed.

Lemma law_push n e e' o : independent e e' -> law n e o -> law n e' o -> law n e (e' :: o).
Proof.
  intros ID (A1 & A2 & A3 & A4) (B1 & B2 & B3 & B4).
  split; [|split; [|split]].
  - destruct e; try exact Logic.I. destruct A1 as (C1 & C2 & C3 & C4 & C5). split; [exact C1|].
    assert (DM : ~ involves e' (fc_ctx h)) by (apply ID; cbn; auto).
    assert (DT : ~ involves e' (fc_ctx to)) by (apply ID; cbn; auto).
    split; [intros a b c d [Q|Q]; [|exact (C2 _ _ _ _ Q)]; subst e'; apply DM; destruct B1 as (-> & _); cbn; auto|].
    split; [intros (a & b & c & d & [Q|Q]); [subst e'; apply DM; cbn; auto|apply C3; exists a, b, c, d; exact Q]|].
    split; [intros (a & b & c & d & [Q|Q]); [subst e'; apply DT; cbn; auto|apply C4; exists a, b, c, d; exact Q]|].
    assert (CR : created o to -> created (e' :: o) to) by (intros (a & b & c & d & Q & K); exists a, b, c, d; split; [right; exact Q|exact K]).
    destruct k; auto. intros x c [<-|Q] S I; [intros ->; contradiction|]. eapply C5; eauto.
  - destruct A2 as [C1 C2]. split.
    + destruct e; try exact Logic.I. destruct C1 as (D1 & D2 & D3). split; [exact D1|]. split.
      * apply (run_fwd n e'); auto. apply ID. cbn. auto.
      * intros t' Ht Q. apply (D3 t' Ht). apply (run_bwd n e'); auto. apply ID. cbn. auto.
    + intros c Q. destruct (C2 c Q) as (t & T1 & T2). exists t. split; [exact T1|]. apply (run_fwd n e'); auto. apply ID. apply actor_involves. exact Q.
  - destruct A3 as (C1 & C2 & C3). split; [|split].
    + intros c (t & m & to & [Q|Q]) X.
      * subst e'. apply (ID c (executes_involves _ _ X)). cbn. auto.
      * apply (C1 c); [exists t, m, to; exact Q|exact X].
    + intros c (a & on & [Q|Q]) X.
      * subst e'. apply (ID c X). cbn. auto.
      * apply (C2 c); [exists a, on; exact Q|exact X].
    + destruct e; try exact Logic.I.
      * intros x [<-|Q]; [apply ID; cbn; auto|exact (C3 x Q)].
      * destruct C3 as (D1 & D2 & D3 & t & me & to & D4 & D5). split; [right; exact D1|]. split; [right; exact D2|].
        split; [intros (x & y & [Q|Q]); [subst e'; apply (ID c); cbn; auto|apply D3; exists x, y; exact Q]|].
        exists t, me, to. split; [right; exact D4|exact D5].
  - destruct e; try exact Logic.I; try exact A4.
    destruct k; try exact A4; destruct A4 as (x & Q); exists x; right; exact Q.
Qed.

Lemma swap_same n e e' o : independent e e' -> law n e o -> law n e' (e :: o) -> same (e' :: e :: o) (e :: e' :: o).
Proof.
  intros ID A B. split; [intros x; cbn; tauto|]. intros t.
  pose proof (law_drop _ _ _ _ ID A B) as B'. pose proof (law_push _ _ _ _ ID A B') as A'.
  destruct A as (_ & A & _), A' as (_ & A' & _), B as (_ & B & _), B' as (_ & B' & _).
  destruct (run_step n e' (e :: o) t B) as [Q|[_ Q]].
  - rewrite Q. symmetry. destruct (run_step n e' o t B') as [Q'|[_ Q']].
    + destruct e; cbn [running]; try exact Q'. destruct (Nat.eqb t0 t); [reflexivity|exact Q'].
    + destruct (run_step n e o t A) as [Q2|[_ Q2]]; [|destruct (ID _ Q2 Q')].
      rewrite Q2. destruct e'; cbn [running] in *; try (destruct Q'; fail); try (destruct e; cbn [running] in *; auto; fail).
      destruct e; cbn [running] in *; auto. destruct (Nat.eqb t1 t), (Nat.eqb t0 t); congruence.
  - destruct (run_step n e o t A) as [Q2|[Q2 _]]; [|destruct (ID _ Q2 Q)].
    destruct (run_step n e (e' :: o) t A') as [Q3|[_ Q3]].
    + rewrite Q3. destruct e'; cbn [running]; try exact Q2. destruct (Nat.eqb t0 t); [reflexivity|exact Q2].
    + exfalso. apply (ID _ Q3). destruct (run_step n e' o t B') as [Q4|[Q4 _]]; [rewrite Q4, <- Q2; exact Q|exact Q4].
Qed.

Lemma good_swap n new e e' old : independent e e' -> good n (new ++ e' :: e :: old) -> good n (new ++ e :: e' :: old).
Proof.
  rewrite !good_law. intros ID H.
  assert (H0 : always (law n) (e' :: e :: old)) by (eapply always_app; exact H).
  apply always_cons in H0 as [B H0]. apply always_cons in H0 as [A H0].
  pose proof (law_drop _ _ _ _ ID A B) as B'. pose proof (law_push _ _ _ _ ID A B') as A'.
  pose proof (swap_same _ _ _ _ ID A B) as SM.
  assert (S2 : forall l, same (l ++ e' :: e :: old) (l ++ e :: e' :: old)).
  { induction l as [|x l IH]; cbn [app]; [exact SM|apply same_cons; exact IH]. }
  induction new as [|x new IH]; cbn [app] in *.
  - apply always_cons. split; [exact A'|]. apply always_cons. auto.
  - apply always_cons in H as [H1 H2]. apply always_cons. split; [|auto]. eapply law_same; [apply S2|exact H1].
Qed.

Lemma shuffled_good n s h : reachable n s -> shuffled (s_tr s) h -> good n h.
Proof.
  intros R H. remember (s_tr s) as h0 eqn:E. induction H as [h|h new e e' old ID H IH]; [subst; apply good_reach; exact R|].
  apply good_swap; auto.
Qed.
