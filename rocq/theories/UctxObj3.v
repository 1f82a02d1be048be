(** Objects in calm histories of the ucontext machine: consequences of the stepwise rules. *)
From Coq Require Import List Arith Bool Lia.
From Verif Require Import ListUtil Uctx UctxSpec UctxInv UctxInv2 UctxInv3 UctxInv4 UctxInv5 UctxInv6 UctxInv7 UctxInj UctxObj UctxObj2.
Import ListNotations.

Lemma base_trace tr : always base_rule tr ->
  (forall p p' o, In (EvCtor p o) tr -> In (EvCtor p' o) tr -> p = p') /\
  (forall c, NoDup (stack_objs tr c)) /\
  (forall c o, In o (stack_objs tr c) -> In (EvCtor (OnCtx c) o) tr /\ forall c', ~ In (EvDtor (OnCtx c') o) tr) /\
  (forall c o, In (EvDtor (OnCtx c) o) tr -> In (EvCtor (OnCtx c) o) tr) /\
  (forall c o, In (EvCtor (OnCtx c) o) tr -> In o (stack_objs tr c) \/ In (EvDtor (OnCtx c) o) tr).
Proof.
  induction tr as [|e tr IH]; intros Ha.
  - repeat split; try (intros; exact False_rect); cbn; try tauto; constructor.
  - apply always_cons in Ha. destruct Ha as [He Ha]. destruct (IH Ha) as [T0 [T1 [T2 [T3 T4]]]].
    assert (N : (match e with EvCtor _ _ | EvDtor (OnCtx _) _ => False | _ => True end) ->
      (forall p p' o, In (EvCtor p o) (e :: tr) -> In (EvCtor p' o) (e :: tr) -> p = p') /\
      (forall c, NoDup (stack_objs (e :: tr) c)) /\
      (forall c o, In o (stack_objs (e :: tr) c) -> In (EvCtor (OnCtx c) o) (e :: tr) /\ forall c', ~ In (EvDtor (OnCtx c') o) (e :: tr)) /\
      (forall c o, In (EvDtor (OnCtx c) o) (e :: tr) -> In (EvCtor (OnCtx c) o) (e :: tr)) /\
      (forall c o, In (EvCtor (OnCtx c) o) (e :: tr) -> In o (stack_objs (e :: tr) c) \/ In (EvDtor (OnCtx c) o) (e :: tr))).
    { intros Hn. assert (S : forall c, stack_objs (e :: tr) c = stack_objs tr c) by (intros; destruct e as [| | | | | | | | | | | | |p o|p o]; try reflexivity; destruct Hn || (destruct p; [destruct Hn|reflexivity])).
      repeat split.
      - intros p p' o [E|H1] [E2|H2]; eauto; subst; destruct Hn.
      - intros c. rewrite S. auto.
      - rewrite S in H. right. apply T2; auto.
      - rewrite S in H. intros c' [E|Hi]; [subst; destruct Hn|]. eapply T2; eauto.
      - intros c o [E|Hi]; [subst; destruct Hn|]. right; auto.
      - intros c o [E|Hi]; [subst; destruct Hn|]. rewrite S. apply T4 in Hi. destruct Hi; auto. right; right; auto. }
    destruct e as [| | | | | | | | | | | | |p o|p o]; try (apply N; exact I).
    + clear N. cbn in He.
      assert (Hnd : forall c', ~ In (EvDtor (OnCtx c') o) tr) by (intros c' Hi; eapply He; eapply T3; eauto).
      assert (Hns : forall c', ~ In o (stack_objs tr c')) by (intros c' Hi; eapply He; eapply T2; eauto).
      assert (S : forall c, stack_objs (EvCtor p o :: tr) c = match p with OnCtx c' => if Nat.eqb c' c then o :: stack_objs tr c else stack_objs tr c | _ => stack_objs tr c end).
      { intros c. cbn. destruct p; reflexivity. }
      assert (S2 : forall c x, In x (stack_objs (EvCtor p o :: tr) c) <-> (x = o /\ p = OnCtx c) \/ In x (stack_objs tr c)).
      { intros c x. rewrite S. destruct p as [c'|].
        - destruct (Nat.eqb_spec c' c) as [->|N]; cbn; [intuition|]. intuition congruence.
        - intuition discriminate. }
      repeat split.
      * intros p1 p2 x [E|H1] [E2|H2]; eauto.
        -- congruence.
        -- injection E as <- <-. exfalso. eapply He; eauto.
        -- injection E2 as <- <-. exfalso. eapply He; eauto.
      * intros c. rewrite S. destruct p as [c'|]; auto. destruct (Nat.eqb_spec c' c); auto. constructor; auto.
      * apply S2 in H. destruct H as [[-> ->]|H]; [left; reflexivity|right; apply T2; auto].
      * apply S2 in H. intros c' [E|Hi]; [discriminate|]. destruct H as [[-> ->]|H]; [eapply Hnd; eauto|eapply T2; eauto].
      * intros c x [E|Hi]; [discriminate|right; auto].
      * intros c x [E|Hi].
        -- injection E as -> ->. left. apply S2. auto.
        -- apply T4 in Hi. destruct Hi as [Hi|Hi]; [left; apply S2; auto|right; right; auto].
    + destruct p as [c0|]; [|apply N; exact I]. clear N. cbn in He. destruct He as [He _].
      destruct (stack_objs tr c0) as [|o1 l] eqn:El; [discriminate|]. cbn in He. injection He as ->.
      assert (S : forall c, stack_objs (EvDtor (OnCtx c0) o :: tr) c = if Nat.eqb c0 c then l else stack_objs tr c).
      { intros c. cbn. destruct (Nat.eqb_spec c0 c) as [<-|]; [rewrite El|]; reflexivity. }
      assert (Hin : In o (stack_objs tr c0)) by (rewrite El; left; reflexivity).
      assert (Hnl : ~ In o l) by (specialize (T1 c0); rewrite El in T1; inversion T1; auto).
      assert (Sub : forall c x, In x (stack_objs (EvDtor (OnCtx c0) o :: tr) c) -> In x (stack_objs tr c) /\ x <> o).
      { intros c x. rewrite S. destruct (Nat.eqb_spec c0 c) as [<-|N]; intros Hi.
        - split; [rewrite El; right; auto|intros ->; auto].
        - split; auto. intros ->. apply N. destruct (T2 c o Hi) as [C1 _]. destruct (T2 c0 o Hin) as [C2 _].
          specialize (T0 _ _ _ C1 C2). congruence. }
      repeat split.
      * intros p1 p2 x [E|H1] [E2|H2]; try discriminate; eauto.
      * intros c. rewrite S. destruct (Nat.eqb_spec c0 c) as [<-|]; auto. specialize (T1 c0). rewrite El in T1. inversion T1; auto.
      * apply Sub in H. right. apply T2. tauto.
      * apply Sub in H. destruct H as [H1 H2]. intros c' [E|Hi]; [injection E; congruence|]. eapply T2; eauto.
      * intros c x [E|Hi]; [injection E as <- <-; right; apply T2; auto|right; auto].
      * intros c x [E|Hi]; [discriminate|]. apply T4 in Hi. destruct Hi as [Hi|Hi]; [|right; right; auto].
        rewrite S. destruct (Nat.eqb_spec c0 c) as [<-|]; auto. rewrite El in Hi. destruct Hi as [->|Hi]; auto. right; left; reflexivity.
Qed.

Lemma base_heap tr u : always base_rule tr -> ~ In (EvDtor OnHeap (OUsr u)) tr.
Proof. intros A H. apply in_split in H. destruct H as (new & old & ->). exact (A new _ old eq_refl). Qed.

Lemma object_of_base tr : always base_rule tr -> always object_rule tr.
Proof.
  intros A new e old E. assert (B : always base_rule old).
  { intros n1 e1 o1 E1. apply (A (new ++ e :: n1)). rewrite E, E1, <- app_assoc. reflexivity. }
  pose proof (A new e old E) as Be. destruct (base_trace old B) as (T0 & T1 & T2 & T3 & T4).
  destruct e as [|c| | | | | | | | | | | |p o|p o]; try exact I; cbn in Be |- *.
  - split; [exact Be|]. intros o Ho. apply T4 in Ho. rewrite Be in Ho. destruct Ho as [[]|Ho]. exact Ho.
  - exact Be.
  - destruct p as [c|].
    + destruct Be as [Be1 Be2]. split; [exact Be1|].
      assert (Hi : In o (stack_objs old c)) by (destruct (stack_objs old c); [discriminate|]; injection Be1 as ->; left; reflexivity).
      destruct (T2 c o Hi) as [C1 C2]. split; [exact C1|]. destruct o as [v|u]; [exact Be2|].
      intros [c'|]; [apply C2|apply base_heap; exact B].
    + destruct o as [v|u]; [exact Be|contradiction].
Qed.
