(** Facts about the histories of the fiber machine that Link.v needs: which contexts exist, run and
    are suspended. Proof machinery. *)
From Coq Require Import List Arith Bool Lia.
From Verif Require Import ListUtil Fiber FiberSpec TraceInv FiberInv FiberInv2 FiberInv3 Micro MicroInv StackInv HistInv P_Fiber.
Import ListNotations.

Definition alloc_rule (n : nat) (e : event) (old : list event) : Prop :=
  match e with
  | EvAlloc c _ => n <= c
  | EvSwitch _ _ _ to SwCreate => exists a, In (EvAlloc (fc_ctx to) a) old
  | EvSwitch _ from _ _ SwExit => exists a, In (EvAlloc from a) old
  | _ => True
  end.

Lemma m_alloc n s : mreach n s -> n <= length (s_ctxs s) /\ always (alloc_rule n) (s_tr s).
Proof.
  intros Hr. induction Hr as [|t s s' Hr [IL IH] Hs].
  - split; [|apply always_nil]. cbn. rewrite map_length, seq_length. lia.
  - assert (D : forall c r fs fs' es, dl c r fs fs' es -> forall tr, always (alloc_rule n) tr -> always (alloc_rule n) (es ++ tr)).
    { intros c r fs fs' es D tr Ha. apply always_irr; auto. intros e old Hi. destruct D; cbn in Hi; intuition (subst; exact Logic.I). }
    split.
    + destruct Hs; rewrite Ectx; rewrite ?app_length, ?upd_length; cbn; try lia.
    + destruct Hs; rewrite Etr.
      * destruct HL; cbn [app]; try (repeat apply always_one; auto; exact I). rewrite <- app_assoc. eapply D; eauto. apply always_one; auto. exact I.
      * eapply D; eauto. apply always_one; auto. exact I.
      * unfold es. cbn [app]. repeat apply always_one; auto; exact I.
      * destruct HR; repeat apply always_one; auto; exact I.
      * apply always_one; auto. exact I.
      * apply always_one; auto. cbn.
        pose proof (run_shape _ _ (m_shapes _ _ Hr _ _ Hc) Ht) as [Hw _]. rewrite Hcf in Hw. cbn in Hw. unfold is_main in Hw.
        destruct (cx_alloc cx) as [a|] eqn:Ea; [|discriminate]. exists a. apply (k_alloc _ (m_kinv _ _ Hr)). rewrite (al_some _ _ _ Hc), Ea. reflexivity.
      * apply always_one.
        -- apply always_irr; auto. intros e old Hi. unfold es in Hi. apply in_app_or in Hi. destruct Hi as [Hi|[<-|[]]].
           ++ apply in_map_iff in Hi. destruct Hi as [o [<- _]]. exact I.
           ++ cbn. fold d in IL. lia.
        -- cbn. exists a. apply in_or_app. left. unfold es. apply in_or_app. right. left. reflexivity.
      * apply always_one; auto. exact I.
      * eapply D; eauto. repeat apply always_one; auto; exact I.
Qed.

(** stack_rule without the demand that a stack is freed directly after its record *)
Definition stack_law (e : event) (old : list event) : Prop :=
  (forall c, exited old c -> ~ executes e c) /\
  (forall c, freed old c -> ~ involves e c) /\
  match e with
  | EvAlloc c a => forall e', In e' old -> ~ involves e' c
  | EvFree c a on =>
      In (EvAlloc c a) old /\ In (EvRecord c) old /\ ~ freed old c /\
      exists t me to, In (EvSwitch t c me to SwExit) old /\ fc_ctx to = on /\ on <> c
  | _ => True
  end.
Lemma law_rule e old : stack_rule e old -> stack_law e old.
Proof.
  intros (H1 & H2 & H3). split; [exact H1|]. split; [exact H2|]. destruct e; try exact Logic.I; [exact H3|].
  destruct H3 as (A & B & C). split; [exact A|]. split; [|exact C]. destruct old as [|x old]; [discriminate|]. injection B as ->. left. reflexivity.
Qed.

(** the rules that histories obey; they hold of every prefix of a history *)
Definition good (n : nat) (tr : list event) : Prop :=
  always switch_rule tr /\ always (thread_rule n) tr /\ always stack_law tr /\ always (alloc_rule n) tr.

Lemma good_reach n s : reachable n s -> good n (s_tr s).
Proof.
  intros Hr. split; [eapply C02_one_shot; eauto|]. split; [eapply C19_threads; eauto|].
  split; [intros new e old E; apply law_rule; eapply C05_stack_life; eauto|]. apply m_alloc. apply reach_mreach; auto.
Qed.
Lemma good_app n new old : good n (new ++ old) -> good n old.
Proof.
  assert (X : forall P, always P (new ++ old) -> always P old).
  { intros P H new' e old' E. apply (H (new ++ new') e old'). rewrite E, app_assoc. reflexivity. }
  intros (A & B & C & D). split; [|split; [|split]]; eauto.
Qed.
Lemma good_tl n e old : good n (e :: old) -> good n old.
Proof. apply (good_app n [e]). Qed.
Lemma good_hd n e old : good n (e :: old) -> switch_rule e old /\ thread_rule n e old /\ stack_law e old /\ alloc_rule n e old.
Proof.
  intros (A & B & C & D). split; [|split; [|split]]; [apply A with (new := [])|apply B with (new := [])|apply C with (new := [])|apply D with (new := [])]; reflexivity.
Qed.

(** c is a context *)
Definition is_ctx (n : nat) (tr : list event) (c : nat) : Prop := c < n \/ exists a, In (EvAlloc c a) tr.

Lemma is_ctx_more n e tr c : is_ctx n tr c -> is_ctx n (e :: tr) c.
Proof. intros [H|[a H]]; [left; auto|right; exists a; right; auto]. Qed.

Record facts (n : nat) (tr : list event) : Prop := {
  f_run : forall t, t < n -> is_ctx n tr (running tr t) /\ ~ exited tr (running tr t);
  f_inj : forall t t', t < n -> t' < n -> running tr t = running tr t' -> t = t';
  f_susp : forall h, suspended tr h -> is_ctx n tr (fc_ctx h) /\ ~ exited tr (fc_ctx h) /\ forall t, t < n -> running tr t <> fc_ctx h;
  f_one : forall h h', suspended tr h -> suspended tr h' -> fc_ctx h = fc_ctx h' -> h = h';
  f_freed : forall c, freed tr c -> exited tr c
}.

Lemma fctx_eq_dec (a b : fctx) : {a = b} + {a <> b}.
Proof. decide equality; apply Nat.eq_dec. Qed.

Lemma created_from n tr h : good n tr -> created tr h -> exists t to k, In (EvSwitch t (fc_ctx h) h to k) tr /\ k <> SwExit.
Proof.
  intros (A & _) (t & from & to & k & H & K). apply in_split in H as (l1 & l2 & E). destruct (A _ _ _ E) as (F & _).
  exists t, to, k. rewrite F. split; [|exact K]. rewrite E. apply in_or_app. right. left. reflexivity.
Qed.

Lemma susp_quiet e tr h : is_switch e = false -> suspended (e :: tr) h <-> suspended tr h.
Proof.
  intros Q. unfold suspended, created, consumed. split; intros [C N].
  - split.
    + destruct C as (t & f & to & k & [E|H] & K); [subst e; discriminate|]. exists t, f, to, k. auto.
    + intros (t & f & m & k & H). apply N. exists t, f, m, k. right. exact H.
  - split.
    + destruct C as (t & f & to & k & H & K). exists t, f, to, k. split; [right|]; auto.
    + intros (t & f & m & k & [E|H]); [subst e; discriminate|]. apply N. exists t, f, m, k. exact H.
Qed.
Lemma susp_switch t from me to k tr h : suspended (EvSwitch t from me to k :: tr) h <->
  (h = me /\ k <> SwExit \/ created tr h) /\ ~ consumed tr h /\ h <> to.
Proof.
  unfold suspended, created, consumed. split.
  - intros [C N]. split; [|split].
    + destruct C as (t' & f & to' & k' & [E|H] & K); [injection E; intros; subst; auto|right; eauto 8].
    + intros (t' & f & m & k' & H). apply N. exists t', f, m, k'. right. exact H.
    + intros ->. apply N. exists t, from, me, k. left. reflexivity.
  - intros (C & N & D). split.
    + destruct C as [[-> K]|(t' & f & to' & k' & H & K)]; [exists t, from, to, k; split; [left; reflexivity|auto]|].
      exists t', f, to', k'. split; [right|]; auto.
    + intros (t' & f & m & k' & [E|H]); [injection E; intros; subst; congruence|]. apply N. eauto.
Qed.
Lemma exited_quiet e tr c : is_switch e = false -> exited (e :: tr) c <-> exited tr c.
Proof.
  intros Q. unfold exited. split; intros (t & m & to & H); exists t, m, to.
  - destruct H as [E|H]; [subst e; discriminate|exact H].
  - right. exact H.
Qed.
Lemma exited_switch t from me to k tr c : exited (EvSwitch t from me to k :: tr) c <-> (c = from /\ k = SwExit) \/ exited tr c.
Proof.
  unfold exited. split.
  - intros (t' & m & to' & [E|H]); [injection E; intros; subst; auto|right; eauto].
  - intros [[-> ->]|(t' & m & to' & H)]; [exists t, me, to; left; reflexivity|exists t', m, to'; right; exact H].
Qed.
Lemma run_quiet e tr t : is_switch e = false -> running (e :: tr) t = running tr t.
Proof. destruct e; try reflexivity. discriminate. Qed.

Lemma good_facts n tr : good n tr -> facts n tr.
Proof.
  induction tr as [|e tr IH]; intros G.
  - constructor; cbn.
    + intros t H. split; [left; exact H|]. intros (? & ? & ? & []).
    + auto.
    + intros h [(? & ? & ? & ? & [] & _) _].
    + intros h h' [(? & ? & ? & ? & [] & _) _].
    + intros c (? & ? & []).
  - pose proof (good_tl _ _ _ G) as G'. specialize (IH G'). destruct IH as [R J U O F]. pose proof (good_hd _ _ _ G) as (S1 & S2 & S3 & S4).
    destruct (is_switch e) eqn:Q.
    + destruct e as [| | |t from me to k| | | | | | | | | | |]; try discriminate Q. clear Q.
      destruct S1 as (M1 & M2 & M3 & M4 & M5). destruct S2 as ((T1 & T2 & T3) & _). destruct S3 as (E1 & E2 & _).
      assert (NE : forall c, ~ exited tr c -> c <> from -> ~ exited (EvSwitch t from me to k :: tr) c).
      { intros c H1 H2 H3. apply exited_switch in H3 as [[H3 _]|H3]; auto. }
      assert (TO : is_ctx n tr (fc_ctx to)).
      { destruct k; try (apply U; split; assumption). cbn in S4. right. exact S4. }
      assert (FT : from <> fc_ctx to) by (rewrite <- T2; apply T3; exact T1).
      assert (TS : forall h, suspended tr h -> fc_ctx h = fc_ctx to -> h = to).
      { intros h Hh E. destruct k; try (apply O; [exact Hh|split; assumption|exact E]). exfalso.
        destruct (created_from _ _ _ G' (proj1 Hh)) as (t' & to' & k' & H & _).
        apply (M5 _ (fc_ctx h) H); [reflexivity|cbn; auto|exact E]. }
      constructor.
      * intros t' Ht'. cbn [running]. destruct (Nat.eqb_spec t t') as [<-|N].
        -- split; [apply is_ctx_more; exact TO|]. apply NE; [|congruence]. intros X. apply (E1 _ X). cbn. auto.
        -- split; [apply is_ctx_more; apply R; exact Ht'|]. apply NE; [apply R; exact Ht'|]. rewrite <- T2. intros X. apply N. apply J in X; auto.
      * intros t1 t2 H1 H2. cbn [running]. destruct (Nat.eqb_spec t t1) as [<-|N1], (Nat.eqb_spec t t2) as [<-|N2]; auto.
        -- intros X. exfalso. apply (T3 t2 H2). auto.
        -- intros X. exfalso. apply (T3 t1 H1). auto.
      * intros h H. apply susp_switch in H as (H & NC & NT).
        destruct H as [[-> K]|H].
        -- rewrite M1, <- T2. split; [apply is_ctx_more; apply R; exact T1|]. split.
           ++ intros X. apply exited_switch in X as [[_ X]|X]; [auto|]. apply (R t T1). exact X.
           ++ intros t' Ht'. cbn [running]. destruct (Nat.eqb_spec t t') as [<-|N]; [congruence|]. intros X. apply N. symmetry. apply J; auto.
        -- assert (Hh : suspended tr h) by (split; assumption). destruct (U _ Hh) as (U1 & U2 & U3).
           split; [apply is_ctx_more; exact U1|]. split; [apply NE; [exact U2|rewrite <- T2; intros X; apply (U3 t T1); auto]|].
           intros t' Ht'. cbn [running]. destruct (Nat.eqb_spec t t') as [<-|N]; [|apply U3; exact Ht'].
           intros X. apply NT. apply TS; auto.
      * intros h h' H H' E. apply susp_switch in H as (H & NC & NT). apply susp_switch in H' as (H' & NC' & NT').
        destruct H as [[-> K]|H], H' as [[-> K']|H']; auto.
        -- exfalso. apply (proj2 (proj2 (U h' (conj H' NC'))) t T1). congruence.
        -- exfalso. apply (proj2 (proj2 (U h (conj H NC))) t T1). congruence.
        -- apply O; [split|split|]; assumption.
      * intros c (a & on & [X|X]); [discriminate|]. apply exited_switch. right. apply F. exists a, on. exact X.
    + assert (EX : forall c, exited (e :: tr) c <-> exited tr c) by (intros; apply exited_quiet; exact Q).
      constructor.
      * intros t Ht. rewrite run_quiet by exact Q. rewrite EX. split; [apply is_ctx_more|]; apply R; exact Ht.
      * intros t t' Ht Ht'. rewrite !run_quiet by exact Q. auto.
      * intros h H. apply susp_quiet in H; [|exact Q]. destruct (U _ H) as (U1 & U2 & U3). split; [apply is_ctx_more; exact U1|].
        rewrite EX. split; [exact U2|]. intros t Ht. rewrite run_quiet by exact Q. auto.
      * intros h h' H H'. apply susp_quiet in H; [|exact Q]. apply susp_quiet in H'; [|exact Q]. auto.
      * intros c (a & on & [X|X]).
        -- subst e. destruct S3 as (_ & _ & _ & _ & _ & t & m & to & H & _). apply EX. exists t, m, to. exact H.
        -- apply EX. apply F. exists a, on. exact X.
Qed.
