(** Injected functions: the field ontop of a record, its stack and the history agree if injected
    functions neither throw nor switch. *)
From Coq Require Import List Arith Bool Lia.
From Verif Require Import ListUtil Uctx UctxSpec UctxInv UctxInv2 UctxInv3 UctxInv4 UctxInv5 UctxInv6 UctxInv7.
Import ListNotations.

(** injected functions on a stack *)
Definition kf (f : frame) : list nat := match f with FU u => match uf_kind u with KOntop g => [g] | _ => [] end | _ => [] end.
Definition ks (fs : list frame) : list nat := flat_map kf fs.

Definition inject_rule (e : event) (old : list event) : Prop :=
  match hd_error old with
  | Some (EvSwitch _ from to (SwOntop g)) => e = EvOntop to g (Some from)
  | _ => match e with EvOntop _ _ _ => False | _ => True end
  end /\
  match e with EvOntopRet c g _ | EvOntopExn c g _ => hd_error (injected old c) = Some g | _ => True end.

Definition loc (tr : list event) (run : bool) (c : nat) (x : rcd) : Prop :=
  r_ontop x = hd_error (ks (r_frames x)) /\ injected tr c = ks (r_frames x) /\ length (ks (r_frames x)) <= 1 /\
  (run = false -> ks (r_frames x) = []) /\ (hd_error (r_frames x) = Some FStart -> exists a, In (EvAlloc c a) tr).

Record J (s : state) : Prop := mk_j {
  j_loc : forall c x, nth_error (s_rec s) c = Some x -> loc (s_tr s) (runs s c) c x;
  j_len : forall c, length (s_rec s) <= c -> injected (s_tr s) c = [];
  j_rule : always inject_rule (s_tr s);
  j_hd : no_switch (s_tr s) }.

Definition jgood (n : nat) (o : outcome) : Prop :=
  match o with Next s' => calm_inject (s_tr s') -> always (rule n) (s_tr s') -> J s' | _ => True end.

Definition quiet (e : event) : bool :=
  match e with EvSwitch _ _ _ _ | EvOntop _ _ _ | EvOntopRet _ _ _ | EvOntopExn _ _ _ => false | _ => true end.

Lemma injected_quiet new tr c : forallb quiet new = true -> injected (new ++ tr) c = injected tr c.
Proof.
  induction new as [|e new IH]; cbn; [auto|]. intros H. apply andb_prop in H. destruct H as [H1 H2].
  destruct e; try discriminate; auto.
Qed.
Lemma always_quiet new tr : forallb quiet new = true -> no_switch tr -> always inject_rule tr ->
  always inject_rule (new ++ tr) /\ no_switch (new ++ tr).
Proof.
  induction new as [|e new IH]; cbn; [auto|]. intros H H3 Ha. apply andb_prop in H. destruct H as [H1 H2].
  destruct (IH H2 H3 Ha) as [A B]. rewrite always_cons. split; [split; [|exact A]|].
  - unfold inject_rule, no_switch in *. destruct (hd_error (new ++ tr)) as [[]|]; try contradiction; destruct e; try discriminate H1; auto.
  - unfold no_switch. cbn. destruct e; try discriminate; exact I.
Qed.

Lemma loc_ext tr new run c x x' : forallb quiet new = true -> ks (r_frames x') = ks (r_frames x) -> r_ontop x' = r_ontop x ->
  (hd_error (r_frames x') = Some FStart -> hd_error (r_frames x) = Some FStart) -> loc tr run c x -> loc (new ++ tr) run c x'.
Proof.
  intros H1 H2 H3 H4 (A & B & C & D & E). unfold loc. rewrite injected_quiet, H2, H3 by exact H1. repeat split; auto.
  intros H. destruct (E (H4 H)) as [a Ha]. exists a. apply in_or_app. auto.
Qed.

(** a ks-preserving change of one record, quiet events *)
Lemma j_put s s' c x x' new :
  J s -> nth_error (s_rec s) c = Some x -> s_rec s' = upd (s_rec s) c x' -> s_thr s' = s_thr s -> s_tr s' = new ++ s_tr s ->
  forallb quiet new = true -> ks (r_frames x') = ks (r_frames x) -> r_ontop x' = r_ontop x ->
  (hd_error (r_frames x') = Some FStart -> hd_error (r_frames x) = Some FStart) -> J s'.
Proof.
  intros [J1 J2 J3 J4] Hc R1 R2 R3 Q K1 K2 K3. destruct (always_quiet new _ Q J4 J3) as [A B].
  constructor; rewrite ?R3; auto.
  - intros e z. rewrite R1, nth_upd. unfold runs. rewrite R2. destruct (Nat.eqb_spec c e) as [<-|E].
    + pose proof (nth_some_lt _ _ _ Hc) as L. apply Nat.ltb_lt in L. rewrite L. intros H. injection H as <-.
      apply (loc_ext _ _ _ _ x); auto. exact (J1 c x Hc).
    + intros Hz. apply (loc_ext _ _ _ _ z); auto. exact (J1 e z Hz).
  - intros e. rewrite R1, upd_length, injected_quiet by exact Q. apply J2.
Qed.
Lemma j_same s s' new :
  J s -> s_rec s' = s_rec s -> s_thr s' = s_thr s -> s_tr s' = new ++ s_tr s -> forallb quiet new = true -> J s'.
Proof.
  intros [J1 J2 J3 J4] R1 R2 R3 Q. destruct (always_quiet new _ Q J4 J3) as [A B].
  constructor; rewrite ?R3; auto.
  - intros e z. rewrite R1. unfold runs. rewrite R2. intros Hz. apply (loc_ext _ _ _ _ z); auto. exact (J1 e z Hz).
  - intros e. rewrite R1, injected_quiet by exact Q. apply J2.
Qed.
(** in terms of put_frames *)
Lemma j_pf s s1 c x fs new :
  J s -> nth_error (s_rec s) c = Some x -> s_rec s1 = s_rec s -> s_thr s1 = s_thr s -> s_tr s1 = new ++ s_tr s ->
  forallb quiet new = true -> ks fs = ks (r_frames x) -> hd_error fs <> Some FStart -> J (put_frames s1 c fs).
Proof.
  intros HJ Hc R1 R2 R3 Q K1 K2. assert (Hc1 : nth_error (s_rec s1) c = Some x) by (rewrite R1; exact Hc).
  eapply (j_put s _ c x (set_frames x fs) new); eauto.
  - rewrite (put_frames_rec _ _ _ x Hc1), R1. reflexivity.
  - rewrite put_frames_thr. exact R2.
  - rewrite put_frames_tr. exact R3.
  - cbn. intros H. congruence.
Qed.

Lemma rule_next n e old : always (rule n) (e :: old) -> rule n e old.
Proof. intros H. apply always_cons in H. apply H. Qed.

(** everything except the target is fine; the target d gets its new record z *)
Lemma j_arrive s s' t c d k y z new :
  J s -> runs s d = false -> nth_error (s_thr s) t = Some c ->
  nth_error (s_rec s) d = Some y ->
  s_rec s' = upd (s_rec s) d z -> s_thr s' = upd (s_thr s) t d -> s_tr s' = new ++ EvSwitch t c d k :: s_tr s ->
  injected (s_tr s) c = [] ->
  (forall e, e <> d -> injected (s_tr s') e = injected (s_tr s) e) ->
  injected (s_tr s') d = ks (r_frames z) -> r_ontop z = hd_error (ks (r_frames z)) -> length (ks (r_frames z)) <= 1 ->
  hd_error (r_frames z) <> Some FStart ->
  always inject_rule (s_tr s') -> no_switch (s_tr s') -> J s'.
Proof.
  intros [J1 J2 J3 J4] Hrd Ht Hd R1 R2 R3 Hinj Hoth Hinjd Hont Hlen Hst Hal Hns.
  constructor; auto.
  - intros e x. rewrite R1, nth_upd. destruct (Nat.eqb_spec d e) as [<-|E].
    + pose proof (nth_some_lt _ _ _ Hd) as L. apply Nat.ltb_lt in L. rewrite L. intros H. injection H as <-.
      unfold loc. repeat split; auto.
      * intros Hr. exfalso. assert (runs s' d = true); [|congruence]. apply runs_nth. exists t. rewrite R2.
        eapply nth_upd_eq; eauto.
      * intros H. congruence.
    + intros Hx. destruct (J1 e x Hx) as (A & B & C & D & F). unfold loc. rewrite (Hoth e) by congruence.
      repeat split; auto.
      * intros Hr. destruct (Nat.eqb_spec c e) as [<-|E2]; [rewrite <- B; exact Hinj|]. apply D.
        rewrite runs_false in Hr |- *. intros t' Ht'. apply (Hr t'). rewrite R2.
        destruct (Nat.eqb_spec t t') as [Eq|E3]; [subst t'; congruence|]. rewrite nth_upd_ne; auto.
      * intros H. destruct (F H) as [a Ha]. exists a. rewrite R3. apply in_or_app. right. right. exact Ha.
  - intros e He. rewrite R1, upd_length in He. rewrite Hoth; [apply J2; exact He|]. intros ->.
    pose proof (nth_some_lt _ _ _ Hd). lia.
Qed.

Lemma switch_new s t c d k s' : switch s t c d k = Next s' -> grows (EvSwitch t c d k :: s_tr s) (s_tr s').
Proof.
  unfold switch. destruct (nth_error (s_rec s) d) as [y|]; [|discriminate]. destruct (_ && _); [|discriminate]. cbv zeta.
  match goal with |- arrive ?a ?b = _ -> _ => pose proof (arrive_ext a b) as H; destruct (arrive a b); try discriminate end.
  intros E. injection E as ->. exact H.
Qed.
Lemma inject_switch t c d k tr tr' : grows (EvSwitch t c d k :: tr) tr' -> calm_inject tr' ->
  injected tr c = [] /\ match k with SwOntop _ => entered tr d \/ main_ctx tr d | _ => True end.
Proof. intros [new ->] H. apply always_app in H. apply always_cons in H. apply H. Qed.

Ltac jrule H := rewrite always_cons; split; [|try exact H].

Lemma switch_j n s t c d k :
  J s -> nth_error (s_thr s) t = Some c -> jgood n (switch s t c d k).
Proof.
  intros HJ Ht. destruct (switch s t c d k) as [s'| | | | |] eqn:Hsw; try exact I. cbn [jgood]. intros Hci Hru.
  pose proof (switch_new _ _ _ _ _ _ Hsw) as Hg. destruct (inject_switch _ _ _ _ _ _ Hg Hci) as [Hinj Hk].
  unfold switch in Hsw. destruct (nth_error (s_rec s) d) as [y|] eqn:Hd; [|discriminate].
  destruct (r_alive y && negb (existsb (Nat.eqb d) (s_thr s))) eqn:Hc; [|discriminate]. cbv zeta in Hsw.
  apply andb_prop in Hc. destruct Hc as [_ Hrd]. apply negb_true_iff in Hrd.
  destruct (j_loc _ HJ d y Hd) as (Y1 & Y2 & Y3 & Y4 & Y5). specialize (Y4 Hrd). rewrite Y4 in Y1, Y2. cbn [hd_error] in Y1.
  set (y2 := match k with SwOntop g => set_ontop (set_from y (Some c)) (Some g) | SwUnwind => set_force (set_from y (Some c)) true | _ => set_from y (Some c) end) in *.
  assert (Yf : r_frames y2 = r_frames y) by (unfold y2; destruct k; reflexivity).
  assert (Yo : r_ontop y2 = match k with SwOntop g => Some g | _ => None end) by (unfold y2; destruct k; cbn; auto).
  assert (Yr : r_from y2 = Some c) by (unfold y2; destruct k; reflexivity).
  set (s1 := mk_s (upd (s_rec s) d y2) (s_vars s) (upd (s_thr s) t d) (s_nusr s) (EvSwitch t c d k :: s_tr s)) in *.
  assert (Hd1 : nth_error (s_rec s1) d = Some y2) by (unfold s1; cbn; eapply nth_upd_eq; eauto).
  unfold arrive in Hsw. rewrite Hd1, Yf in Hsw.
  assert (Hsw1 : always inject_rule (EvSwitch t c d k :: s_tr s)).
  { rewrite always_cons. split; [|exact (j_rule _ HJ)]. pose proof (j_hd _ HJ) as A. unfold no_switch in A. unfold inject_rule.
    destruct (hd_error (s_tr s)) as [[]|]; try contradiction; auto. }
  (* quiet event first: k is not SwOntop *)
  assert (Hq : forall ev more z, s_tr s' = more ++ ev :: EvSwitch t c d k :: s_tr s -> quiet ev = true -> forallb quiet more = true ->
      s_rec s' = upd (s_rec s) d z -> s_thr s' = upd (s_thr s) t d -> ks (r_frames z) = [] -> r_ontop z = r_ontop y2 ->
      hd_error (r_frames z) <> Some FStart -> (forall g, k <> SwOntop g) -> J s').
  { intros ev more z Htr Q1 Q2 R1 R2 Z1 Z2 Z3 Z4.
    assert (A : always inject_rule (ev :: EvSwitch t c d k :: s_tr s) /\ no_switch (ev :: EvSwitch t c d k :: s_tr s)).
    { split; [|destruct ev; try discriminate; exact I]. rewrite always_cons. split; [|exact Hsw1]. unfold inject_rule. cbn.
      destruct k; destruct ev; try discriminate; auto; exfalso; eapply Z4; eauto. }
    destruct A as [A B]. destruct (always_quiet more _ Q2 B A) as [A' B'].
    eapply (j_arrive s s' t c d k y z (more ++ [ev])); eauto.
    - rewrite <- app_assoc. exact Htr.
    - intros e _. rewrite Htr, injected_quiet by exact Q2. destruct ev; try discriminate; reflexivity.
    - rewrite Htr, injected_quiet, Z1 by exact Q2. destruct ev; try discriminate; exact Y2.
    - rewrite Z1, Z2, Yo. destruct k; auto. exfalso. eapply Z4; eauto.
    - rewrite Z1. cbn. lia.
    - rewrite Htr. exact A'.
    - rewrite Htr. exact B'. }
  assert (Hnk : forall ev more g, s_tr s' = more ++ ev :: EvSwitch t c d k :: s_tr s -> k = SwOntop g ->
      ev = EvResumed d (Some c) \/ ev = EvEnter d (Some c) \/ exists g', ev = EvOntop d g' (Some c)).
  { intros ev more g Htr ->. rewrite Htr in Hru. apply always_app in Hru. apply rule_next in Hru.
    destruct Hru as (_ & _ & A & _). unfold next_rule0 in A. cbn in A. exact A. }
  destruct (r_frames y) as [|[f| | |e| | | | | | |] rest] eqn:Hfy; try discriminate.
  - (* FStart *)
    injection Hsw as <-. erewrite put_frames_eq in * by (cbn; eapply nth_upd_eq; eauto). cbn [s_tr emit add_var] in *.
    eapply (Hq (EvEnter d (r_from y2)) [EvCtor (OnCtx d) (OFib (length (s_vars s)))]
              (set_frames y2 (FU (mk_uf KCtx [OFib (length (s_vars s))] MRun None) :: FRun :: rest))); try reflexivity.
    + cbn [s_rec emit add_var]. unfold s1; cbn [s_rec]. apply upd_upd.
    + cbn. exact Y4.
    + discriminate.
    + intros g ->. destruct Hk as [Hk|Hk].
      * apply always_cons in Hru. destruct Hru as [_ Hru]. apply rule_next in Hru. destruct Hru as (_ & _ & _ & A & _).
        apply A. destruct Hk as [r Hr]. exists r. right. exact Hr.
      * destruct (Y5 eq_refl) as [a Ha]. exact (Hk a Ha).
  - (* FRes *)
    destruct (r_force y2).
    + unfold raise_to in Hsw. destruct rest as [|[f| | |e| | | | | | |] rest]; try discriminate. injection Hsw as <-.
      erewrite put_frames_eq in * by (cbn; eapply nth_upd_eq; eapply nth_upd_eq; eauto). cbn [s_tr s_rec emit put_rec] in *.
      eapply (Hq (EvRaised d (XForced (r_from y2))) [] (set_frames (set_from y2 None) (FU (set_mode f (MLand (XForced (r_from y2)))) :: rest))); try reflexivity.
      * unfold s1; cbn [s_rec]. rewrite !upd_upd. reflexivity.
      * cbn. exact Y4.
      * discriminate.
      * intros g E. destruct (Hnk (EvRaised d (XForced (r_from y2))) [] g eq_refl E) as [A|[A|[g' A]]]; discriminate.
    + rewrite Yo in Hsw. destruct k as [| |g|].
      1, 2, 4: unfold ret_to in Hsw; destruct rest as [|[f| | |e| | | | | | |] rest]; try discriminate; injection Hsw as <-;
        (erewrite put_frames_eq in * by (cbn; eapply nth_upd_eq; eapply nth_upd_eq; eauto)); cbn [s_tr s_rec emit put_rec add_var] in *;
        [eapply (Hq (EvResumed d (r_from y2)) [EvCtor _ _] (set_frames (set_from y2 None) (FU (set_objs f (OFib (length (s_vars s)) :: uf_objs f)) :: rest)))|eapply (Hq (EvResumed d (r_from y2)) [] (set_frames (set_from y2 None) (FTmp (r_from y2) :: FAssert :: rest)))]; try reflexivity;
        try (unfold s1; cbn [s_rec]; rewrite !upd_upd; reflexivity); try exact Y4; discriminate.
      injection Hsw as <-. erewrite put_frames_eq in * by (cbn; eapply nth_upd_eq; eapply nth_upd_eq; eauto).
      cbn [s_tr s_rec emit put_rec add_var] in *.
      eapply (j_arrive s _ t c d (SwOntop g) y _ [EvCtor (OnCtx d) (OFib (length (s_vars s)));EvOntop d g (r_from y2)]); try reflexivity; eauto.
      * unfold s1; cbn [s_rec]. rewrite !upd_upd. reflexivity.
      * intros e E. cbn. destruct (Nat.eqb_spec d e); [congruence|reflexivity].
      * cbn. rewrite Nat.eqb_refl, Y2. change (flat_map kf rest = []) in Y4. rewrite Y4. reflexivity.
      * exact Yo.
      * change (length (g :: flat_map kf rest) <= 1). change (flat_map kf rest = []) in Y4. rewrite Y4. cbn. lia.
      * discriminate.
      * cbn [s_tr]. rewrite always_cons. split; [split; cbn; auto|]. rewrite always_cons. split; [|exact Hsw1]. unfold inject_rule. cbn. auto.
  - (* FDt *)
    destruct (nth_error (s_rec s1) e) as [z|]; [|discriminate]. destruct (r_alive z); [|discriminate]. destruct (r_term z); [|discriminate].
    injection Hsw as <-. erewrite put_frames_eq in * by (cbn; eapply nth_upd_eq; eapply nth_upd_eq; eauto). cbn [s_tr s_rec emit put_rec] in *.
    eapply (Hq (EvDestroyed d) [] (set_frames (set_from y2 None) (FRel e false :: rest))); try reflexivity.
    + unfold s1; cbn [s_rec]. rewrite !upd_upd. reflexivity.
    + exact Y4.
    + discriminate.
    + intros g E. destruct (Hnk (EvDestroyed d) [] g eq_refl E) as [A|[A|[g' A]]]; discriminate.
Qed.

(* ------------------------------------------------------------------ the other steps *)

Section Ctx.
  Variables (n t c : nat).

  Lemma drop_j s x fs h :
    J s -> nth_error (s_rec s) c = Some x -> nth_error (s_thr s) t = Some c -> ks fs = ks (r_frames x) ->
    hd_error fs <> Some FStart -> jgood n (drop s t c fs h).
  Proof.
    intros HJ Hc Ht K S. unfold drop.
    assert (Hn : J (put_frames s c fs)) by (apply (j_pf s s c x fs [] HJ Hc); auto).
    destruct h as [d|]; [|intros _ _; exact Hn]. destruct (nth_error (s_rec s) d) as [y|]; [|exact I].
    destruct (r_alive y); [|exact I]. destruct (r_main y); [intros _ _; exact Hn|]. destruct (r_term y).
    - intros _ _. apply (j_pf s s c x _ [] HJ Hc); auto. discriminate.
    - apply switch_j; [|rewrite put_frames_thr; exact Ht]. apply (j_pf s s c x _ [] HJ Hc); auto. discriminate.
  Qed.

  Lemma destroy_j s x fs p o :
    J s -> nth_error (s_rec s) c = Some x -> nth_error (s_thr s) t = Some c -> ks fs = ks (r_frames x) ->
    hd_error fs <> Some FStart -> jgood n (destroy s t c fs p o).
  Proof.
    intros HJ Hc Ht K S. unfold destroy. destruct o as [v|u].
    - destruct (nth_error (s_vars s) v) as [[|b h]|]; try exact I.
      eapply drop_j; eauto. eapply (j_same s _ [_] HJ); reflexivity.
    - intros _ _. eapply (j_pf s _ c x _ [_] HJ Hc); try reflexivity; [|discriminate]. cbn. exact K.
  Qed.

  Lemma ret_to_j s x fs p :
    J s -> nth_error (s_rec s) c = Some x -> ks fs = ks (r_frames x) -> jgood n (ret_to s c fs p).
  Proof.
    intros HJ Hc K. unfold ret_to. destruct fs as [|[f| | |e| | | | | | |] rest]; try exact I; intros _ _.
    - eapply (j_pf s _ c x _ [_; _] HJ Hc); try reflexivity; [|discriminate]. exact K.
    - eapply (j_pf s _ c x _ [_] HJ Hc); try reflexivity; [|discriminate]. exact K.
  Qed.
  Lemma raise_to_j s x fs p :
    J s -> nth_error (s_rec s) c = Some x -> ks fs = ks (r_frames x) -> jgood n (raise_to s c fs p).
  Proof.
    intros HJ Hc K. unfold raise_to. destruct fs as [|[f| | |e| | | | | | |] rest]; try exact I; intros _ _.
    eapply (j_pf s _ c x _ [_] HJ Hc); try reflexivity; [|discriminate]. exact K.
  Qed.

  Lemma leave_ret_j s x f rest r :
    J s -> nth_error (s_rec s) c = Some x -> nth_error (s_thr s) t = Some c -> r_frames x = FU f :: rest ->
    wfs (r_main x) (FU f :: rest) -> hd_error rest <> Some FStart -> jgood n (leave_ret s c f rest r).
  Proof.
    intros HJ Hc Ht Hfs Hwf S. unfold leave_ret. destruct (uf_kind f) eqn:Hk.
    - exact I.
    - destruct rest as [|[g| | |e| | | | | | |] rest]; try exact I. intros _ _.
      eapply (j_pf s _ c x _ [_] HJ Hc); try reflexivity; [|discriminate]. rewrite Hfs. cbn. rewrite Hk. reflexivity.
    - destruct rest as [|[f0| | |e| | | | | | |] rest]; try exact I.
      destruct (j_loc _ HJ c x Hc) as (A & B & C & D & E).
      assert (Kr : ks (r_frames x) = g :: ks rest) by (rewrite Hfs; cbn; rewrite Hk; reflexivity).
      rewrite Kr in *. cbn [length hd_error] in *. assert (Kn : ks rest = []) by (destruct (ks rest); [reflexivity|cbn in C; lia]).
      rewrite Kn in *. unfold clear_ontop. cbn [emit s_rec]. rewrite Hc.
      set (s1 := put_rec _ c (set_ontop x None)).
      (* the state after clearing ontop, with the frames the call returns to *)
      assert (HJ1 : J (put_frames s1 c rest)).
      { assert (Hc1 : nth_error (s_rec s1) c = Some (set_ontop x None)) by (unfold s1; cbn; eapply nth_upd_eq; eauto).
        assert (Hi : forall e, injected (s_tr (put_frames s1 c rest)) e = if Nat.eqb c e then [] else injected (s_tr s) e).
        { intros e. rewrite put_frames_tr. unfold s1. cbn. destruct (Nat.eqb_spec c e) as [<-|]; [rewrite B|]; reflexivity. }
        constructor.
        - intros e z. rewrite (put_frames_rec _ _ _ _ Hc1). unfold s1 at 1. cbn [put_rec s_rec emit]. rewrite upd_upd, nth_upd.
          unfold loc. rewrite Hi.
          destruct (Nat.eqb_spec c e) as [<-|Ne].
          + pose proof (nth_some_lt _ _ _ Hc) as L. apply Nat.ltb_lt in L. rewrite L. intros Hz. injection Hz as <-.
            cbn [set_frames set_ontop r_ontop r_frames]. rewrite Kn. cbn. repeat split; auto; try lia.
            intros Hst. exfalso. apply wfs_cons in Hwf. destruct Hwf as [_ Hwf]. destruct rest as [|g1 rest]; [discriminate|].
            apply wfs_cons in Hwf. destruct Hwf as [Hb _]. cbn in Hst. injection Hst as ->. exact Hb.
          + intros Hz. destruct (j_loc _ HJ e z Hz) as (A' & B' & C' & D' & E'). repeat split; auto.
            * unfold runs. rewrite put_frames_thr. exact D'.
            * intros H. destruct (E' H) as [a Ha]. exists a. rewrite put_frames_tr. unfold s1; cbn. auto.
        - intros e He. rewrite (put_frames_rec _ _ _ _ Hc1) in He. unfold s1 in He. cbn [put_rec s_rec emit] in He.
          rewrite !upd_length in He. rewrite Hi. destruct (Nat.eqb c e); [reflexivity|]. exact (j_len _ HJ e He).
        - rewrite put_frames_tr. unfold s1. cbn [s_tr emit put_rec]. rewrite always_cons. split; [|exact (j_rule _ HJ)].
          pose proof (j_hd _ HJ) as N. unfold no_switch in N. unfold inject_rule. rewrite B. cbn.
          destruct (hd_error (s_tr s)) as [[]|]; try contradiction; auto.
        - rewrite put_frames_tr. exact I. }
      (* ret_to overwrites the frames *)
      assert (E1 : ret_to s1 c rest r = ret_to (put_frames s1 c rest) c rest r \/ forall s', ret_to s1 c rest r <> Next s').
      { assert (Hc1 : nth_error (s_rec s1) c = Some (set_ontop x None)) by (unfold s1; cbn; eapply nth_upd_eq; eauto).
        unfold ret_to. destruct rest as [|[f0| | |e| | | | | | |] rest]; try (right; discriminate); left.
        - rewrite (put_frames_eq s1 c _ _ Hc1). erewrite put_frames_eq by (cbn; eapply nth_upd_eq; eauto). symmetry.
          erewrite put_frames_eq by (cbn; eapply nth_upd_eq; eapply nth_upd_eq; eauto). cbn. rewrite !upd_upd. reflexivity.
        - rewrite (put_frames_eq s1 c _ _ Hc1). erewrite put_frames_eq by (cbn; eapply nth_upd_eq; eauto). symmetry.
          erewrite put_frames_eq by (cbn; eapply nth_upd_eq; eapply nth_upd_eq; eauto). cbn. rewrite !upd_upd. reflexivity. }
      destruct E1 as [-> |E1].
      + eapply ret_to_j; eauto.
        * rewrite (put_frames_rec s1 c rest (set_ontop x None)) by (unfold s1; cbn; eapply nth_upd_eq; eauto).
          eapply nth_upd_eq. unfold s1; cbn; eapply nth_upd_eq; eauto.
        * reflexivity.
      + destruct (ret_to s1 c rest r); try exact I. exfalso. eapply E1; eauto.
    - destruct rest as [|[g| | |e| | | | | | |] rest]; try exact I. intros _ _.
      apply (j_pf s s c x _ [] HJ Hc); auto. rewrite Hfs. cbn. rewrite Hk. reflexivity.
    - assert (G : J (put_frames s c rest)).
      { apply (j_pf s s c x _ [] HJ Hc); auto. rewrite Hfs. cbn. rewrite Hk. reflexivity. }
      destruct rest; intros _ _; exact G.
  Qed.

  Lemma leave_exn_j s x f rest e :
    J s -> nth_error (s_rec s) c = Some x -> r_frames x = FU f :: rest -> jgood n (leave_exn s c f rest e).
  Proof.
    intros HJ Hc Hfs. unfold leave_exn. destruct (uf_kind f) eqn:Hk; try exact I;
      destruct rest as [|[g0| | |e0| | | | | | |] rest]; try exact I.
    - destruct e; [exact I|]. intros _ _.
      eapply (j_pf s _ c x _ [_] HJ Hc); try reflexivity; [|discriminate]. rewrite Hfs. cbn. rewrite Hk. reflexivity.
    - unfold raise_to. destruct rest as [|[g1| | |e1| | | | | | |] rest]; try exact I. intros Hci. exfalso.
      rewrite put_frames_tr in Hci. cbn in Hci. apply always_cons in Hci. destruct Hci as [_ Hci]. apply always_cons in Hci. apply Hci.
    - intros _ _. eapply (j_pf s _ c x _ [] HJ Hc); try reflexivity; [|discriminate]. rewrite Hfs. cbn. rewrite Hk. reflexivity.
  Qed.

  Lemma rel_step_j s x d fail rest :
    SInv n s -> J s -> nth_error (s_rec s) c = Some x -> nth_error (s_thr s) t = Some c -> r_frames x = FRel d fail :: rest ->
    hd_error rest <> Some FStart -> jgood n (rel_step s t c d fail rest).
  Proof.
    intros HI HJ Hc Ht Hfs S. unfold rel_step. destruct (nth_error (s_rec s) d) as [y|] eqn:Hd; [|exact I].
    destruct (r_alive y); [|exact I].
    assert (Hrd : runs s d = false).
    { pose proof (frame_cnt d s c x (FRel d fail) Hc ltac:(rewrite Hfs; left; reflexivity)) as A.
      cbn in A. rewrite Nat.eqb_refl in A. cbn in A.
      destruct (inv_runs_false _ _ _ _ d HI) as (z & _ & _ & B); [lia|exact B]. }
    assert (Ne : d <> c) by (intros ->; rewrite runs_false in Hrd; exact (Hrd t Ht)).
    destruct (j_loc _ HJ d y Hd) as (Y1 & Y2 & Y3 & Y4 & Y5). specialize (Y4 Hrd).
    destruct (r_caps y) as [|o l].
    - destruct (r_alloc y); [|exact I].
      assert (HJ1 : forall new s1, s_rec s1 = upd (s_rec s) d (set_dead y) -> s_thr s1 = s_thr s -> s_tr s1 = new ++ s_tr s ->
                forallb quiet new = true -> J s1).
      { intros new s1 R1 R2 R3 Q. apply (j_put s s1 d y (set_dead y) new HJ Hd R1 R2 R3 Q); auto.
        cbn. discriminate. }
      assert (Hc1 : nth_error (s_rec (emit (put_rec s d (set_dead y)) (EvFree d n0 c))) c = Some x) by (cbn; rewrite nth_upd_ne; auto).
      assert (G : J (emit (put_rec s d (set_dead y)) (EvFree d n0 c))) by (apply (HJ1 [EvFree d n0 c]); reflexivity).
      destruct fail.
      + destruct rest as [|[f| | |e| | | | | | |] rest]; try exact I. intros _ _.
        eapply (j_pf _ _ c x _ [_] G Hc1); try reflexivity; [|discriminate]. rewrite Hfs. reflexivity.
      + intros _ _. apply (j_pf _ _ c x _ [] G Hc1); auto. rewrite Hfs. reflexivity.
    - assert (G : J (put_rec s d (set_caps y l))).
      { apply (j_put s _ d y (set_caps y l) [] HJ Hd); auto. }
      eapply (destroy_j _ x); eauto.
      + cbn. rewrite nth_upd_ne; auto.
      + rewrite Hfs. reflexivity.
      + discriminate.
  Qed.

  Lemma tau_j s x :
    SInv n s -> J s -> nth_error (s_rec s) c = Some x -> nth_error (s_thr s) t = Some c -> jgood n (tau_step s t c (r_frames x)).
  Proof.
    intros HI HJ Hc Ht. unfold tau_step. destruct (inv_running _ _ _ _ _ _ _ HI Ht Hc) as (Hal & Htf & Hwf & Htop & Hrc).
    destruct (r_frames x) as [|[f| | |e| | |p| |p| |d b] rest] eqn:Hfs; try exact I.
    - assert (Hst : hd_error rest <> Some FStart).
      { destruct rest as [|g rest]; [discriminate|]. apply wfs_cons in Hwf. destruct Hwf as [[_ Hb] _]. intros H. injection H as ->.
        destruct (uf_kind f); cbn in Hb; try discriminate; contradiction. }
      destruct (uf_mode f) eqn:Hm; try exact I; (destruct (uf_objs f) as [|o l] eqn:Ho;
        [|eapply destroy_j; eauto; [rewrite Hfs; reflexivity|discriminate]]).
      + eapply leave_ret_j; eauto.
      + eapply leave_exn_j; eauto.
    - destruct p as [d|]; [|exact I]. rewrite Hc.
      set (s1 := put_rec s c _). destruct (switch s1 t c d SwExit) as [s'| | | | |] eqn:Hsw; try exact I. cbn [jgood]. intros Hci Hru.
      pose proof (switch_new _ _ _ _ _ _ Hsw) as Hg. destruct (inject_switch _ _ _ _ _ _ Hg Hci) as [Hinj _].
      change (s_tr s1) with (s_tr s) in Hinj.
      destruct (j_loc _ HJ c x Hc) as (A & B & C & D & E). rewrite Hinj in B. rewrite Hfs in *. cbn in B.
      assert (G : J s1).
      { apply (j_put s s1 c x (set_done x (FRes :: FRunEnd :: rest)) [] HJ Hc); auto.
        - rewrite Hfs. reflexivity.
        - cbn. rewrite A. cbn. unfold ks. rewrite <- B. reflexivity.
        - discriminate. }
      pose proof (switch_j n s1 t c d SwExit G Ht) as H. rewrite Hsw in H. exact (H Hci Hru).
    - destruct rest as [|g rest]; [cbn in Hwf; contradiction|]. apply wfs_cons in Hwf. destruct Hwf as [[] _].
    - apply (rel_step_j s x); auto.
      destruct rest as [|g rest]; [discriminate|]. apply wfs_cons in Hwf. destruct Hwf as [Hb _]. intros H. injection H as ->.
      destruct b; exact Hb.
  Qed.

  Lemma new_fib_j s x f rest b h :
    J s -> nth_error (s_rec s) c = Some x -> r_frames x = FU f :: rest -> jgood n (new_fib s c f rest b h).
  Proof.
    intros HJ Hc Hfs. unfold new_fib. destruct b; intros _ _;
      (eapply (j_pf s _ c x _ [_] HJ Hc); try reflexivity; [|discriminate]); rewrite Hfs; reflexivity.
  Qed.

  Lemma do_caps_j d l : forall s acc s' caps, J s -> do_caps s d l acc = Some (s', caps) ->
    J s' /\ s_rec s' = s_rec s /\ s_thr s' = s_thr s /\ incl (s_tr s) (s_tr s').
  Proof.
    induction l as [|[v|] l IH]; intros s acc s' caps HJ; cbn [do_caps].
    - injection 1 as <- _. auto using incl_refl.
    - destruct (get_var s v) as [[b h]|]; [|discriminate]. intros H. apply IH in H.
      + destruct H as (A1 & A2 & A3 & A4). split; [exact A1|]. split; [exact A2|]. split; [exact A3|]. intros e He. apply A4. right. exact He.
      + eapply (j_same s _ [_] HJ); reflexivity.
    - intros H. apply IH in H.
      + destruct H as (A1 & A2 & A3 & A4). split; [exact A1|]. split; [exact A2|]. split; [exact A3|]. intros e He. apply A4. right. exact He.
      + eapply (j_same s _ [_] HJ); reflexivity.
  Qed.

  Lemma do_create_j s x f rest a l ok :
    J s -> nth_error (s_rec s) c = Some x -> r_frames x = FU f :: rest -> jgood n (do_create s c f rest a l ok).
  Proof.
    intros HJ Hc Hfs. unfold do_create. cbv zeta. set (d := length (s_rec s)).
    destruct (do_caps (emit s (EvAlloc d a)) d l []) as [[s1 caps]|] eqn:Hd; [|exact I].
    apply do_caps_j in Hd; [|eapply (j_same s _ [_] HJ); reflexivity].
    destruct Hd as (J1 & R1 & R2 & R3). cbn [emit s_rec s_thr s_tr] in R1, R2, R3.
    set (y := mk_r _ _ _ _ _ _ _ _ _). set (s2 := mk_s _ _ _ _ _).
    assert (G : J s2).
    { constructor.
      - intros e z. unfold s2; cbn [s_rec s_tr]. rewrite R1. destruct (Nat.lt_ge_cases e d) as [L|L].
        + rewrite nth_error_app1 by exact L. rewrite <- R1. intros Hz. exact (j_loc _ J1 e z Hz).
        + rewrite nth_error_app2 by exact L. intros Hz. fold d in Hz. destruct (e - d) as [|k] eqn:Ek; [|destruct k; discriminate].
          injection Hz as <-. assert (e = d) as -> by lia. unfold loc. cbn. rewrite (j_len _ J1) by (rewrite R1; unfold d; lia).
          repeat split; auto; try lia. intros _. exists a. apply R3. left. reflexivity.
      - intros e He. unfold s2 in *; cbn [s_rec s_tr] in *. rewrite app_length in He. apply (j_len _ J1). lia.
      - exact (j_rule _ J1).
      - exact (j_hd _ J1). }
    assert (Hc2 : nth_error (s_rec s2) c = Some x).
    { unfold s2; cbn [s_rec]. rewrite R1, nth_error_app1; [exact Hc|]. eapply nth_some_lt; eauto. }
    destruct ok; [eapply new_fib_j; eauto|]. intros _ _.
    eapply (j_pf s2 _ c x _ [_] G Hc2); try reflexivity; [|discriminate]. rewrite Hfs. reflexivity.
  Qed.

  Lemma user_j s x f rest o :
    J s -> nth_error (s_rec s) c = Some x -> nth_error (s_thr s) t = Some c -> r_frames x = FU f :: rest ->
    jgood n (user_step s t c f rest o).
  Proof.
    intros HJ Hc Ht Hfs.
    assert (Hset : forall f' s1 new, s_rec s1 = s_rec s -> s_thr s1 = s_thr s -> s_tr s1 = new ++ s_tr s -> forallb quiet new = true ->
              uf_kind f' = uf_kind f -> J (put_frames s1 c (FU f' :: rest))).
    { intros f' s1 new R1 R2 R3 Q Hk. eapply (j_pf s s1 c x _ new HJ Hc); auto; [|discriminate]. rewrite Hfs. cbn. rewrite Hk. reflexivity. }
    assert (Hvar : forall s1, s_rec s1 = s_rec s -> s_thr s1 = s_thr s -> s_tr s1 = s_tr s -> J s1).
    { intros s1 R1 R2 R3. apply (j_same s s1 [] HJ); auto. }
    unfold user_step. destruct (uf_mode f).
    - destruct o as [heap| |a l r|src heap|dst src|va vb|v| |src|src g| |v|e| | | |]; try exact I.
      + eapply new_fib_j; eauto.
      + intros _ _. apply (Hset _ _ [EvCtor (OnCtx c) (OUsr (s_nusr s))]); reflexivity.
      + destruct r; [eapply do_create_j; eauto| |eapply do_create_j; eauto].
        intros _ _. apply (Hset _ _ [EvThrow c 0]); reflexivity.
      + destruct (get_var s src) as [[b h]|]; [|exact I]. eapply new_fib_j; eauto.
      + destruct (get_var s dst) as [[]|]; [|exact I]. destruct (get_var s src) as [[]|]; [|exact I].
        destruct (Nat.eqb dst src); [intros _ _; exact HJ|].
        eapply (drop_j _ x); [apply Hvar; reflexivity|exact Hc|exact Ht|rewrite Hfs; reflexivity|discriminate].
      + destruct (get_var s va) as [[]|]; [|exact I]. destruct (get_var s vb) as [[]|]; [|exact I]. intros _ _. apply Hvar; reflexivity.
      + destruct (get_var s v) as [[[]]|]; try exact I. eapply destroy_j; eauto; [rewrite Hfs; reflexivity|discriminate].
      + destruct (uf_objs f); [exact I|]. eapply destroy_j; eauto; [rewrite Hfs; reflexivity|discriminate].
      + destruct (get_var s src) as [[b [d|]]|]; try exact I. apply switch_j; [|rewrite put_frames_thr; exact Ht].
        eapply (j_pf s _ c x _ [] HJ Hc); try reflexivity; [|discriminate]. rewrite Hfs. reflexivity.
      + destruct (get_var s src) as [[b [d|]]|]; try exact I. apply switch_j; [|rewrite put_frames_thr; exact Ht].
        eapply (j_pf s _ c x _ [] HJ Hc); try reflexivity; [|discriminate]. rewrite Hfs. reflexivity.
      + intros _ _. eapply (j_pf s _ c x _ [] HJ Hc); try reflexivity; [|discriminate]. rewrite Hfs. reflexivity.
      + assert (Hn : J (put_frames s c (FU (set_caught f None (MRet None)) :: rest))) by (apply (Hset _ s []); reflexivity).
        assert (Hs : forall w, jgood n (match get_var s w with
              | Some (b, h) => Next (put_frames (put_var s w (VLive b None)) c (FU (set_caught f None (MRet h)) :: rest))
              | None => Invalid end)).
        { intros w. destruct (get_var s w) as [[b h]|]; [|exact I]. intros _ _. apply (Hset _ _ []); reflexivity. }
        destruct (uf_kind f); try exact I; destruct (forced_caught f); try exact I; destruct v as [v|]; try exact I;
          try (intros _ _; exact Hn); apply Hs.
      + destruct (forced_caught f); [exact I|]. intros _ _. apply (Hset _ _ [EvThrow c e]); reflexivity.
      + destruct (uf_caught f) as [[]|]; try exact I. intros _ _. apply (Hset _ s []); reflexivity.
      + destruct (uf_caught f); try exact I. intros _ _. apply (Hset _ s []); reflexivity.
    - destruct o; try exact I.
      + destruct (uf_caught f); try exact I. intros _ _. apply (Hset _ s []); reflexivity.
      + destruct (forced_caught f); try exact I. intros _ _. apply (Hset _ s []); reflexivity.
    - exact I.
    - exact I.
  Qed.
End Ctx.

Theorem step_j n s t l : SInv n s -> J s -> jgood n (step s t l).
Proof.
  intros HI HJ. unfold step. destruct (nth_error (s_thr s) t) as [c|] eqn:Ht; [|exact I].
  destruct (nth_error (s_rec s) c) as [x|] eqn:Hc; [|exact I]. destruct l as [|o].
  - apply tau_j; auto.
  - destruct (r_frames x) as [|[f| | |e| | | | | | |] rest] eqn:Hfs; try exact I. eapply user_j; eauto.
Qed.

Lemma init_j n : J (init n).
Proof.
  constructor.
  - intros c x H. assert (x = main_rec) as ->.
    { cbn in H. apply nth_error_In in H. apply in_map_iff in H. destruct H as (k & E & _). auto. }
    unfold loc. cbn. repeat split; auto; discriminate.
  - reflexivity.
  - apply always_nil.
  - exact I.
Qed.

Lemma grows_inject a b : grows a b -> calm_inject b -> calm_inject a.
Proof. intros [new ->]. apply always_app. Qed.

Lemma run_j n l : forall s, SInv n s -> J s -> forall s', run s l = Next s' -> calm (s_tr s') -> calm_inject (s_tr s') -> SInv n s' /\ J s'.
Proof.
  induction l as [|[t a] l IH]; intros s HI HJ s'; cbn [run].
  - injection 1 as <-. auto.
  - pose proof (step_good n s t a HI) as G. pose proof (step_j n s t a HI HJ) as GJ.
    destruct (step s t a) as [s1| | | | |]; try discriminate. intros Hr Hcalm Hci.
    pose proof (run_ext l s1) as E. rewrite Hr in E. cbn in E, G, GJ.
    assert (I1 : SInv n s1) by (apply G; eapply grows_calm; eauto).
    apply (IH s1); auto. apply GJ; [eapply grows_inject; eauto|]. exact (i_tr _ _ _ _ I1).
Qed.

Lemma calm_j n l s : run (init n) l = Next s -> calm (s_tr s) -> calm_inject (s_tr s) -> SInv n s /\ J s.
Proof. intros H. eapply run_j; eauto using init_inv, init_j. Qed.
