(** Library activity of the ucontext machine always ends: a weight that every step of the library, and
    every user operation that only leaves a function or a scope, strictly decreases.  No invariant is
    needed: this holds of every state. *)
From Coq Require Import List Arith Bool Lia.
From Verif Require Import ListUtil Uctx UctxInv.
Import ListNotations.

Definition winding (l : label) : bool :=
  match l with
  | LTau => true
  | LUser (UReturn _) | LUser UScope | LUser UPropagate | LUser URethrow | LUser (UThrow _) => true
  | _ => false
  end.

Definition fw (f : frame) : nat :=
  match f with
  | FU u => match uf_mode u with MRun => 6 | MLand _ => 5 | _ => 4 end + 10 * length (uf_objs u)
  | FStart => 60
  | FRes => 30
  | FDt _ => 3
  | FOnt => 11
  | FRun => 33
  | FFin _ => 32
  | FRunEnd => 0
  | FTmp _ => 5
  | FAssert => 0
  | FRel _ _ => 2
  end.
Definition W (fs : list frame) : nat := sumf fw fs.
Definition wr (x : rcd) : nat := W (r_frames x) + 10 * length (r_caps x).
Definition weight (s : state) : nat := sumf wr (s_rec s).

Lemma weight_put s c x fs : nth_error (s_rec s) c = Some x ->
  weight (put_frames s c fs) + W (r_frames x) = weight s + W fs.
Proof.
  intros H. unfold put_frames. rewrite H. unfold weight, put_rec. cbn [s_rec].
  pose proof (sumf_upd wr _ _ (set_frames x fs) _ H) as E. unfold wr at 2 4 in E. cbn [set_frames r_frames r_caps] in E. lia.
Qed.
Lemma weight_rec s c x y : nth_error (s_rec s) c = Some x -> weight (put_rec s c y) + wr x = weight s + wr y.
Proof. intros H. unfold weight, put_rec. cbn [s_rec]. exact (sumf_upd wr _ _ y _ H). Qed.
Lemma weight_eq s s' : s_rec s' = s_rec s -> weight s' = weight s.
Proof. unfold weight. intros ->. reflexivity. Qed.

Lemma ret_weight s c x fs p s' : nth_error (s_rec s) c = Some x -> ret_to s c fs p = Next s' ->
  weight s' + W (r_frames x) <= weight s + W fs + 10.
Proof.
  intros Hc. unfold ret_to. destruct fs as [|[f| | | | | | | | | |] rest]; try discriminate; injection 1 as <-;
    match goal with |- context [weight (put_frames ?z _ ?fs)] => pose proof (weight_put z c x fs Hc) as P; assert (weight z = weight s) by reflexivity end;
    unfold W in *; cbn [sumf fw set_objs uf_objs uf_mode length] in *; lia.
Qed.
Lemma raise_weight s c x fs e s' : nth_error (s_rec s) c = Some x -> raise_to s c fs e = Next s' ->
  weight s' + W (r_frames x) <= weight s + W fs + 1.
Proof.
  intros Hc. unfold raise_to. destruct fs as [|[f| | | | | | | | | |] rest]; try discriminate; injection 1 as <-.
  match goal with |- context [weight (put_frames ?z _ ?fs)] => pose proof (weight_put z c x fs Hc) as P; assert (weight z = weight s) by reflexivity end.
  unfold W in *; cbn [sumf fw set_mode uf_objs uf_mode length] in *. destruct (uf_mode f); lia.
Qed.
Lemma nth_put_rec s c x y : nth_error (s_rec s) c = Some x -> nth_error (s_rec (put_rec s c y)) c = Some y.
Proof. intros H. cbn. eapply nth_upd_eq; eauto. Qed.

Lemma arrive_weight s d s' : arrive s d = Next s' -> weight s' < weight s.
Proof.
  unfold arrive. destruct (nth_error (s_rec s) d) as [x|] eqn:Hd; [|discriminate].
  destruct (r_frames x) as [|[f| | |e| | |p| |p| |e b] rest] eqn:Hf; try discriminate.
  - injection 1 as <-.
    match goal with |- context [weight (put_frames ?z _ ?fs)] => pose proof (weight_put z d x fs Hd) as P; assert (weight z = weight s) by reflexivity end.
    rewrite Hf in P. unfold W in *. cbn [sumf fw uf_objs uf_mode length] in *. lia.
  - set (x1 := set_from x None). assert (H1 : nth_error (s_rec (put_rec s d x1)) d = Some x1) by (eapply nth_put_rec; eauto).
    assert (W1 : weight (put_rec s d x1) = weight s).
    { pose proof (weight_rec s d x x1 Hd) as P. change (wr x1) with (wr x) in P. lia. }
    assert (F1 : r_frames x1 = FRes :: rest) by exact Hf.
    destruct (r_force x).
    + intros H. apply (raise_weight _ _ _ _ _ _ H1) in H. rewrite F1 in H. unfold W in *. cbn [sumf fw] in *. lia.
    + destruct (r_ontop x) as [g|].
      * injection 1 as <-.
        match goal with |- context [weight (put_frames ?z _ ?fs)] => pose proof (weight_put z d x1 fs H1) as P; assert (weight z = weight (put_rec s d x1)) by reflexivity end.
        rewrite F1 in P. unfold W in *. cbn [sumf fw uf_objs uf_mode length] in *. lia.
      * intros H. apply (ret_weight _ _ _ _ _ _ H1) in H. rewrite F1 in H. unfold W in *. cbn [sumf fw] in *. lia.
  - destruct (nth_error (s_rec s) e) as [y|]; [|discriminate]. destruct (r_alive y); [|discriminate]. destruct (r_term y); [|discriminate].
    injection 1 as <-. set (x1 := set_from x None). assert (H1 : nth_error (s_rec (put_rec s d x1)) d = Some x1) by (eapply nth_put_rec; eauto).
    assert (W1 : weight (put_rec s d x1) = weight s).
    { pose proof (weight_rec s d x x1 Hd) as P. change (wr x1) with (wr x) in P. lia. }
    match goal with |- context [weight (put_frames ?z _ ?fs)] => pose proof (weight_put z d x1 fs H1) as P; assert (weight z = weight (put_rec s d x1)) by reflexivity end.
    change (r_frames x1) with (r_frames x) in P. rewrite Hf in P. unfold W in *. cbn [sumf fw] in *. lia.
Qed.

Lemma switch_weight s t c d k s' : switch s t c d k = Next s' -> weight s' < weight s.
Proof.
  unfold switch. destruct (nth_error (s_rec s) d) as [y|] eqn:Hd; [|discriminate]. destruct (_ && _); [|discriminate]. intros H. apply arrive_weight in H.
  match type of H with _ < weight ?z => assert (E : weight z = weight s); [|lia] end.
  pose proof (sumf_upd wr _ _ (match k with SwOntop g => set_ontop (set_from y (Some c)) (Some g) | SwUnwind => set_force (set_from y (Some c)) true | _ => set_from y (Some c) end) _ Hd) as P.
  unfold weight. cbn [s_rec]. destruct k; change (wr _) with (wr y) in P at 2; lia.
Qed.

Section C.
  Variables (t c : nat).
  Lemma drop_weight s x fs h s' : nth_error (s_rec s) c = Some x -> drop s t c fs h = Next s' -> weight s' + W (r_frames x) <= weight s + W fs + 3.
  Proof.
    intros Hc. unfold drop. destruct h as [d|].
    2:{ injection 1 as <-. pose proof (weight_put s c x fs Hc). lia. }
    destruct (nth_error (s_rec s) d) as [y|]; [|discriminate]. destruct (r_alive y); [|discriminate]. destruct (r_main y).
    - injection 1 as <-. pose proof (weight_put s c x fs Hc). lia.
    - destruct (r_term y).
      + injection 1 as <-. pose proof (weight_put s c x (FRel d false :: fs) Hc) as P. unfold W in *. cbn [sumf fw] in *. lia.
      + intros H. apply switch_weight in H. pose proof (weight_put s c x (FDt d :: fs) Hc) as P. unfold W in *. cbn [sumf fw] in *. lia.
  Qed.
  Lemma destroy_weight s x fs p o s' : nth_error (s_rec s) c = Some x -> destroy s t c fs p o = Next s' -> weight s' + W (r_frames x) <= weight s + W fs + 6.
  Proof.
    intros Hc. unfold destroy. destruct o as [v|u].
    - destruct (nth_error (s_vars s) v) as [[|b h]|]; try discriminate. intros H.
      apply (drop_weight (put_var (emit s (EvDtor p (OFib v))) v VDead) x) in H; [|exact Hc].
      change (weight (put_var _ _ _)) with (weight s) in H. lia.
    - injection 1 as <-. pose proof (weight_put (emit s (EvDtor p (OUsr u))) c x (FU (mk_uf (KDtor u) [] MRun None) :: fs) Hc) as H.
      change (weight (emit _ _)) with (weight s) in H. unfold W in *. cbn [sumf fw uf_mode uf_objs length] in *. lia.
  Qed.
  Lemma rel_weight s x d b rest s' : nth_error (s_rec s) c = Some x -> r_frames x = FRel d b :: rest ->
    rel_step s t c d b rest = Next s' -> weight s' < weight s.
  Proof.
    intros Hc Hf. unfold rel_step. destruct (nth_error (s_rec s) d) as [y|] eqn:Hd; [|discriminate]. destruct (r_alive y); [|discriminate].
    assert (Q : forall y', W (r_frames y') <= W (r_frames y) -> length (r_caps y') <= length (r_caps y) ->
      exists x', nth_error (s_rec (put_rec s d y')) c = Some x' /\
        weight (put_rec s d y') + (10 * length (r_caps y)) + W (r_frames x) <= weight s + 10 * length (r_caps y') + W (r_frames x')).
    { intros y' L1 L2. pose proof (weight_rec s d y y' Hd) as P. unfold wr in P. destruct (Nat.eq_dec d c) as [->|N].
      - exists y'. split; [eapply nth_put_rec; eauto|]. rewrite Hc in Hd. injection Hd as <-. lia.
      - exists x. split; [cbn; rewrite nth_upd_ne; auto|]. lia. }
    destruct (r_caps y) as [|o l] eqn:Hcaps.
    - destruct (r_alloc y) as [a|]; [|discriminate].
      destruct (Q (set_dead y)) as (x' & H1 & H2); [unfold W; cbn; lia|cbn; lia|]. try rewrite Hcaps in H2. cbn [set_dead r_caps length] in H2.
      destruct b.
      + destruct rest as [|[f| | | | | | | | | |] rest]; try discriminate. injection 1 as <-.
        match goal with |- context [weight (put_frames ?z _ ?fs)] => pose proof (weight_put z c x' fs H1) as P; assert (weight z = weight (put_rec s d (set_dead y))) by reflexivity end.
        rewrite Hf in H2. unfold W in *. cbn [sumf fw set_mode uf_mode uf_objs] in *. destruct (uf_mode f); lia.
      + injection 1 as <-.
        match goal with |- context [weight (put_frames ?z _ ?fs)] => pose proof (weight_put z c x' fs H1) as P; assert (weight z = weight (put_rec s d (set_dead y))) by reflexivity end.
        rewrite Hf in H2. unfold W in *. cbn [sumf fw] in *. lia.
    - destruct (Q (set_caps y l)) as (x' & H1 & H2); [apply le_n|cbn; try rewrite Hcaps; cbn; lia|]. try rewrite Hcaps in H2. cbn [set_caps r_caps length] in H2.
      intros H. apply (destroy_weight _ _ _ _ _ _ H1) in H. rewrite Hf in H2. unfold W in *. cbn [sumf fw] in *. lia.
  Qed.
  Lemma pf_weight s x s1 fs : nth_error (s_rec s) c = Some x -> s_rec s1 = s_rec s -> W fs < W (r_frames x) -> weight (put_frames s1 c fs) < weight s.
  Proof.
    intros Hc E H. assert (H1 : nth_error (s_rec s1) c = Some x) by (rewrite E; auto). pose proof (weight_put s1 c x fs H1).
    pose proof (weight_eq _ _ E). lia.
  Qed.
  Lemma pop_weight s x f o l rest p s' : nth_error (s_rec s) c = Some x -> r_frames x = FU f :: rest -> uf_objs f = o :: l ->
    destroy s t c (FU (set_objs f l) :: rest) p o = Next s' -> weight s' < weight s.
  Proof.
    intros Hc Hf Ho E. apply (destroy_weight _ _ _ _ _ _ Hc) in E. rewrite Hf in E. unfold W in E. cbn [sumf fw set_objs uf_mode uf_objs] in E.
    rewrite Ho in E. cbn [length] in E. lia.
  Qed.
  Lemma clear_weight s x : nth_error (s_rec s) c = Some x -> weight (clear_ontop s c) = weight s /\
    exists x', nth_error (s_rec (clear_ontop s c)) c = Some x' /\ r_frames x' = r_frames x.
  Proof.
    intros Hc. unfold clear_ontop. rewrite Hc. split.
    - pose proof (weight_rec s c x (set_ontop x None) Hc) as P. change (wr (set_ontop x None)) with (wr x) in P. lia.
    - exists (set_ontop x None). split; [eapply nth_put_rec; eauto|reflexivity].
  Qed.

  Lemma tau_weight s x s' : nth_error (s_rec s) c = Some x -> tau_step s t c (r_frames x) = Next s' -> weight s' < weight s.
  Proof.
    intros Hc E. unfold tau_step in E. destruct (r_frames x) as [|[f| | |e| | |p| |p| |d b] rest] eqn:Hf; try discriminate.
    - destruct (uf_mode f) eqn:Hm; try discriminate.
      + destruct (uf_objs f) as [|o l] eqn:Ho; [|eapply pop_weight; eauto]. unfold leave_ret in E. destruct (uf_kind f); try discriminate.
        * destruct rest as [|[] rest]; try discriminate. injection E as <-. eapply pf_weight; [exact Hc|reflexivity|]. rewrite Hf. unfold W. cbn [sumf fw]. rewrite Hm. lia.
        * destruct rest as [|[] rest]; try discriminate.
          assert (Hc1 : nth_error (s_rec (emit s (EvOntopRet c g r))) c = Some x) by exact Hc.
          destruct (clear_weight _ _ Hc1) as (Q1 & x' & Q2 & Q3). apply (ret_weight _ _ _ _ _ _ Q2) in E. rewrite Q3, Hf in E.
          change (weight (emit _ _)) with (weight s) in Q1. unfold W in E. cbn [sumf fw] in E. rewrite Hm in E. lia.
        * destruct rest as [|[] rest]; try discriminate. injection E as <-. eapply pf_weight; [exact Hc|reflexivity|]. rewrite Hf. unfold W. cbn [sumf fw]. rewrite Hm. lia.
        * injection E as <-. eapply pf_weight; [exact Hc|reflexivity|]. rewrite Hf. unfold W. cbn [sumf fw]. rewrite Hm. lia.
      + destruct (uf_objs f) as [|o l] eqn:Ho; [|eapply pop_weight; eauto]. unfold leave_exn in E. destruct (uf_kind f); try discriminate.
        * destruct rest as [|[] rest]; try discriminate. destruct e; try discriminate. injection E as <-. eapply pf_weight; [exact Hc|reflexivity|]. rewrite Hf. unfold W. cbn [sumf fw]. rewrite Hm. lia.
        * destruct rest as [|[] rest]; try discriminate.
          assert (Hc1 : nth_error (s_rec (emit s (EvOntopExn c g e))) c = Some x) by exact Hc.
          apply (raise_weight _ _ _ _ _ _ Hc1) in E. rewrite Hf in E. change (weight (emit _ _)) with (weight s) in E.
          unfold W in E. cbn [sumf fw] in E. rewrite Hm in E. lia.
        * destruct rest as [|[u| | | | | | | | | |] rest]; try discriminate. injection E as <-. eapply pf_weight; [exact Hc|reflexivity|]. rewrite Hf. unfold W. cbn [sumf fw set_mode uf_mode uf_objs]. rewrite Hm. destruct (uf_mode u); lia.
    - destruct p as [d|]; [|discriminate]. rewrite Hc in E. apply switch_weight in E.
      pose proof (weight_rec s c x (set_done x (FRes :: FRunEnd :: rest)) Hc) as P. unfold wr in P. cbn [set_done r_frames r_caps] in P. rewrite Hf in P.
      unfold W in P. cbn [sumf fw] in P. lia.
    - apply (drop_weight _ _ _ _ _ Hc) in E. rewrite Hf in E. unfold W in E. cbn [sumf fw] in E. lia.
    - eapply rel_weight; eauto.
  Qed.

  Lemma user_weight s x f rest o s' : nth_error (s_rec s) c = Some x -> r_frames x = FU f :: rest -> winding (LUser o) = true ->
    user_step s t c f rest o = Next s' -> weight s' < weight s.
  Proof.
    intros Hc Hf Hw E. unfold user_step in E. destruct (uf_mode f) eqn:Hm; try discriminate.
    - assert (G : forall s1 z m, s_rec s1 = s_rec s -> m <> MRun -> (forall e, m <> MLand e) -> s' = put_frames s1 c (FU (set_caught f z m) :: rest) -> weight s' < weight s).
      { intros s1 z m E1 N1 N2 ->. eapply pf_weight; [exact Hc|exact E1|]. rewrite Hf. unfold W. cbn [sumf fw set_caught uf_mode uf_objs]. rewrite Hm.
        destruct m; try (exfalso; apply N1; reflexivity); try (exfalso; eapply N2; reflexivity); lia. }
      destruct o; try discriminate.
      + destruct (uf_objs f) eqn:Ho; [discriminate|]. eapply pop_weight; eauto.
      + destruct (uf_kind f); try discriminate; destruct (forced_caught f); try discriminate; destruct v as [v|]; try discriminate;
          try (injection E as <-; (eapply G; [ | | |reflexivity]; [reflexivity|discriminate|discriminate]));
          (destruct (get_var s v) as [[b h]|]; [|discriminate]; injection E as <-; (eapply G; [ | | |reflexivity]; [reflexivity|discriminate|discriminate])).
      + destruct (forced_caught f); [discriminate|]. injection E as <-. (eapply G; [ | | |reflexivity]; [reflexivity|discriminate|discriminate]).
      + destruct (uf_caught f); [|discriminate]. injection E as <-. (eapply G; [ | | |reflexivity]; [reflexivity|discriminate|discriminate]).
    - destruct o; try discriminate. destruct (forced_caught f); [discriminate|]. injection E as <-.
      eapply pf_weight; [exact Hc|reflexivity|]. rewrite Hf. unfold W. cbn [sumf fw set_caught uf_mode uf_objs]. rewrite Hm. lia.
  Qed.
End C.

Lemma step_weight s t l s' : winding l = true -> step s t l = Next s' -> weight s' < weight s.
Proof.
  intros Hw E. unfold step in E. destruct (nth_error (s_thr s) t) as [c|] eqn:Et; [|discriminate].
  destruct (nth_error (s_rec s) c) as [x|] eqn:Hc; [|discriminate]. destruct l as [|o].
  - eapply tau_weight; eauto.
  - destruct (r_frames x) as [|[] rest] eqn:Hf; try discriminate. eapply user_weight; eauto.
Qed.
Lemma run_weight l : forall s s', Forall (fun p => winding (snd p) = true) l -> run s l = Next s' -> weight s' + length l <= weight s.
Proof.
  induction l as [|[t a] l IH]; intros s s' F E; cbn [run] in E; [injection E as <-; cbn; lia|].
  inversion F as [|? ? H1 H2]; subst. destruct (step s t a) as [s1| | | | |] eqn:E1; try discriminate.
  apply (step_weight _ _ _ _ H1) in E1. apply IH in E; auto. cbn [length]. lia.
Qed.
