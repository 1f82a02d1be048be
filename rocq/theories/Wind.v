(** Library activity always ends: a weight that every step of the library, and every user operation
    that only leaves a function or a scope, strictly decreases. *)
From Coq Require Import List Arith Bool Lia.
From Verif Require Import ListUtil Fiber FiberInv FiberInv2 FiberInv3.
Import ListNotations.

(** operations that wind down: library steps, leaving a function (by return or by exception), ending the
    scope of an automatic object, not handling an exception *)
Definition winding (l : label) : bool :=
  match l with
  | LTau => true
  | LUser (UReturn _) | LUser UScope | LUser UPropagate | LUser URethrow | LUser (UThrow _) => true
  | _ => false
  end.

Definition fw (f : frame) : nat :=
  match f with
  | FU u => match uf_mode u with MRun => 6 | MLand _ => 5 | _ => 4 end + 10 * length (uf_objs u)
  | FCreate | FResume | FResumeW _ => 11
  | FDtor => 2
  | FEntry0 _ => 22
  | FEntry1 => 20
  | FEntry2 | FEntry3 _ => 2
  | FOntop | FExit _ => 1
  end.
Definition W (fs : list frame) : nat := sumf fw fs.
Definition wx (cx : ctx) : nat := W (cx_frames cx) + 10 * length (cx_caps cx).
(** the weight of a state *)
Definition weight (s : state) : nat := sumf wx (s_ctxs s).

Lemma sumf_same {A} (f : A -> nat) l n x : (forall y, nth_error l n = Some y -> f x = f y) -> sumf f (upd l n x) = sumf f l.
Proof.
  intros H. destruct (nth_error l n) as [y|] eqn:E.
  - pose proof (sumf_upd f l n x y E). specialize (H _ eq_refl). lia.
  - f_equal. clear H. revert n E. induction l as [|a l IH]; intros [|n] E; cbn in *; try discriminate; auto. f_equal. auto.
Qed.

Lemma weight_put s c cx fs : nth_error (s_ctxs s) c = Some cx ->
  weight (put_frames s c fs) + W (cx_frames cx) = weight s + W fs.
Proof.
  intros H. unfold weight. rewrite (put_frames_ctxs _ _ _ _ H). pose proof (sumf_upd wx _ _ (set_frames cx fs) _ H) as E.
  unfold wx at 2 4 in E. cbn [set_frames cx_frames cx_caps] in E. lia.
Qed.
Lemma frames_some s c cx : nth_error (s_ctxs s) c = Some cx -> frames_of s c = cx_frames cx.
Proof. unfold frames_of. intros ->. reflexivity. Qed.

Lemma deliver_weight s c cx fs r s' : nth_error (s_ctxs s) c = Some cx -> deliver s c fs r = Next s' ->
  weight s' + W (cx_frames cx) < weight s + W fs.
Proof.
  intros Hc E. unfold deliver in E.
  assert (G : forall s1 fs', s_ctxs s1 = s_ctxs s -> s' = put_frames s1 c fs' -> W fs' < W fs -> weight s' + W (cx_frames cx) < weight s + W fs).
  { intros s1 fs' E1 -> H. assert (H1 : nth_error (s_ctxs s1) c = Some cx) by (rewrite E1; auto).
    pose proof (weight_put _ _ _ fs' H1) as P. assert (weight s1 = weight s) by (unfold weight; rewrite E1; reflexivity). lia. }
  destruct fs as [|f0 rest]; [discriminate|].
  destruct f0; try discriminate.
  1-3: destruct rest as [|[u| | | | | | | | | |] rest]; try discriminate; injection E as <-; eapply G; [|reflexivity|]; [reflexivity|];
    unfold W; cbn [sumf fw set_objs uf_mode uf_objs length]; lia.
  1-2: injection E as <-; eapply G; [|reflexivity|]; [reflexivity|]; unfold W; cbn [sumf fw uf_mode uf_objs length]; lia.
Qed.
Lemma raise_weight s c cx fs e s' : nth_error (s_ctxs s) c = Some cx -> raise s c fs e = Next s' ->
  weight s' + W (cx_frames cx) <= weight s + W fs.
Proof.
  intros Hc E. unfold raise in E.
  assert (G : forall s1 fs', s_ctxs s1 = s_ctxs s -> s' = put_frames s1 c fs' -> W fs' <= W fs -> weight s' + W (cx_frames cx) <= weight s + W fs).
  { intros s1 fs' E1 -> H. assert (H1 : nth_error (s_ctxs s1) c = Some cx) by (rewrite E1; auto).
    pose proof (weight_put _ _ _ fs' H1) as P. assert (weight s1 = weight s) by (unfold weight; rewrite E1; reflexivity). lia. }
  destruct fs as [|f0 rest]; [discriminate|].
  destruct f0; try discriminate.
  1-3: destruct rest as [|[u| | | | | | | | | |] rest]; try discriminate; injection E as <-; eapply G; [|reflexivity|]; [reflexivity|];
    unfold W; cbn [sumf fw set_mode uf_mode uf_objs]; destruct (uf_mode u); lia.
  all: destruct e; try discriminate; injection E as <-; eapply G; [|reflexivity|]; [reflexivity|]; unfold W; cbn [sumf fw]; lia.
Qed.

Lemma switch_weight s t c cx st h k s' me : nth_error (s_ctxs s) c = Some cx -> switch s t c st h k = Some (s', me) ->
  weight s' = weight s /\ (exists tx, nth_error (s_ctxs s') (fc_ctx h) = Some tx).
Proof.
  intros Hc E. unfold switch in E. rewrite Hc in E. destruct (nth_error (s_ctxs s) (fc_ctx h)) as [tx|] eqn:Ht; [|discriminate].
  destruct (cx_status tx); try discriminate. destruct (Nat.eqb _ _); [|discriminate]. injection E as <- <-. split.
  - unfold weight. cbn [s_ctxs]. rewrite !sumf_same; auto.
    + intros y Hy. rewrite Hc in Hy. injection Hy as <-. reflexivity.
    + intros y Hy. destruct (Nat.eq_dec (fc_ctx h) c) as [Eq|N].
      * rewrite Eq, (nth_upd_eq _ _ _ _ Hc) in Hy. injection Hy as <-. rewrite Eq, Hc in Ht. injection Ht as <-. reflexivity.
      * rewrite nth_upd_ne in Hy by auto. rewrite Ht in Hy. injection Hy as <-. reflexivity.
  - cbn [s_ctxs]. rewrite nth_upd_lt; [eauto|]. rewrite upd_length. eapply nth_some_lt; eauto.
Qed.

Section C.
  Variables (t c : nat) (cx : ctx).

  Lemma jump_weight s fs h s' : nth_error (s_ctxs s) c = Some cx -> do_jump s t c fs h = Next s' -> weight s' + W (cx_frames cx) < weight s + W fs.
  Proof.
    intros Hc E. unfold do_jump in E. destruct (switch _ _ _ _ _ _) as [[s1 me]|] eqn:Es; [|discriminate].
    pose proof (weight_put s c cx fs Hc). eapply switch_weight in Es; [|eapply put_frames_nth; eauto]. destruct Es as [Es [tx Htx]].
    apply (deliver_weight _ _ _ _ _ _ Htx) in E. rewrite (frames_some _ _ _ Htx) in E. lia.
  Qed.
  Lemma unwind_weight s fs h s' : nth_error (s_ctxs s) c = Some cx -> do_unwind s t c fs h = Next s' -> weight s' + W (cx_frames cx) <= weight s + W fs.
  Proof.
    intros Hc E. unfold do_unwind in E. destruct (switch _ _ _ _ _ _) as [[s1 me]|] eqn:Es; [|discriminate].
    pose proof (weight_put s c cx fs Hc). eapply switch_weight in Es; [|eapply put_frames_nth; eauto]. destruct Es as [Es [tx Htx]].
    apply (raise_weight _ _ _ _ _ _ Htx) in E. rewrite (frames_some _ _ _ Htx) in E. lia.
  Qed.
  Lemma exit_weight s h s' : nth_error (s_ctxs s) c = Some cx -> do_exit s t c h = Next s' -> weight s' + W (cx_frames cx) <= weight s + 1.
  Proof.
    intros Hc E. unfold do_exit in E. destruct (switch _ _ _ _ _ _) as [[s1 me]|] eqn:Es; [|discriminate]. injection E as <-.
    pose proof (weight_put s c cx [] Hc) as H. eapply switch_weight in Es; [|eapply put_frames_nth; eauto]. destruct Es as [Es [tx Htx]].
    pose proof (weight_put s1 _ tx (FExit c :: frames_of s1 (fc_ctx h)) Htx) as H1. rewrite (frames_some _ _ _ Htx) in H1 at 2.
    unfold W in *. cbn [sumf fw] in *. lia.
  Qed.
  Lemma destroy_weight s fs p o s' : nth_error (s_ctxs s) c = Some cx -> destroy s t c fs p o = Next s' -> weight s' + W (cx_frames cx) <= weight s + W fs + 6.
  Proof.
    intros Hc E. unfold destroy in E. destruct o as [v|u].
    - destruct (nth_error (s_vars s) v) as [[|b [h|]]|]; try discriminate.
      + apply unwind_weight in E; [|exact Hc]. unfold W in *. cbn [sumf fw] in *. unfold weight in *. cbn in *. lia.
      + injection E as <-. 
        match goal with |- context [put_frames ?z c fs] => pose proof (weight_put z c cx fs Hc) end. unfold weight in *. cbn [emit put_var s_ctxs] in *. lia.
    - injection E as <-. pose proof (weight_put (emit s (EvDtor p (OUsr u))) c cx (FU (mk_uf (KDtor u) [] MRun None) :: fs) Hc) as H.
      unfold W in *. cbn [sumf fw uf_mode uf_objs length] in H. unfold weight in *. cbn [emit s_ctxs] in *. lia.
  Qed.
  Lemma exit_step_weight s d rest s' : nth_error (s_ctxs s) c = Some cx -> cx_status cx <> SDying -> cx_frames cx = FExit d :: rest ->
    exit_step s t c d rest = Next s' -> weight s' < weight s.
  Proof.
    intros Hc Hn Hf E. unfold exit_step in E. destruct (nth_error (s_ctxs s) d) as [dx|] eqn:Hd; [|discriminate].
    destruct (cx_status dx) eqn:Hs; try discriminate.
    assert (N : d <> c) by (intros ->; congruence).
    destruct (cx_caps dx) as [|o l] eqn:Hcaps.
    - destruct (cx_alloc dx); [|discriminate].
      match type of E with deliver ?z _ _ _ = _ => assert (Hz : nth_error (s_ctxs z) c = Some cx) by (cbn; rewrite nth_upd_ne; auto);
        assert (weight z <= weight s) end.
      { unfold weight. cbn [emit put_ctx s_ctxs].
        pose proof (sumf_upd wx (s_ctxs s) d (mk_cx [] SFreed (cx_ver dx) (Some n) []) dx Hd) as P. unfold wx at 2 in P. cbn in P. lia. }
      apply (deliver_weight _ _ _ _ _ _ Hz) in E. rewrite Hf in E. unfold W in E. cbn [sumf fw] in E. lia.
    - assert (Hz : nth_error (s_ctxs (put_ctx s d (set_caps dx l))) c = Some cx) by (cbn; rewrite nth_upd_ne; auto).
      apply (destroy_weight _ _ _ _ _ Hz) in E. rewrite Hf in E.
      pose proof (sumf_upd wx (s_ctxs s) d (set_caps dx l) dx Hd) as P. unfold wx at 2 4 in P. cbn [set_caps cx_frames cx_caps] in P.
      rewrite Hcaps in P. cbn [length] in P. unfold weight in *. cbn [put_ctx s_ctxs] in *. lia.
  Qed.

  Lemma pf_weight s s1 fs : nth_error (s_ctxs s) c = Some cx -> s_ctxs s1 = s_ctxs s -> W fs < W (cx_frames cx) -> weight (put_frames s1 c fs) < weight s.
  Proof.
    intros Hc E H. assert (H1 : nth_error (s_ctxs s1) c = Some cx) by (rewrite E; auto). pose proof (weight_put s1 c cx fs H1).
    assert (weight s1 = weight s) by (unfold weight; rewrite E; reflexivity). lia.
  Qed.

  Lemma pop_weight s f o l rest p s' : nth_error (s_ctxs s) c = Some cx -> cx_frames cx = FU f :: rest -> uf_objs f = o :: l ->
    destroy s t c (FU (set_objs f l) :: rest) p o = Next s' -> weight s' < weight s.
  Proof.
    intros Hc Hf Ho E. apply (destroy_weight _ _ _ _ _ Hc) in E. rewrite Hf in E. unfold W in E. cbn [sumf fw set_objs uf_mode uf_objs] in E.
    rewrite Ho in E. cbn [length] in E. lia.
  Qed.

  Lemma tau_weight s s' : nth_error (s_ctxs s) c = Some cx -> cx_status cx = SRun t -> tau_step s t c (cx_frames cx) = Next s' -> weight s' < weight s.
  Proof.
    intros Hc Hr E. unfold tau_step in E. destruct (cx_frames cx) as [|f0 rest] eqn:Hf; [discriminate|]. destruct f0; try discriminate.
    - destruct (uf_mode f) eqn:Hm; try discriminate.
      + destruct (uf_objs f) as [|o l] eqn:Ho; [|eapply pop_weight; eauto]. unfold leave_ret in E. destruct (uf_kind f); try discriminate.
        * destruct rest as [|[] rest]; try discriminate. injection E as <-. eapply pf_weight; [exact Hc|reflexivity|]. rewrite Hf. unfold W. cbn [sumf fw]. rewrite Hm. lia.
        * destruct rest as [|[] rest]; try discriminate.
          assert (Hc1 : nth_error (s_ctxs (emit s (EvOntopRet c g r))) c = Some cx) by exact Hc.
          apply (deliver_weight _ _ _ _ _ _ Hc1) in E. rewrite Hf in E. unfold W in E. cbn [sumf fw] in E.
          unfold weight in *. cbn [emit s_ctxs] in *. lia.
        * destruct rest as [|[] rest]; try discriminate. injection E as <-. eapply pf_weight; [exact Hc|reflexivity|]. rewrite Hf. unfold W. cbn [sumf fw]. rewrite Hm. lia.
        * injection E as <-. eapply pf_weight; [exact Hc|reflexivity|]. rewrite Hf. unfold W. cbn [sumf fw]. rewrite Hm. lia.
      + destruct (uf_objs f) as [|o l] eqn:Ho; [|eapply pop_weight; eauto]. unfold leave_exn in E. destruct (uf_kind f); try discriminate.
        * destruct rest as [|[] rest]; try discriminate. apply (raise_weight _ _ _ _ _ _ Hc) in E. rewrite Hf in E. unfold W in E. cbn [sumf fw] in E. rewrite Hm in E. lia.
        * destruct rest as [|[] rest]; try discriminate.
          assert (Hc1 : nth_error (s_ctxs (emit s (EvOntopExn c g e))) c = Some cx) by exact Hc.
          apply (raise_weight _ _ _ _ _ _ Hc1) in E. rewrite Hf in E. unfold W in E. cbn [sumf fw] in E.
          unfold weight in *. cbn [emit s_ctxs] in *. lia.
        * destruct rest as [|[u| | | | | | | | | |] rest]; try discriminate. injection E as <-. eapply pf_weight; [exact Hc|reflexivity|]. rewrite Hf. unfold W. cbn [sumf fw set_mode uf_mode uf_objs]. rewrite Hm. destruct (uf_mode u); lia.
    - apply (jump_weight _ _ _ _ Hc) in E. rewrite Hf in E. unfold W in E. cbn [sumf fw] in E. lia.
    - destruct t0; [|discriminate]. apply (exit_weight _ _ _ Hc) in E. rewrite Hf in E. unfold W in E. cbn [sumf fw] in E. lia.
    - eapply exit_step_weight; eauto. congruence.
  Qed.

  Lemma user_weight s f rest o s' : nth_error (s_ctxs s) c = Some cx -> cx_frames cx = FU f :: rest -> winding (LUser o) = true ->
    user_step s t c f rest o = Next s' -> weight s' < weight s.
  Proof.
    intros Hc Hf Hw E. unfold user_step in E. destruct (uf_mode f) eqn:Hm; try discriminate.
    - assert (G : forall s1 x m, s_ctxs s1 = s_ctxs s -> m <> MRun -> (forall e, m <> MLand e) -> s' = put_frames s1 c (FU (set_caught f x m) :: rest) -> weight s' < weight s).
      { intros s1 x m E1 N1 N2 ->. eapply pf_weight; [exact Hc|exact E1|]. rewrite Hf. unfold W. cbn [sumf fw set_caught uf_mode uf_objs]. rewrite Hm.
        destruct m; try (exfalso; apply N1; reflexivity); try (exfalso; eapply N2; reflexivity); lia. }
      destruct o; try discriminate.
      + destruct (uf_objs f) eqn:Ho; [discriminate|]. eapply pop_weight; eauto.
      + destruct (uf_kind f); try discriminate; destruct (forced_caught f); try discriminate; destruct v as [v|]; try discriminate;
          try (injection E as <-; (eapply G; [ | | |reflexivity]; [reflexivity|discriminate|discriminate]));
          (destruct (get_var s v) as [[b h]|]; [|discriminate]; injection E as <-; (eapply G; [ | | |reflexivity]; [reflexivity|discriminate|discriminate])).
      + destruct (forced_caught f); [discriminate|]. injection E as <-. (eapply G; [ | | |reflexivity]; [reflexivity|discriminate|discriminate]).
      + destruct (uf_caught f); [|discriminate]. injection E as <-. (eapply G; [ | | |reflexivity]; [reflexivity|discriminate|discriminate]).
    - destruct o; try discriminate. destruct (forced_caught f); [discriminate|]. injection E as <-.
      eapply pf_weight; [exact Hc|reflexivity|]. rewrite Hf. unfold W. cbn [sumf fw set_caught uf_mode uf_objs]. rewrite Hm. lia.
  Qed.
End C.

Lemma step_weight s t l s' : SInv s -> winding l = true -> step s t l = Next s' -> weight s' < weight s.
Proof.
  intros I Hw E. unfold step in E. destruct (nth_error (s_thr s) t) as [c|] eqn:Et; [|discriminate].
  destruct (i_thr _ _ _ _ _ I _ _ Et) as [cx [Hc Hr]]. rewrite Hc in E. destruct l as [|o].
  - eapply tau_weight; eauto.
  - destruct (cx_frames cx) as [|[] rest] eqn:Hf; try discriminate. eapply user_weight; eauto.
Qed.
Lemma run_weight l : forall s s', SInv s -> Forall (fun x => winding (snd x) = true) l -> run s l = Next s' -> weight s' + length l <= weight s.
Proof.
  induction l as [|[t a] l IH]; intros s s' I Hw E; cbn in E; [injection E as <-; cbn; lia|].
  inversion Hw as [|? ? W1 W2]; subst. pose proof (step_good s t a I) as G. destruct (step s t a) as [s1| | | | |] eqn:Es; try discriminate.
  apply step_weight in Es; auto. apply IH in E; auto. cbn [length]. lia.
Qed.
