(** Every transition of the fiber machine preserves the invariant. *)
From Coq Require Import List Arith Bool Lia.
From Verif Require Import ListUtil Fiber FiberInv.
Import ListNotations.

Lemma upd_upd {A} (l : list A) n x y : upd (upd l n x) n y = upd l n y.
Proof. revert n; induction l as [|z l IH]; intros [|n]; cbn; auto. now rewrite IH. Qed.
Lemma upd_same {A} (l : list A) n x : nth_error l n = Some x -> upd l n x = l.
Proof. revert n; induction l as [|z l IH]; intros [|n] H; cbn in *; try discriminate; f_equal; auto; congruence. Qed.
Lemma upd_comm {A} (l : list A) n m x y : n <> m -> upd (upd l n x) m y = upd (upd l m y) n x.
Proof.
  revert n m; induction l as [|z l IH]; intros [|n] [|m] H; cbn; try congruence; auto.
  now rewrite IH by lia.
Qed.

Lemma inv_ext s s' fl ol w pe :
  s_ctxs s' = s_ctxs s -> s_vars s' = s_vars s -> s_thr s' = s_thr s -> Inv s fl ol w pe -> Inv s' fl ol w pe.
Proof.
  destruct s as [a b c d e], s' as [a' b' c' d' e']; cbn. intros -> -> -> I.
  destruct I as [I1 I2 I3 I4 I5 I6 I7]. constructor; auto.
Qed.

Lemma put_frames_same s c cx : nth_error (s_ctxs s) c = Some cx -> put_frames s c (cx_frames cx) = s.
Proof.
  intros H. unfold put_frames, put_ctx. rewrite H.
  replace (set_frames cx (cx_frames cx)) with cx by (destruct cx; reflexivity).
  rewrite upd_same by exact H. destruct s; reflexivity.
Qed.

Lemma put_frames_nth s c fs cx : nth_error (s_ctxs s) c = Some cx ->
  nth_error (s_ctxs (put_frames s c fs)) c = Some (set_frames cx fs).
Proof. intros H. rewrite (put_frames_ctxs _ _ _ cx H). eapply nth_upd_eq; eauto. Qed.

Lemma put_frames_put s c fs fs' : put_frames (put_frames s c fs) c fs' = put_frames s c fs'.
Proof.
  unfold put_frames at 2. destruct (nth_error (s_ctxs s) c) as [cx|] eqn:E.
  - unfold put_frames. cbn [put_ctx s_ctxs]. rewrite (nth_upd_eq _ _ _ _ E), E.
    unfold put_ctx; cbn. rewrite upd_upd. reflexivity.
  - unfold put_frames. rewrite E. reflexivity.
Qed.

Lemma put_frames_emit s c fs e : put_frames (emit s e) c fs = emit (put_frames s c fs) e.
Proof. unfold put_frames. cbn. destruct (nth_error (s_ctxs s) c); reflexivity. Qed.
Lemma put_frames_add s c fs e : put_frames (add_var s e) c fs = add_var (put_frames s c fs) e.
Proof. unfold put_frames. cbn. destruct (nth_error (s_ctxs s) c); reflexivity. Qed.

Lemma deliver_put s c fs0 fs r : deliver (put_frames s c fs0) c fs r = deliver s c fs r.
Proof.
  unfold deliver. rewrite !put_frames_vars.
  destruct fs as [|[] rest]; auto; try (destruct rest as [|[] rest]; auto);
  repeat rewrite <- ?put_frames_emit, <- ?put_frames_add; rewrite put_frames_put; reflexivity.
Qed.
Lemma raise_put s c fs0 fs e : raise (put_frames s c fs0) c fs e = raise s c fs e.
Proof.
  unfold raise.
  destruct fs as [|[] rest]; auto; try (destruct rest as [|[] rest]; auto); try destruct e; auto;
  repeat rewrite <- ?put_frames_emit, <- ?put_frames_add; rewrite put_frames_put; reflexivity.
Qed.

(** moving handles and objects between the frames of the running context and the variables *)
Lemma inv_pf s s1 t c cx fs0 fs1 fl ol w pe fl' ol' w' pe' :
  Inv (put_frames s c fs0) fl ol w pe ->
  nth_error (s_ctxs s) c = Some cx -> cx_status cx = SRun t ->
  s_ctxs s1 = s_ctxs s -> s_thr s1 = s_thr s ->
  (forall k, wfs_ CR k fs1 + wfs_ CD k fs1 + wfs_ CC k fs1 + wfs_ CX k fs1
             + sumf (wvar CR k) (s_vars s1) + (wfl CR k fl' + wfl CD k fl' + wfl CC k fl' + wfl CX k fl')
           = wfs_ CR k fs0 + wfs_ CD k fs0 + wfs_ CC k fs0 + wfs_ CX k fs0
             + sumf (wvar CR k) (s_vars s) + (wfl CR k fl + wfl CD k fl + wfl CC k fl + wfl CX k fl)) ->
  (forall k, wfs_ CR k fs1 + sumf (wvar CR k) (s_vars s1) + wfl CR k fl'
             <= wfs_ CR k fs0 + sumf (wvar CR k) (s_vars s) + wfl CR k fl) ->
  (forall k, wfs_ CD k fs1 + wfl CD k fl' <= wfs_ CD k fs0 + wfl CD k fl) ->
  (forall k, wfs_ CC k fs1 + wfl CC k fl' = wfs_ CC k fs0 + wfl CC k fl) ->
  (forall v, wofs v fs1 + sumf (fun v' => b2n (Nat.eqb v' v)) ol' + auto_live (nth_error (s_vars s) v)
           = wofs v fs0 + sumf (fun v' => b2n (Nat.eqb v' v)) ol + auto_live (nth_error (s_vars s1) v)) ->
  (forall d, wexs d fs1 + wpe d pe' = wexs d fs0 + wpe d pe) ->
  (forall t', t' <> t -> w = Some t' <-> w' = Some t') ->
  shape w' (set_frames cx fs1) ->
  Inv (put_frames s1 c fs1) fl' ol' w' pe'.
Proof.
  intros I Hc Ht Hcx Hthr H1 H2 H3 H4 H5 H6 H7 H8.
  assert (Hc1 : nth_error (s_ctxs s1) c = Some cx) by (rewrite Hcx; exact Hc).
  eapply (inv_local (put_frames s c fs0) _ t c (set_frames cx fs0) fs1 fl ol w pe fl' ol' w' pe' I).
  - apply put_frames_nth; exact Hc.
  - exact Ht.
  - rewrite (put_frames_ctxs _ _ _ cx Hc1), (put_frames_ctxs _ _ _ cx Hc), upd_upd, Hcx. reflexivity.
  - rewrite !put_frames_thr. exact Hthr.
  - rewrite !put_frames_vars. exact H1.
  - rewrite !put_frames_vars. exact H2.
  - exact H3.
  - exact H4.
  - rewrite !put_frames_vars. exact H5.
  - exact H6.
  - exact H7.
  - exact H8.
Qed.

(** the same, starting from a state as it is *)
Lemma inv_pf0 s s1 t c cx fs1 fl ol w pe fl' ol' w' pe' :
  Inv s fl ol w pe ->
  nth_error (s_ctxs s) c = Some cx -> cx_status cx = SRun t ->
  s_ctxs s1 = s_ctxs s -> s_thr s1 = s_thr s ->
  (forall k, wfs_ CR k fs1 + wfs_ CD k fs1 + wfs_ CC k fs1 + wfs_ CX k fs1
             + sumf (wvar CR k) (s_vars s1) + (wfl CR k fl' + wfl CD k fl' + wfl CC k fl' + wfl CX k fl')
           = wfs_ CR k (cx_frames cx) + wfs_ CD k (cx_frames cx) + wfs_ CC k (cx_frames cx) + wfs_ CX k (cx_frames cx)
             + sumf (wvar CR k) (s_vars s) + (wfl CR k fl + wfl CD k fl + wfl CC k fl + wfl CX k fl)) ->
  (forall k, wfs_ CR k fs1 + sumf (wvar CR k) (s_vars s1) + wfl CR k fl'
             <= wfs_ CR k (cx_frames cx) + sumf (wvar CR k) (s_vars s) + wfl CR k fl) ->
  (forall k, wfs_ CD k fs1 + wfl CD k fl' <= wfs_ CD k (cx_frames cx) + wfl CD k fl) ->
  (forall k, wfs_ CC k fs1 + wfl CC k fl' = wfs_ CC k (cx_frames cx) + wfl CC k fl) ->
  (forall v, wofs v fs1 + sumf (fun v' => b2n (Nat.eqb v' v)) ol' + auto_live (nth_error (s_vars s) v)
           = wofs v (cx_frames cx) + sumf (fun v' => b2n (Nat.eqb v' v)) ol + auto_live (nth_error (s_vars s1) v)) ->
  (forall d, wexs d fs1 + wpe d pe' = wexs d (cx_frames cx) + wpe d pe) ->
  (forall t', t' <> t -> w = Some t' <-> w' = Some t') ->
  shape w' (set_frames cx fs1) ->
  Inv (put_frames s1 c fs1) fl' ol' w' pe'.
Proof.
  intros I Hc. rewrite <- (put_frames_same s c cx Hc) in I. intros.
  eapply (inv_pf s s1 t c cx (cx_frames cx) fs1 fl ol w pe); eauto.
Qed.

(* ------------------------------------------------------------------ variables *)

Lemma wvar_upd l v x0 x k : nth_error l v = Some x0 ->
  sumf (wvar CR k) (upd l v x) + wvar CR k x0 = sumf (wvar CR k) l + wvar CR k x.
Proof. apply sumf_upd. Qed.

Lemma auto_live_upd l v b h h' v' : nth_error l v = Some (VLive b h) ->
  auto_live (nth_error (upd l v (VLive b h')) v') = auto_live (nth_error l v').
Proof.
  intros H. rewrite nth_upd. destruct (Nat.eqb_spec v v') as [<-|E]; [|reflexivity].
  rewrite H. destruct (v <? length l) eqn:E; [destruct b; reflexivity|].
  apply Nat.ltb_ge in E. apply nth_some_lt in H. lia.
Qed.

Lemma auto_live_dead l v b h v' : nth_error l v = Some (VLive b h) ->
  auto_live (nth_error (upd l v VDead) v') + (if Nat.eqb v v' then b2n (negb b) else 0) = auto_live (nth_error l v').
Proof.
  intros H. rewrite nth_upd. destruct (Nat.eqb_spec v v') as [<-|E]; [|lia].
  rewrite H. destruct (v <? length l) eqn:E; [destruct b; reflexivity|].
  apply Nat.ltb_ge in E. apply nth_some_lt in H. lia.
Qed.

(* ------------------------------------------------------------------ destroying *)

Definition objl (o : obj) : list nat := match o with OFib v => [v] | OUsr _ => [] end.

(** frames directly above which a destructor may run *)
Definition dtor_ok (fs : list frame) : Prop :=
  match fs with
  | FU g :: _ => match uf_mode g with MLand _ => False | _ => True end
  | FExit _ :: _ => True
  | _ => False
  end.

Lemma dtor_ok_active fs : dtor_ok fs -> top_ok active fs.
Proof. destruct fs as [|[] r]; cbn; tauto || reflexivity. Qed.

Lemma destroy_inv s t c cx fs p o ol :
  nth_error (s_ctxs s) c = Some cx -> cx_status cx = SRun t ->
  Inv (put_frames s c fs) None ol None None ->
  dtor_ok fs ->
  ol = objl o \/ (exists v h, o = OFib v /\ ol = [] /\ nth_error (s_vars s) v = Some (VLive true h)) ->
  good (destroy s t c fs p o).
Proof.
  intros Hc Ht I Hd Ho.
  assert (Hwf : wfs (is_main cx) fs).
  { pose proof (inv_wfs _ _ _ _ _ _ _ _ I (put_frames_nth _ _ _ _ Hc) Ht). exact H. }
  assert (Hbd : forall f0, (match f0 with FDtor => True | FU u => fok u /\ exists n, uf_kind u = KDtor n | _ => False end) ->
      wfs (is_main cx) (f0 :: fs)).
  { intros f0 H0. destruct fs as [|g r]; [destruct Hd|]. rewrite wfs_cons. split; [|exact Hwf].
    destruct f0; try tauto; cbn [below]; try (destruct H0 as [Hk [n ->]]); destruct g; cbn in Hd; tauto. }
  unfold destroy. destruct o as [v|u].
  - assert (Hv : exists b h, nth_error (s_vars s) v = Some (VLive b h) /\
             forall v', sumf (fun x => b2n (x =? v')) ol = if Nat.eqb v v' then b2n (negb b) else 0).
    { destruct Ho as [->|[v0 [h [E [-> Hv]]]]].
      - pose proof (i_own _ _ _ _ _ I v) as E. cbn [objl sumf] in E. rewrite Nat.eqb_refl in E. cbn in E.
        rewrite put_frames_vars in E.
        destruct (nth_error (s_vars s) v) as [[|b h]|]; cbn in E; try lia. destruct b; [lia|].
        exists false, h. split; [reflexivity|]. intros v'. cbn. destruct (v =? v'); reflexivity.
      - injection E as <-. exists true, h. split; [exact Hv|]. intros v'. destruct (v =? v'); reflexivity. }
    destruct Hv as [b [h [Hv Hol]]]. rewrite Hv. cbv zeta. destruct h as [h|].
    + set (s1 := put_var (emit s (EvDtor p (OFib v))) v VDead).
      assert (Hc1 : nth_error (s_ctxs s1) c = Some cx) by exact Hc.
      eapply (unwind_inv s1 t c (FDtor :: fs) h CR (set_frames cx (FDtor :: fs))).
      * eapply (inv_pf s s1 t c cx fs (FDtor :: fs) None ol None None (Some (CR, h)) [] (Some t) None I Hc Ht);
          try reflexivity; unfold s1; cbn [s_vars put_var emit].
        -- counts. pose proof (wvar_upd _ _ _ VDead k Hv) as E. cbn in E. lia.
        -- counts. pose proof (wvar_upd _ _ _ VDead k Hv) as E. cbn in E. lia.
        -- counts. pose proof (auto_live_dead _ _ _ _ v0 Hv). rewrite Hol. lia.
        -- intros t' Hne; split; congruence.
        -- eapply shape_wait; [exact Ht| |reflexivity]. apply Hbd; exact Logic.I.
      * apply put_frames_nth; exact Hc1.
      * exact Ht.
      * reflexivity.
      * reflexivity.
    + cbn [good].
      eapply (inv_pf s _ t c cx fs fs None ol None None None [] None None I Hc Ht);
          try reflexivity; cbn [s_vars put_var emit].
      * counts. pose proof (wvar_upd _ _ _ VDead k Hv) as E. cbn in E. lia.
      * counts. pose proof (wvar_upd _ _ _ VDead k Hv) as E. cbn in E. lia.
      * counts. pose proof (auto_live_dead _ _ _ _ v0 Hv). rewrite Hol. lia.
      * eapply shape_run; [exact Ht|exact Hwf|]. apply dtor_ok_active; exact Hd.
  - cbn [good]. destruct Ho as [->|[v0 [h [E _]]]]; [|discriminate].
    eapply (inv_pf s _ t c cx fs (FU (mk_uf (KDtor u) [] MRun None) :: fs) None _ None None None [] None None I Hc Ht);
          try reflexivity; cbn [s_vars put_var emit].
    eapply shape_run; [exact Ht| |reflexivity]. apply Hbd. cbn. split; [exact Logic.I|eauto].
Qed.

(* ------------------------------------------------------------------ fiber_exit *)

(** a captured object is taken out of a finished context *)
Lemma inv_caps s d dx o l fl ol w pe :
  Inv s fl ol w pe -> nth_error (s_ctxs s) d = Some dx -> cx_status dx = SDying -> cx_caps dx = o :: l ->
  Inv (put_ctx s d (set_caps dx l)) fl (objl o ++ ol) w pe.
Proof.
  intros I Hd Hs Hcaps.
  set (s' := put_ctx s d (set_caps dx l)).
  assert (Hnth : forall e, nth_error (s_ctxs s') e = if Nat.eqb d e then Some (set_caps dx l) else nth_error (s_ctxs s) e).
  { intros e. unfold s'; cbn [put_ctx s_ctxs]. destruct (Nat.eqb_spec d e) as [<-|E].
    - eapply nth_upd_eq; eauto.
    - now rewrite nth_upd_ne. }
  assert (Hsum : forall f : ctx -> nat, f (set_caps dx l) = f dx -> sumf f (s_ctxs s') = sumf f (s_ctxs s)).
  { intros f E. pose proof (sumf_upd f _ d (set_caps dx l) dx Hd). unfold s'; cbn [put_ctx s_ctxs]. lia. }
  destruct I as [I1 I2 I3 I4 I5 I6 I7].
  assert (Hcnt : forall cl k, cnt cl k s' = cnt cl k s).
  { intros. unfold cnt. rewrite Hsum; reflexivity. }
  constructor.
  - intros k. rewrite !Hcnt, I1. unfold susp. rewrite Hnth. destruct (Nat.eqb_spec d (fc_ctx k)) as [<-|E]; [|reflexivity].
    rewrite Hd. reflexivity.
  - intros cl k. rewrite Hcnt. intros Hp. rewrite <- (I2 cl k Hp). unfold top, frames_of. rewrite Hnth.
    destruct (Nat.eqb_spec d (fc_ctx k)) as [<-|E]; [|reflexivity]. rewrite Hd. reflexivity.
  - intros v. unfold own. rewrite sumf_app. specialize (I3 v). unfold own in I3. change (s_vars s') with (s_vars s).
    rewrite <- I3. pose proof (sumf_upd (wocx v) _ d (set_caps dx l) dx Hd) as E.
    change (wocx v dx) with (wofs v (cx_frames dx) + wobs v (cx_caps dx)) in E.
    change (wocx v (set_caps dx l)) with (wofs v (cx_frames dx) + wobs v l) in E. rewrite Hcaps in E.
    change (wobs v (o :: l)) with (wob v o + wobs v l) in E.
    assert (sumf (fun v' => b2n (v' =? v)) (objl o) = wob v o) by (destruct o; cbn; lia).
    unfold s'; cbn [put_ctx s_ctxs]. lia.
  - intros t c Ht. destruct (I4 t c Ht) as [cx [H1 H2]]. rewrite Hnth. destruct (Nat.eqb_spec d c) as [<-|E]; [|eauto].
    exists (set_caps dx l). split; [reflexivity|]. cbn. congruence.
  - intros c cx t Hc Hst. rewrite Hnth in Hc. destruct (Nat.eqb_spec d c) as [<-|E]; [|eapply I5; eauto].
    injection Hc as <-. cbn in Hst. congruence.
  - intros c cx Hc. rewrite Hnth in Hc. destruct (Nat.eqb_spec d c) as [<-|E]; [|eauto].
    injection Hc as <-. pose proof (I6 _ _ Hd) as H. unfold shape in *. cbn [set_caps cx_status cx_frames]. rewrite Hs in *. exact H.
  - intros e. unfold exits. rewrite Hsum by reflexivity. specialize (I7 e). unfold exits in I7. rewrite I7.
    unfold dying. rewrite Hnth. destruct (Nat.eqb_spec d e) as [<-|E]; [|reflexivity]. rewrite Hd. reflexivity.
Qed.

(** the stack of a finished context is deallocated *)
Lemma inv_free s d dx fl ol w :
  Inv s fl ol w (Some d) -> nth_error (s_ctxs s) d = Some dx -> cx_status dx = SDying -> cx_caps dx = [] ->
  Inv (put_ctx s d (mk_cx [] SFreed (cx_ver dx) (cx_alloc dx) [])) fl ol w None.
Proof.
  intros I Hd Hs Hcaps.
  set (fx := mk_cx [] SFreed (cx_ver dx) (cx_alloc dx) []).
  set (s' := put_ctx s d fx).
  assert (Hnth : forall e, nth_error (s_ctxs s') e = if Nat.eqb d e then Some fx else nth_error (s_ctxs s) e).
  { intros e. unfold s'; cbn [put_ctx s_ctxs]. destruct (Nat.eqb_spec d e) as [<-|E].
    - eapply nth_upd_eq; eauto.
    - now rewrite nth_upd_ne. }
  assert (Hsum : forall f : ctx -> nat, f fx = f dx -> sumf f (s_ctxs s') = sumf f (s_ctxs s)).
  { intros f E. pose proof (sumf_upd f _ d fx dx Hd). unfold s'; cbn [put_ctx s_ctxs]. lia. }
  destruct I as [I1 I2 I3 I4 I5 I6 I7].
  pose proof (I6 _ _ Hd) as Hsh. unfold shape in Hsh. rewrite Hs in Hsh. destruct Hsh as [Hfr Hmain].
  assert (Hcnt : forall cl k, cnt cl k s' = cnt cl k s).
  { intros. unfold cnt. rewrite Hsum; [reflexivity|]. unfold wcx. rewrite Hfr. reflexivity. }
  constructor.
  - intros k. rewrite !Hcnt, I1. unfold susp. rewrite Hnth. destruct (Nat.eqb_spec d (fc_ctx k)) as [<-|E]; [|reflexivity].
    rewrite Hd, Hs. reflexivity.
  - intros cl k. rewrite Hcnt. intros Hp. rewrite <- (I2 cl k Hp). unfold top, frames_of. rewrite Hnth.
    destruct (Nat.eqb_spec d (fc_ctx k)) as [<-|E]; [|reflexivity]. rewrite Hd, Hfr. reflexivity.
  - intros v. unfold own. rewrite Hsum; [apply I3|]. unfold wocx. rewrite Hfr, Hcaps. reflexivity.
  - intros t c Ht. destruct (I4 t c Ht) as [cx [H1 H2]]. rewrite Hnth. destruct (Nat.eqb_spec d c) as [<-|E]; [|eauto].
    congruence.
  - intros c cx t Hc Hst. rewrite Hnth in Hc. destruct (Nat.eqb_spec d c) as [<-|E]; [|eapply I5; eauto].
    injection Hc as <-. cbn in Hst. congruence.
  - intros c cx Hc. rewrite Hnth in Hc. destruct (Nat.eqb_spec d c) as [<-|E]; [|eauto].
    injection Hc as <-. unfold shape. cbn. auto.
  - intros e. unfold exits. rewrite Hsum. 2:{ unfold wexcx. rewrite Hfr. reflexivity. }
    specialize (I7 e). unfold exits in I7. cbn [wpe] in *.
    unfold dying in *. rewrite Hnth. destruct (Nat.eqb_spec d e) as [Ede|Ede]; [subst e|].
    + rewrite Hd, Hs in I7. cbn in *. lia.
    + cbn in I7. lia.
Qed.

Lemma exit_step_inv s t c cx d rest :
  SInv s -> nth_error (s_ctxs s) c = Some cx -> cx_status cx = SRun t ->
  cx_frames cx = FExit d :: rest ->
  good (exit_step s t c d rest).
Proof.
  intros I Hc Ht Hfs. unfold exit_step.
  assert (Hd : 0 < dying d s).
  { rewrite <- (i_exit _ _ _ _ _ I d). unfold exits. pose proof (sumf_le (wexcx d) _ _ _ Hc) as H.
    unfold wexcx in H at 1. rewrite Hfs in H. unfold wexs in H. cbn in H. rewrite Nat.eqb_refl in H. cbn in H. lia. }
  unfold dying in Hd. destruct (nth_error (s_ctxs s) d) as [dx|] eqn:Hdx; [|lia].
  destruct (cx_status dx) eqn:Hds; try lia.
  assert (Hne : c <> d) by (intros ->; congruence).
  pose proof (inv_wfs _ _ _ _ _ _ _ _ I Hc Ht) as Hwf. rewrite Hfs in Hwf.
  destruct (cx_caps dx) as [|o l] eqn:Hcaps.
  - (* deallocate *)
    pose proof (i_shape _ _ _ _ _ I _ _ Hdx) as Hsh. unfold shape in Hsh. rewrite Hds in Hsh. destruct Hsh as [Hdf Hmain].
    unfold is_main in Hmain. destruct (cx_alloc dx) as [a|] eqn:Hal; [|discriminate].
    rewrite <- Hal. set (fx := mk_cx [] SFreed (cx_ver dx) (cx_alloc dx) []).
    destruct rest as [|g rest]; [cbn in Hwf; tauto|]. rewrite wfs_cons in Hwf. destruct Hwf as [Hb Hwf].
    assert (I1 : Inv (put_frames s c (g :: rest)) None [] (Some t) (Some d)).
    { eapply (inv_pf0 s s t c cx (g :: rest) None [] None None None [] (Some t) (Some d) I Hc Ht); try reflexivity;
        rewrite ?Hfs.
      - counts. lia.
      - counts. lia.
      - counts. lia.
      - counts. lia.
      - counts. lia.
      - counts. lia.
      - intros t' Hn; split; congruence.
      - eapply shape_wait; [exact Ht|exact Hwf|]. cbn in Hb. destruct Hb as [Hb|Hb]; [destruct g; cbn in *; congruence|subst g; reflexivity]. }
    assert (Hdx1 : nth_error (s_ctxs (put_frames s c (g :: rest))) d = Some dx).
    { rewrite (put_frames_ctxs _ _ _ cx Hc), nth_upd_ne; auto. }
    pose proof (inv_free _ d dx None [] (Some t) I1 Hdx1 Hds Hcaps) as I2.
    assert (Hcomm : put_ctx (put_frames s c (g :: rest)) d fx = put_frames (put_ctx s d fx) c (g :: rest)).
    { unfold put_frames. cbn [put_ctx s_ctxs]. rewrite nth_upd_ne by auto. rewrite Hc. unfold put_ctx; cbn.
      rewrite upd_comm by auto. reflexivity. }
    fold fx in I2. rewrite Hcomm in I2.
    assert (Hc2 : nth_error (s_ctxs (put_ctx s d fx)) c = Some cx).
    { cbn [put_ctx s_ctxs]. rewrite nth_upd_ne; auto. }
    rewrite <- (deliver_put _ c (g :: rest)), !put_frames_emit.
    set (s3 := emit (emit (put_frames (put_ctx s d fx) c (g :: rest)) _) _).
    pose proof (deliver_inv s3 t c (set_frames cx (g :: rest)) None) as D.
    cbn [set_frames cx_frames] in D. apply D.
    + refine (inv_ext (put_frames (put_ctx s d fx) c (g :: rest)) s3 _ _ _ _ _ _ _ I2); reflexivity.
    + unfold s3; cbn [emit s_ctxs]. apply put_frames_nth. exact Hc2.
    + exact Ht.
    + congruence.
  - (* destroy a captured object *)
    assert (I1 := inv_caps _ _ _ _ _ _ _ _ _ I Hdx Hds Hcaps). rewrite app_nil_r in I1.
    assert (Hc2 : nth_error (s_ctxs (put_ctx s d (set_caps dx l))) c = Some cx).
    { cbn [put_ctx s_ctxs]. rewrite nth_upd_ne; auto. }
    eapply (destroy_inv _ t c cx (FExit d :: rest) (OnCtx d) o (objl o) Hc2 Ht).
    + rewrite <- Hfs. rewrite (put_frames_same _ _ _ Hc2). exact I1.
    + exact Logic.I.
    + left; reflexivity.
Qed.
