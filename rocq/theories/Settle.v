(** Forced unwinding completes: if user code does not interfere (no handler swallows the exception, every
    destructor returns) the context that a destructor asked to unwind finishes, and so do all contexts
    that are unwound on the way; then the destructor continues. *)
From Coq Require Import List Arith Bool Lia.
From Verif Require Import ListUtil Fiber FiberInv FiberInv2 FiberInv3 Micro MicroInv FiberSpec ObjInv StepFacts Wind.
Import ListNotations.

(** What well-behaved code does next on thread t: an exception that has arrived is not handled,
    destructors of user objects return at once; the rest is the library's. [None]: ordinary user code is
    executing. *)
Definition cleanup (s : state) (t : nat) : option label :=
  match nth_error (s_thr s) t with
  | None => None
  | Some c =>
      match frames_of s c with
      | FU f :: _ =>
          match uf_mode f with
          | MLand _ => Some (LUser UPropagate)
          | MRun => match uf_kind f with KDtor _ => Some (LUser (UReturn None)) | _ => None end
          | _ => Some LTau
          end
      | _ => Some LTau
      end
  end.
Fixpoint settle (k : nat) (s : state) (t : nat) : outcome :=
  match k with
  | 0 => Next s
  | S k => match cleanup s t with
           | None => Next s
           | Some l => match step s t l with Next s' => settle k s' t | o => o end
           end
  end.

Lemma cleanup_winding s t l : cleanup s t = Some l -> winding l = true.
Proof.
  unfold cleanup. destruct (nth_error (s_thr s) t) as [c|]; [|discriminate].
  destruct (frames_of s c) as [|[] rest]; try (intros E; injection E as <-; reflexivity).
  destruct (uf_mode f); [destruct (uf_kind f)| | |]; intros E; try discriminate; injection E as <-; reflexivity.
Qed.

(* ------------------------------------------------------------------ explicit switches *)

(** the unwind request arrives: the suspended call throws, or the context that was not started is left *)
Definition hit (me : fctx) (fs fs' : list frame) (d : nat) (ev : event) : Prop :=
  (exists w f rest, fs = w :: FU f :: rest /\ fs' = FU (set_mode f (MLand (EForced me))) :: rest /\ ev = EvRaised d (EForced me)) \/
  (fs = [FEntry1] /\ fs' = [FEntry3 (Some me)] /\ ev = EvDone d (Some me)).

Lemma sw_full s t c cx h tx fs st k : nth_error (s_ctxs s) c = Some cx -> cx_status cx = SRun t ->
  nth_error (s_ctxs s) (fc_ctx h) = Some tx -> cx_status tx = SSusp -> cx_ver tx = fc_ver h ->
  c <> fc_ctx h /\
  switch (put_frames s c fs) t c st h k =
    Some (mk_s (upd (upd (s_ctxs s) c (mk_cx fs st (S (cx_ver cx)) (cx_alloc cx) (cx_caps cx)))
                    (fc_ctx h) (mk_cx (cx_frames tx) (SRun t) (cx_ver tx) (cx_alloc tx) (cx_caps tx)))
               (s_vars s) (upd (s_thr s) t (fc_ctx h)) (s_nusr s) (EvSwitch t c (mk_fc c (S (cx_ver cx))) h k :: s_tr s),
          mk_fc c (S (cx_ver cx))).
Proof.
  intros H1 H2 H3 H4 H5. assert (N : c <> fc_ctx h) by (intros ->; congruence). split; auto.
  unfold switch. rewrite (put_frames_ctxs _ _ _ _ H1), nth_upd_lt by (eapply nth_some_lt; eauto). rewrite nth_upd_ne by auto.
  rewrite H3, H4, H5, Nat.eqb_refl. rewrite put_frames_vars, put_frames_thr, put_frames_nusr, put_frames_tr, upd_upd. reflexivity.
Qed.

Lemma upd_frames l x cx fs : nth_error l x = Some cx -> upd l x (set_frames cx fs) = upd l x (set_frames cx fs).
Proof. reflexivity. Qed.

Lemma do_unwind_eq s t c cx fs h tx f1 r1 : nth_error (s_ctxs s) c = Some cx -> cx_status cx = SRun t ->
  nth_error (s_ctxs s) (fc_ctx h) = Some tx -> cx_status tx = SSusp -> cx_ver tx = fc_ver h ->
  cx_frames tx = f1 :: r1 -> resumable_frame f1 = true -> wfs (is_main tx) (cx_frames tx) ->
  exists fs' ev, hit (mk_fc c (S (cx_ver cx))) (f1 :: r1) fs' (fc_ctx h) ev /\ c <> fc_ctx h /\
    do_unwind s t c fs h = Next (mk_s (upd (upd (s_ctxs s) c (mk_cx fs SSusp (S (cx_ver cx)) (cx_alloc cx) (cx_caps cx)))
                    (fc_ctx h) (mk_cx fs' (SRun t) (cx_ver tx) (cx_alloc tx) (cx_caps tx)))
               (s_vars s) (upd (s_thr s) t (fc_ctx h)) (s_nusr s) (ev :: EvSwitch t c (mk_fc c (S (cx_ver cx))) h SwUnwind :: s_tr s)).
Proof.
  intros H1 H2 H3 H4 H5 H6 H7 H8. destruct (sw_full s t c cx h tx fs SSusp SwUnwind H1 H2 H3 H4 H5) as [N E].
  unfold do_unwind. rewrite E. set (me := mk_fc c (S (cx_ver cx))) in *. unfold frames_of. cbn [s_ctxs].
  rewrite nth_upd_lt by (rewrite upd_length; eapply nth_some_lt; eauto). cbn [cx_frames]. rewrite H6 in *.
  assert (F : forall ev fs', put_frames (emit (mk_s (upd (upd (s_ctxs s) c (mk_cx fs SSusp (S (cx_ver cx)) (cx_alloc cx) (cx_caps cx)))
                    (fc_ctx h) (mk_cx (f1 :: r1) (SRun t) (cx_ver tx) (cx_alloc tx) (cx_caps tx)))
               (s_vars s) (upd (s_thr s) t (fc_ctx h)) (s_nusr s) (EvSwitch t c me h SwUnwind :: s_tr s)) ev) (fc_ctx h) fs' =
      mk_s (upd (upd (s_ctxs s) c (mk_cx fs SSusp (S (cx_ver cx)) (cx_alloc cx) (cx_caps cx)))
                    (fc_ctx h) (mk_cx fs' (SRun t) (cx_ver tx) (cx_alloc tx) (cx_caps tx)))
               (s_vars s) (upd (s_thr s) t (fc_ctx h)) (s_nusr s) (ev :: EvSwitch t c me h SwUnwind :: s_tr s)).
  { intros ev fs'. unfold put_frames. cbn [emit s_ctxs]. rewrite nth_upd_lt by (rewrite upd_length; eapply nth_some_lt; eauto).
    unfold put_ctx. cbn [emit s_ctxs s_vars s_thr s_nusr s_tr]. rewrite upd_upd. reflexivity. }
  destruct f1; try discriminate H7.
  1-2: destruct r1 as [|g9 r1]; [destruct H8|]; rewrite wfs_cons in H8; destruct H8 as [Hb _]; destruct g9; try contradiction;
    cbn [raise]; rewrite F; eexists _, _; (split; [left; eexists _, _, _; split; [reflexivity|split; reflexivity]|split; [exact N|reflexivity]]).
  apply wfs_entry1 in H8. subst r1. cbn [raise]. rewrite F. eexists _, _. split; [right; split; [reflexivity|split; reflexivity]|]. split; [exact N|reflexivity].
Qed.

Lemma do_exit_eq s t c cx h tx : nth_error (s_ctxs s) c = Some cx -> cx_status cx = SRun t ->
  nth_error (s_ctxs s) (fc_ctx h) = Some tx -> cx_status tx = SSusp -> cx_ver tx = fc_ver h ->
  c <> fc_ctx h /\
  do_exit s t c h = Next (mk_s (upd (upd (s_ctxs s) c (mk_cx [] SDying (S (cx_ver cx)) (cx_alloc cx) (cx_caps cx)))
                    (fc_ctx h) (mk_cx (FExit c :: cx_frames tx) (SRun t) (cx_ver tx) (cx_alloc tx) (cx_caps tx)))
               (s_vars s) (upd (s_thr s) t (fc_ctx h)) (s_nusr s) (EvSwitch t c (mk_fc c (S (cx_ver cx))) h SwExit :: s_tr s)).
Proof.
  intros H1 H2 H3 H4 H5. destruct (sw_full s t c cx h tx [] SDying SwExit H1 H2 H3 H4 H5) as [N E]. split; auto.
  unfold do_exit. rewrite E. unfold frames_of, put_frames. cbn [s_ctxs].
  rewrite nth_upd_lt by (rewrite upd_length; eapply nth_some_lt; eauto). unfold put_ctx. cbn [s_ctxs s_vars s_thr s_nusr s_tr]. rewrite upd_upd. reflexivity.
Qed.

(* ------------------------------------------------------------------ unwinding call stacks *)

(** frames through which an unwind request can pass *)
Definition gfr (f : frame) : Prop :=
  match f with
  | FU u => forced_caught u = false /\ (forall x, uf_kind u <> KDtor x) /\ uf_kind u <> KMain
  | _ => True
  end.

Definition idle_dtor (f : uframe) : Prop :=
  (exists x, uf_kind f = KDtor x) /\ uf_objs f = [] /\ uf_caught f = None /\ (uf_mode f = MRun \/ exists r, uf_mode f = MRet r).

Section Chain.
  (* c0: the context whose destructor call became suspension me0 (frames below it: fs0); d0: the context it unwinds *)
  (* P: the contexts that may be unwound on the way *)
  Variables (b : bool) (P : nat -> Prop) (c0 : nat) (fs0 : list frame) (me0 : fctx) (d0 : nat).
  Hypothesis P0 : b = true -> P d0.

  Inductive un (m : fctx) : list frame -> Prop :=
  | un_exc f rest : (uf_mode f = MLand (EForced m) \/ uf_mode f = MUnw (EForced m)) -> (b = true -> Forall gfr (FU f :: rest)) -> un m (FU f :: rest)
  | un_left : un m [FEntry3 (Some m)]
  | un_dtor f rest : idle_dtor f -> un m rest -> un m (FU f :: rest)
  | un_exit d rest : (b = true -> P d) -> un m rest -> un m (FExit d :: FDtor :: rest).
  Inductive basef : list frame -> Prop :=
  | bf_exit0 : basef (FExit d0 :: FDtor :: fs0)
  | bf_dtor f rest : idle_dtor f -> basef rest -> basef (FU f :: rest)
  | bf_exit d rest : (b = true -> P d) -> basef rest -> basef (FExit d :: FDtor :: rest).

  Definition susp_at (s : state) (m : fctx) (fs : list frame) : Prop :=
    exists tx, nth_error (s_ctxs s) (fc_ctx m) = Some tx /\ cx_status tx = SSusp /\ cx_ver tx = fc_ver m /\ cx_frames tx = fs.

  Inductive lk (s : state) : nat -> list frame -> Prop :=
  | lk_base fs : basef fs -> lk s c0 fs
  | lk_stop fs : un me0 fs -> fc_ctx me0 = c0 -> susp_at s me0 (FDtor :: fs0) -> lk s d0 fs
  | lk_next x fs m fs' : (b = true -> P x) -> un m fs -> susp_at s m (FDtor :: fs') -> lk s (fc_ctx m) fs' -> lk s x fs.

  Definition G1 (s : state) : Prop := b = true -> forall d tx f r, P d -> nth_error (s_ctxs s) d = Some tx -> cx_status tx = SSusp ->
    cx_frames tx = f :: r -> resumable_frame f = true -> Forall gfr (f :: r).
  Definition G2 (s : state) : Prop := b = true -> forall d tx v bv h, P d -> nth_error (s_ctxs s) d = Some tx -> In (OFib v) (objs tx) ->
    nth_error (s_vars s) v = Some (VLive bv (Some h)) -> P (fc_ctx h).
  Definition G (s : state) : Prop := G1 s /\ G2 s.
  (* objects only disappear *)
  Definition vdie (s s' : state) : Prop := forall v bv h, nth_error (s_vars s') v = Some (VLive bv (Some h)) -> nth_error (s_vars s) v = Some (VLive bv (Some h)).
  Definition shr (s s' : state) : Prop := vdie s s' /\
    forall d tx', nth_error (s_ctxs s') d = Some tx' -> exists tx, nth_error (s_ctxs s) d = Some tx /\ incl (objs tx') (objs tx).
  Lemma G2_shr s s' : shr s s' -> G2 s -> G2 s'.
  Proof. intros [H1 H2] H Hb d tx' v bv h Hd Hn Hi Hv. destruct (H2 _ _ Hn) as [tx [Hn' I]]. eapply H; eauto. Qed.
  Lemma vdie_refl s s' : s_vars s' = s_vars s -> vdie s s'.
  Proof. intros E v bv h. rewrite E. auto. Qed.
  Lemma vdie_kill s v x : match x with VLive _ (Some _) => False | _ => True end -> forall s', s_vars s' = upd (s_vars s) v x -> vdie s s'.
  Proof. intros Hx s' E w bv h. rewrite E. intros H. apply nth_upd_inv in H. destruct H as [[-> [<- _]]|[_ H]]; [contradiction|auto]. Qed.
  Lemma shr_refl s : shr s s.
  Proof. split; [intros v bv h; auto|]. intros d tx H. exists tx. split; auto. apply incl_refl. Qed.

  Lemma lk_ext s s' x fs : (forall m fs', susp_at s m (FDtor :: fs') -> susp_at s' m (FDtor :: fs')) -> lk s x fs -> lk s' x fs.
  Proof. intros H L. induction L; [apply lk_base; auto|apply lk_stop; auto|eapply lk_next; eauto]. Qed.

  (** wrapping: what may be put on top of an unwinding stack *)
  Lemma lk_dtor s x f rest : idle_dtor f -> lk s x rest -> lk s x (FU f :: rest).
  Proof. intros H L. inversion L; subst; [apply lk_base, bf_dtor; auto|apply lk_stop; auto; apply un_dtor; auto|eapply lk_next; eauto; apply un_dtor; auto]. Qed.
  Lemma lk_exit s x d rest : (b = true -> P d) -> lk s x rest -> lk s x (FExit d :: FDtor :: rest).
  Proof. intros Hd L. inversion L; subst; [apply lk_base, bf_exit; auto|apply lk_stop; auto; apply un_exit; auto|eapply lk_next; eauto; apply un_exit; auto]. Qed.

  (* ---------------------------------------------------------------- one owner per suspension *)

  Definition hold (m : fctx) (cx : ctx) : nat := wcx CD m cx + wcx CX m cx.
  Lemma sumf_plus {A} (f g : A -> nat) l : sumf (fun x => f x + g x) l = sumf f l + sumf g l.
  Proof. induction l; cbn; lia. Qed.
  Lemma un_holds m fs : un m fs -> 1 <= wfs_ CD m fs + wfs_ CX m fs.
  Proof.
    induction 1 as [f rest Hm _| |f rest _ _ IH|d rest _ _ IH]; unfold wfs_ in *; cbn [sumf wfr].
    - destruct Hm as [->| ->]; cbn; rewrite w1_self; lia.
    - cbn. rewrite w1_self. lia.
    - lia.
    - cbn. lia.
  Qed.
  Lemma one_holder s m x y cx cy : SInv s -> nth_error (s_ctxs s) x = Some cx -> nth_error (s_ctxs s) y = Some cy ->
    1 <= hold m cx -> 1 <= hold m cy -> x = y.
  Proof.
    intros I Hx Hy H1 H2. destruct (Nat.eq_dec x y) as [|N]; auto. exfalso.
    pose proof (sumf_le2 (hold m) _ _ _ _ _ N Hx Hy) as L. unfold hold in L at 3. rewrite sumf_plus in L.
    pose proof (i_cnt _ _ _ _ _ I m) as C. pose proof (susp_le1 m s). unfold cnt in C. lia.
  Qed.
  Lemma un_hold_top m cx fs : cx_frames cx = fs \/ cx_frames cx = FDtor :: fs -> un m fs -> 1 <= hold m cx.
  Proof.
    intros E U. apply un_holds in U. unfold hold, wcx, wfs_ in *. destruct E as [->| ->]; cbn [sumf wfr]; lia.
  Qed.

  (* ---------------------------------------------------------------- steps *)

  Variable t : nat.

  (** the running context of t is part of the chain *)
  Definition ok (s : state) : Prop := G s /\ exists x cx, nth_error (s_thr s) t = Some x /\ nth_error (s_ctxs s) x = Some cx /\
    cx_status cx = SRun t /\ lk s x (cx_frames cx).
  (** the destructor has continued *)
  Definition finished (s : state) : Prop :=
    (exists a old, s_tr s = EvDestroyed c0 :: EvFree d0 a c0 :: old) /\ nth_error (s_thr s) t = Some c0 /\ frames_of s c0 = fs0.

  Lemma susp_unch s s' m fs : unch s s' -> susp_at s m fs -> susp_at s' m fs.
  Proof. intros U [tx [H1 [H2 [H3 H4]]]]. exists tx. split; auto. Qed.

  (** s1 is s, except that a finished context may have lost objects *)
  Definition side (s s1 : state) (x : nat) : Prop :=
    s_ctxs s1 = s_ctxs s \/ exists d dx dx', d <> x /\ nth_error (s_ctxs s) d = Some dx /\ cx_status dx <> SSusp /\ cx_status dx' <> SSusp /\
      incl (objs dx') (objs dx) /\ s_ctxs s1 = upd (s_ctxs s) d dx'.
  Lemma side_nth s s1 x : side s s1 x -> nth_error (s_ctxs s1) x = nth_error (s_ctxs s) x.
  Proof. intros [->|[d [dx [dx' [N [Hd [_ [_ [_ ->]]]]]]]]]; auto. rewrite nth_upd_ne; auto. Qed.
  Lemma side_unch s s1 x : side s s1 x -> unch s s1.
  Proof. intros [E2|[d [dx [dx' [N [Hd [Hs [_ [_ E2]]]]]]]]]; [apply unch_ctxs; auto|eapply unch_upd; eauto]. Qed.
  Lemma side_susp s s1 x d tx : side s s1 x -> nth_error (s_ctxs s1) d = Some tx -> cx_status tx = SSusp -> nth_error (s_ctxs s) d = Some tx.
  Proof.
    intros [->|[d' [dx [dx' [N [Hd [_ [Hs [_ ->]]]]]]]]] H1 H2; auto. apply nth_upd_inv in H1. destruct H1 as [[-> [-> _]]|[_ H1]]; [congruence|auto].
  Qed.
  Lemma side_objs s s1 x d tx' : side s s1 x -> nth_error (s_ctxs s1) d = Some tx' -> exists tx, nth_error (s_ctxs s) d = Some tx /\ incl (objs tx') (objs tx).
  Proof.
    intros [->|[d' [dx [dx' [N [Hd [_ [Hs [Hi ->]]]]]]]]] H1; [exists tx'; split; auto; apply incl_refl|].
    apply nth_upd_inv in H1. destruct H1 as [[-> [-> _]]|[_ H1]]; [eauto|exists tx'; split; auto; apply incl_refl].
  Qed.

  (** steps that change only the frames of the running context x (and possibly a finished context) *)
  Lemma ok_local s s1 x cx fs' : SInv s -> G s -> nth_error (s_thr s) t = Some x -> nth_error (s_ctxs s) x = Some cx -> cx_status cx = SRun t ->
    s_thr s1 = s_thr s -> vdie s s1 -> incl (flat_map fobjs fs') (flat_map fobjs (cx_frames cx)) ->
    side s s1 x ->
    lk s x fs' -> ok (put_frames s1 x fs').
  Proof.
    intros I HG Ht Hx Hr E1 Hd Ho E2 L.
    assert (Hx1 : nth_error (s_ctxs s1) x = Some cx) by (rewrite (side_nth _ _ _ E2); auto).
    pose proof (side_unch _ _ _ E2) as U1.
    assert (U : unch s (put_frames s1 x fs')).
    { eapply unch_trans; [exact U1|]. eapply unch_put; eauto. congruence. }
    split; [split|].
    - intros Hb d tx f r HP H1 H2 H3 H4. rewrite (put_frames_ctxs _ _ _ _ Hx1) in H1.
      apply nth_upd_inv in H1. destruct H1 as [[-> [-> _]]|[N H1]]; [cbn in H2; congruence|].
      refine (proj1 HG Hb _ _ _ _ HP _ H2 H3 H4). eapply side_susp; eauto.
    - apply (G2_shr s); [|apply HG]. split.
      + intros v bv h. rewrite put_frames_vars. apply Hd.
      + intros d tx' H1. rewrite (put_frames_ctxs _ _ _ _ Hx1) in H1. apply nth_upd_inv in H1. destruct H1 as [[-> [-> _]]|[N H1]].
        * exists cx. split; auto. unfold objs. cbn [set_frames cx_frames cx_caps]. intros o Hi. apply in_app_or in Hi. apply in_or_app. destruct Hi; auto.
        * eapply side_objs; eauto.
    - exists x, (set_frames cx fs'). rewrite put_frames_thr, E1. split; auto. split; [apply put_frames_nth; auto|]. split; auto.
      cbn. eapply lk_ext; [|exact L]. intros m fs2 H. eapply susp_unch; eauto.
  Qed.

  Lemma side_G2 s s1 x : side s s1 x -> vdie s s1 -> G2 s -> G2 s1.
  Proof. intros H1 H2. apply G2_shr. split; auto. intros d tx' H. eapply side_objs; eauto. Qed.

  (** the unwind request arrives in a context of P *)
  Lemma hit_gfr me fs fs' d ev : hit me fs fs' d ev -> (b = true -> Forall gfr fs) -> un me fs'.
  Proof.
    intros Hh Gt. destruct Hh as [[w [f [rest [-> [-> _]]]]]|[_ [-> _]]]; [|apply un_left].
    apply un_exc; [left; reflexivity|]. intros Hb. specialize (Gt Hb). inversion Gt as [|? ? _ G3]; subst.
    inversion G3 as [|? ? G4 G5]; subst. constructor; auto.
  Qed.
  (** a destructor call on the running context x *)
  Lemma unwind_form s s1 x cx fs' v bv h : SInv s -> G1 s -> G2 s1 -> nth_error (s_thr s) t = Some x -> nth_error (s_ctxs s) x = Some cx -> cx_status cx = SRun t ->
    s_thr s1 = s_thr s -> nth_error (s_vars s) v = Some (VLive bv (Some h)) ->
    incl (flat_map fobjs fs') (flat_map fobjs (cx_frames cx)) -> (b = true -> P (fc_ctx h)) ->
    side s s1 x ->
    exists s' ev, let me := mk_fc x (S (cx_ver cx)) in do_unwind s1 t x (FDtor :: fs') h = Next s' /\ G s' /\
      s_tr s' = ev :: EvSwitch t x me h SwUnwind :: s_tr s1 /\ (ev = EvRaised (fc_ctx h) (EForced me) \/ ev = EvDone (fc_ctx h) (Some me)) /\
      (exists tx', nth_error (s_thr s') t = Some (fc_ctx h) /\ nth_error (s_ctxs s') (fc_ctx h) = Some tx' /\ cx_status tx' = SRun t /\ un me (cx_frames tx')) /\
      susp_at s' me (FDtor :: fs') /\
      (forall d tx', nth_error (s_ctxs s) d = Some tx' -> cx_status tx' = SSusp -> d <> fc_ctx h -> nth_error (s_ctxs s') d = Some tx') /\
      (exists tx f1 r1, nth_error (s_ctxs s) (fc_ctx h) = Some tx /\ cx_status tx = SSusp /\ cx_frames tx = f1 :: r1 /\ resumable_frame f1 = true) /\
      s_vars s' = s_vars s1.
  Proof.
    intros I HG HG2 Ht Hx Hr E1 Hv Ho Hh E2.
    assert (Hx1 : nth_error (s_ctxs s1) x = Some cx) by (rewrite (side_nth _ _ _ E2); auto).
    pose proof (side_unch _ _ _ E2) as U1.
    pose proof Hv as Dn. apply var_cnt in Dn. apply inv_denotes in Dn; auto. destruct Dn as [tx [f1 [r1 [T1 [T2 [T3 [T4 [T5 T6]]]]]]]].
    assert (T5' : resumable_frame f1 = true) by (destruct f1; try discriminate; reflexivity).
    assert (T1' : nth_error (s_ctxs s1) (fc_ctx h) = Some tx) by (apply U1; auto).
    destruct (do_unwind_eq s1 t x cx (FDtor :: fs') h tx f1 r1 Hx1 Hr T1' T2 T3 T4 T5' T6) as [fs2 [ev [Hhit [N E]]]].
    exists (mk_s (upd (upd (s_ctxs s1) x (mk_cx (FDtor :: fs') SSusp (S (cx_ver cx)) (cx_alloc cx) (cx_caps cx)))
                    (fc_ctx h) (mk_cx fs2 (SRun t) (cx_ver tx) (cx_alloc tx) (cx_caps tx)))
               (s_vars s1) (upd (s_thr s1) t (fc_ctx h)) (s_nusr s1) (ev :: EvSwitch t x (mk_fc x (S (cx_ver cx))) h SwUnwind :: s_tr s1)), ev.
    cbn zeta. split; [exact E|]. set (me := mk_fc x (S (cx_ver cx))) in *. cbn [s_tr s_vars].
    assert (Gt : b = true -> Forall gfr (f1 :: r1)) by (intros Hb; exact (HG Hb _ _ _ _ (Hh Hb) T1 T2 T4 T5')).
    assert (Keep : forall d tx', nth_error (s_ctxs s) d = Some tx' -> cx_status tx' = SSusp -> d <> fc_ctx h ->
       nth_error (upd (upd (s_ctxs s1) x (mk_cx (FDtor :: fs') SSusp (S (cx_ver cx)) (cx_alloc cx) (cx_caps cx))) (fc_ctx h) (mk_cx fs2 (SRun t) (cx_ver tx) (cx_alloc tx) (cx_caps tx))) d = Some tx').
    { intros d tx' Hd' Hs Nd. assert (d <> x) by (intros ->; congruence). rewrite !nth_upd_ne by auto. apply U1; auto. }
    split; [|split; [reflexivity|split; [|split; [|split; [|split; [exact Keep|split; [|reflexivity]]]]]]].
    - split.
      + intros Hb d tx' f r HP H1 H2 H3 H4. cbn [s_ctxs] in H1. apply nth_upd_inv in H1. destruct H1 as [[-> [-> _]]|[_ H1]]; [discriminate|].
        apply nth_upd_inv in H1. destruct H1 as [[-> [-> _]]|[_ H1]]; [cbn in H3; injection H3 as <- _; discriminate|].
        refine (HG Hb _ _ _ _ HP _ H2 H3 H4). eapply side_susp; eauto.
      + apply (G2_shr s1); [|apply HG2]. split; [apply vdie_refl; reflexivity|].
        intros d tx' H1. cbn [s_ctxs] in H1. apply nth_upd_inv in H1. destruct H1 as [[-> [-> _]]|[_ H1]].
        * exists tx. split; [exact T1'|]. unfold objs. cbn [cx_frames cx_caps]. rewrite T4. intros o Hi. apply in_app_or in Hi. apply in_or_app. destruct Hi as [Hi|Hi]; auto. left.
          destruct Hhit as [[w [f [rest [Ef [-> _]]]]]|[Ef [-> _]]]; rewrite Ef; cbn [flat_map]; apply in_or_app; right; cbn in *; auto.
        * apply nth_upd_inv in H1. destruct H1 as [[-> [-> _]]|[_ H1]]; [|exists tx'; split; auto; apply incl_refl].
          exists cx. split; auto. unfold objs. cbn [cx_frames cx_caps flat_map fobjs app]. intros o Hi. apply in_app_or in Hi. apply in_or_app. destruct Hi; auto.
    - destruct Hhit as [[w [f [rest [Ef [_ ->]]]]]|[_ [_ ->]]]; auto.
    - exists (mk_cx fs2 (SRun t) (cx_ver tx) (cx_alloc tx) (cx_caps tx)). cbn [s_thr s_ctxs].
      rewrite E1. split; [apply nth_upd_lt; eapply nth_some_lt; eauto|]. split; [apply nth_upd_lt; rewrite upd_length; eapply nth_some_lt; eauto|].
      split; [reflexivity|]. cbn [cx_frames]. eapply hit_gfr; eauto.
    - exists (mk_cx (FDtor :: fs') SSusp (S (cx_ver cx)) (cx_alloc cx) (cx_caps cx)). cbn [s_ctxs me fc_ctx]. rewrite nth_upd_ne by auto.
      rewrite nth_upd_lt by (eapply nth_some_lt; eauto). repeat split; reflexivity.
    - exists tx, f1, r1. auto.
  Qed.
  Lemma ok_unwind s s1 x cx fs' v bv h : SInv s -> G s -> nth_error (s_thr s) t = Some x -> nth_error (s_ctxs s) x = Some cx -> cx_status cx = SRun t ->
    s_thr s1 = s_thr s -> nth_error (s_vars s) v = Some (VLive bv (Some h)) -> vdie s s1 ->
    incl (flat_map fobjs fs') (flat_map fobjs (cx_frames cx)) -> (b = true -> P (fc_ctx h)) ->
    side s s1 x ->
    lk s x fs' -> exists s', do_unwind s1 t x (FDtor :: fs') h = Next s' /\ ok s'.
  Proof.
    intros I HG Ht Hx Hr E1 Hv Hd Ho Hh E2 L.
    destruct (unwind_form s s1 x cx fs' v bv h I (proj1 HG) (side_G2 _ _ _ E2 Hd (proj2 HG)) Ht Hx Hr E1 Hv Ho Hh E2) as [s' [ev [E [HG' [_ [_ [[tx' [Q1 [Q2 [Q3 Q4]]]] [Sm [Keep [[tx [f1 [r1 [T1 [T2 [T4 T5]]]]]] _]]]]]]]]]].
    exists s'. split; [exact E|]. split; [exact HG'|]. exists (fc_ctx h), tx'. split; auto. split; auto. split; auto.
    eapply lk_next; [exact Hh|exact Q4|exact Sm|]. cbn [fc_ctx]. eapply lk_ext; [|exact L]. intros m fs3 [ty [Z1 [Z2 [Z3 Z4]]]]. exists ty. split; auto.
    apply Keep; auto. intros Eq. rewrite Eq in Z1. assert (ty = tx) by congruence. subst. rewrite T4 in Z4. injection Z4 as -> _. discriminate.
  Qed.

  (** destroying an object on the running context *)
  Lemma ok_destroy s s1 x cx fs' p o : SInv s -> G s -> nth_error (s_thr s) t = Some x -> nth_error (s_ctxs s) x = Some cx -> cx_status cx = SRun t ->
    s_thr s1 = s_thr s -> s_vars s1 = s_vars s -> incl (flat_map fobjs fs') (flat_map fobjs (cx_frames cx)) ->
    (forall v bv h, o = OFib v -> nth_error (s_vars s) v = Some (VLive bv (Some h)) -> b = true -> P (fc_ctx h)) ->
    side s s1 x ->
    lk s x fs' -> destroy s1 t x fs' p o <> UB -> exists s', destroy s1 t x fs' p o = Next s' /\ ok s'.
  Proof.
    intros I HG Ht Hx Hr E1 E3 Ho HP E2 L Hub. unfold destroy in *.
    assert (E2' : forall e v, side s (put_var (emit s1 e) v VDead) x) by (intros; exact E2). destruct o as [v|u].
    - rewrite E3 in *. destruct (nth_error (s_vars s) v) as [[|bv [h|]]|] eqn:Hv; try congruence.
      + eapply (ok_unwind s); eauto. eapply vdie_kill; [|cbn; rewrite E3; reflexivity]. exact Logic.I.
      + eexists. split; [reflexivity|]. eapply (ok_local s); eauto. eapply vdie_kill; [|cbn; rewrite E3; reflexivity]. exact Logic.I.
    - eexists. split; [reflexivity|]. eapply (ok_local s); eauto; [apply vdie_refl; cbn; auto|]. apply lk_dtor; auto. repeat split; cbn; eauto.
  Qed.

  Lemma good_nub o : good o -> o <> UB.
  Proof. intros H ->. exact H. Qed.

  Ltac inc Hf := rewrite Hf; let o := fresh in let Hi := fresh in intros o Hi; cbn in *; rewrite ?in_app_iff in *; tauto.

  (** an object of the frame on top is destroyed *)
  Lemma ok_exc s x cx m f rest : SInv s -> G s -> nth_error (s_thr s) t = Some x -> nth_error (s_ctxs s) x = Some cx -> cx_status cx = SRun t ->
    cx_frames cx = FU f :: rest -> (uf_mode f = MLand (EForced m) \/ uf_mode f = MUnw (EForced m)) -> (b = true -> Forall gfr (FU f :: rest)) ->
    (forall fs, un m fs -> lk s x fs) -> (b = true -> P x) ->
    exists l, cleanup s t = Some l /\
    match step s t l with Next s' => ok s' | Terminate | Violation => b = false | _ => False end.
  Proof.
    intros I HG Ht Hx Hr Hf Hm Hg HL HPx. pose proof (step_good s t) as SG.
    assert (FO : frames_of s x = FU f :: rest) by (unfold frames_of; rewrite Hx; auto).
    assert (Hw : wfs (is_main cx) (cx_frames cx)). { pose proof (i_shape _ _ _ _ _ I _ _ Hx) as S. unfold shape in S. rewrite Hr in S. apply S. }
    unfold cleanup. rewrite Ht, FO. destruct Hm as [Hm|Hm]; rewrite Hm.
    - (* an exception has arrived *) eexists. split; [reflexivity|]. unfold step. rewrite Ht, Hx, Hf. unfold user_step. rewrite Hm.
      destruct (forced_caught f) eqn:Hfc.
      + destruct b; auto. specialize (Hg eq_refl). inversion Hg as [|? ? G1 _]; subst. destruct G1. congruence.
      + eapply (ok_local s _ x cx); [exact I|exact HG|exact Ht|exact Hx|exact Hr|reflexivity|apply vdie_refl; reflexivity|inc Hf|left; reflexivity|]. apply HL. apply un_exc; [right; reflexivity|].
        intros Hb. specialize (Hg Hb). inversion Hg as [|? ? G1 G2]; subst. constructor; auto. cbn in *. unfold forced_caught. cbn. tauto.
    - (* unwinding *) eexists. split; [reflexivity|]. specialize (SG LTau I). unfold step in *. rewrite Ht, Hx in *. rewrite Hf in *. unfold tau_step in *. rewrite Hm in *.
      destruct (uf_objs f) as [|o l] eqn:Ho.
      + unfold leave_exn in *.
        destruct (uf_kind f) eqn:Hk.
        * destruct b; auto. specialize (Hg eq_refl). inversion Hg as [|? ? G1 _]; subst. destruct G1 as [_ [_ G1]]. congruence.
        * destruct rest as [|[] rest]; try contradiction. cbn [raise]. eapply (ok_local s _ x cx); [exact I|exact HG|exact Ht|exact Hx|exact Hr|reflexivity|apply vdie_refl; reflexivity|inc Hf|left; reflexivity|]. apply wfs_tail in Hw.
          assert (rest = []) by (destruct rest; [reflexivity|rewrite wfs_cons in Hw; destruct Hw as [[] _]]). subst rest. apply HL. apply un_left.
        * destruct rest as [|[] rest]; try contradiction. pose proof (wfs_tail _ _ _ _ Hw) as Hw1.
          destruct rest as [|w rest]; [destruct Hw1|]. rewrite wfs_cons in Hw1. destruct Hw1 as [Hb Hw2]. cbn in Hb.
          destruct w; try discriminate Hb.
          1-2: destruct rest as [|gg rest]; [destruct Hw2|]; rewrite wfs_cons in Hw2; destruct Hw2 as [Hb2 _]; destruct gg; try contradiction;
            cbn [raise]; (eapply ok_local; [exact I|exact HG|exact Ht|exact Hx|exact Hr|reflexivity|apply vdie_refl; reflexivity|inc Hf|left; reflexivity|]); apply HL; (apply un_exc; [left; reflexivity|]);
            intros Hb'; specialize (Hg Hb'); inversion Hg as [|? ? _ G1]; subst; inversion G1 as [|? ? _ G2]; subst; inversion G2 as [|? ? _ G3]; subst;
            inversion G3 as [|? ? G4 G5]; subst; constructor; auto.
          apply wfs_entry1 in Hw2. subst rest. cbn [raise]. eapply ok_local; [exact I|exact HG|exact Ht|exact Hx|exact Hr|reflexivity|apply vdie_refl; reflexivity|inc Hf|left; reflexivity|]. apply HL. apply un_left.
        * destruct rest as [|g0 rest]; [destruct Hw as [_ [_ X]]; congruence|]. rewrite wfs_cons in Hw. destruct Hw as [[_ Hb] _]. rewrite Hk in Hb. destruct g0; try contradiction.
          eapply (ok_local s _ x cx); [exact I|exact HG|exact Ht|exact Hx|exact Hr|reflexivity|apply vdie_refl; reflexivity|inc Hf|left; reflexivity|]. apply HL. apply un_exc; [left; reflexivity|].
          intros Hb'. specialize (Hg Hb'). inversion Hg as [|? ? _ G1]; subst. inversion G1 as [|? ? G2 G3]; subst. constructor; auto.
        * destruct b; auto. specialize (Hg eq_refl). inversion Hg as [|? ? G1 _]; subst. destruct G1 as [_ [G1 _]]. exfalso. eapply G1; eauto.
      + destruct (ok_destroy s s x cx (FU (set_objs f l) :: rest) (OnCtx x) o) as [s' [E O]]; auto.
        * rewrite Hf. cbn [flat_map fobjs set_objs uf_objs]. rewrite Ho. intros o' Hi. cbn. right. exact Hi.
        * intros v bv h -> Hv Hb. refine (proj2 HG Hb x cx v bv h (HPx Hb) Hx _ Hv). unfold objs. rewrite Hf. cbn [flat_map fobjs]. rewrite Ho. cbn. auto.
        * left. reflexivity.
        * apply HL. apply un_exc; [right; exact Hm|]. intros Hb. specialize (Hg Hb). inversion Hg; subst. constructor; auto.
        * intros E. rewrite E in SG. exact SG.
        * rewrite E. exact O.
  Qed.

  (** a destructor of a user object returns *)
  Lemma ok_idle s x cx f rest : SInv s -> G s -> nth_error (s_thr s) t = Some x -> nth_error (s_ctxs s) x = Some cx -> cx_status cx = SRun t ->
    cx_frames cx = FU f :: rest -> idle_dtor f -> lk s x rest ->
    exists l s', cleanup s t = Some l /\ step s t l = Next s' /\ ok s'.
  Proof.
    intros I HG Ht Hx Hr Hf [[u Hk] [Ho [Hc Hm]]] L.
    assert (FO : frames_of s x = FU f :: rest) by (unfold frames_of; rewrite Hx; auto).
    unfold cleanup. rewrite Ht, FO. destruct Hm as [Hm|[r Hm]]; rewrite Hm.
    - rewrite Hk. eexists _, _. split; [reflexivity|]. unfold step. rewrite Ht, Hx, Hf. unfold user_step. rewrite Hm, Hk. unfold forced_caught. rewrite Hc.
      split; [reflexivity|]. eapply (ok_local s _ x cx); [exact I|exact HG|exact Ht|exact Hx|exact Hr|reflexivity|apply vdie_refl; reflexivity|inc Hf|left; reflexivity|]. apply lk_dtor; auto. repeat split; cbn; eauto.
    - eexists _, _. split; [reflexivity|]. unfold step. rewrite Ht, Hx, Hf. unfold tau_step. rewrite Hm, Ho. unfold leave_ret. rewrite Hk.
      split; [reflexivity|]. eapply (ok_local s _ x cx); [exact I|exact HG|exact Ht|exact Hx|exact Hr|reflexivity|apply vdie_refl; reflexivity|inc Hf|left; reflexivity|]. exact L.
  Qed.

  (** fiber_exit for a context that was unwound *)
  Lemma ok_fexit s x cx d rest : SInv s -> G s -> nth_error (s_thr s) t = Some x -> nth_error (s_ctxs s) x = Some cx -> cx_status cx = SRun t ->
    cx_frames cx = FExit d :: FDtor :: rest -> lk s x (FExit d :: FDtor :: rest) -> (b = true -> P d) -> (lk s x rest \/ x = c0 /\ rest = fs0 /\ d = d0) ->
    exists l s', cleanup s t = Some l /\ step s t l = Next s' /\ (ok s' \/ finished s').
  Proof.
    intros I HG Ht Hx Hr Hf L HPd Lr. pose proof (step_good s t LTau I) as SG.
    assert (FO : frames_of s x = FExit d :: FDtor :: rest) by (unfold frames_of; rewrite Hx; auto).
    unfold cleanup. rewrite Ht, FO. unfold step in *. rewrite Ht, Hx in *. rewrite Hf in *. unfold tau_step in *. unfold exit_step in *.
    destruct (nth_error (s_ctxs s) d) as [dx|] eqn:Hd; [|destruct SG]. destruct (cx_status dx) eqn:Hds; try (destruct SG; fail).
    assert (N : d <> x) by (intros ->; congruence).
    destruct (cx_caps dx) as [|o l] eqn:Hcaps.
    - destruct (cx_alloc dx) as [a|]; [|destruct SG]. cbn [deliver]. eexists _, _. split; [reflexivity|]. split; [reflexivity|].
      destruct Lr as [Lr|[-> [-> ->]]].
      + left. eapply (ok_local s); [exact I|exact HG|exact Ht|exact Hx|exact Hr|reflexivity|apply vdie_refl; reflexivity|inc Hf| |exact Lr].
        right. exists d, dx. eexists. cbn [emit put_ctx s_ctxs]. split; [exact N|]. split; [exact Hd|]. split; [congruence|].
        split; [|split; [|reflexivity]]; [discriminate|]. intros o [].
      + right. split; [rewrite put_frames_tr; eexists _, _; reflexivity|]. split; [rewrite put_frames_thr; exact Ht|].
        unfold frames_of. erewrite put_frames_nth; [reflexivity|]. cbn. rewrite nth_upd_ne; eauto.
    - destruct (ok_destroy s (put_ctx s d (set_caps dx l)) x cx (FExit d :: FDtor :: rest) (OnCtx d) o) as [s' [E O]]; auto.
      + inc Hf.
      + intros v bv h -> Hv Hb. refine (proj2 HG Hb d dx v bv h (HPd Hb) Hd _ Hv). unfold objs. apply in_or_app. right. rewrite Hcaps. left. reflexivity.
      + right. exists d, dx. eexists. cbn [put_ctx s_ctxs]. split; [exact N|]. split; [exact Hd|]. split; [congruence|].
        split; [|split; [|reflexivity]]; [cbn; congruence|]. unfold objs. cbn [set_caps cx_frames cx_caps]. rewrite Hcaps. intros o' Hi. rewrite in_app_iff in *. cbn. tauto.
      + intros E. rewrite E in SG. exact SG.
      + exists LTau, s'. auto.
  Qed.

  (** the unwound context is left *)
  Lemma ok_left s x cx m fs' : SInv s -> G s -> nth_error (s_thr s) t = Some x -> nth_error (s_ctxs s) x = Some cx -> cx_status cx = SRun t ->
    cx_frames cx = [FEntry3 (Some m)] -> susp_at s m (FDtor :: fs') -> (lk s (fc_ctx m) fs' \/ fc_ctx m = c0 /\ fs' = fs0 /\ x = d0) -> (b = true -> P x) ->
    exists l s', cleanup s t = Some l /\ step s t l = Next s' /\ ok s'.
  Proof.
    intros I HG Ht Hx Hr Hf [tx [T1 [T2 [T3 T4]]]] L HPx.
    assert (FO : frames_of s x = [FEntry3 (Some m)]) by (unfold frames_of; rewrite Hx; auto).
    unfold cleanup. rewrite Ht, FO. unfold step. rewrite Ht, Hx, Hf. unfold tau_step.
    destruct (do_exit_eq s t x cx m tx Hx Hr T1 T2 T3) as [N E]. eexists _, _. split; [reflexivity|]. split; [exact E|].
    assert (Hold : 1 <= hold m cx) by (eapply un_hold_top; [left; exact Hf|apply un_left]).
    match goal with |- ok ?z => set (s' := z) end.
    assert (Keep : forall d tx', nth_error (s_ctxs s) d = Some tx' -> cx_status tx' = SSusp -> d <> fc_ctx m -> nth_error (s_ctxs s') d = Some tx').
    { intros d tx' Hd Hs Nd. assert (d <> x) by (intros ->; congruence). unfold s'. cbn [s_ctxs]. rewrite !nth_upd_ne by auto. auto. }
    (* the rest of the chain does not go through m *)
    assert (Rest : forall y fsy, lk s y fsy -> (exists cy, nth_error (s_ctxs s) y = Some cy /\ cx_status cy = SSusp /\ cx_frames cy = FDtor :: fsy) -> lk s' y fsy).
    { assert (K : forall y fsy m', un m' fsy -> (exists cy, nth_error (s_ctxs s) y = Some cy /\ cx_status cy = SSusp /\ cx_frames cy = FDtor :: fsy) ->
         forall fs2, susp_at s m' (FDtor :: fs2) -> susp_at s' m' (FDtor :: fs2)).
      { intros y fsy m' U [cy [Y1 [Y2 Y3]]] fs2 [ty [Z1 [Z2 [Z3 Z4]]]]. exists ty. split; auto. apply Keep; auto.
        intros Eq. assert (m' = m). { assert (ty = tx) by congruence. subst. destruct m, m'; cbn in *. congruence. } subst m'.
        assert (x = y); [|subst; congruence]. eapply (one_holder s m); eauto. eapply un_hold_top; [right; exact Y3|exact U]. }
      intros y fsy Ly. induction Ly as [fs Hb|fsy U E0 S0|y fsy m' fs2 Hpy U S2 Ly IH]; intros Hy.
      - apply lk_base; auto.
      - apply lk_stop; auto. eapply K; eauto.
      - eapply lk_next; eauto. apply IH. destruct S2 as [ty [Z1 [Z2 [Z3 Z4]]]]. exists ty. auto. }
    split.
    - split.
      + intros Hb d tx' f r HP H1 H2 H3 H4. unfold s' in H1. cbn [s_ctxs] in H1. apply nth_upd_inv in H1. destruct H1 as [[-> [-> _]]|[_ H1]]; [discriminate|].
        apply nth_upd_inv in H1. destruct H1 as [[-> [-> _]]|[_ H1]]; [discriminate|]. exact (proj1 HG Hb _ _ _ _ HP H1 H2 H3 H4).
      + apply (G2_shr s); [|apply HG]. split; [apply vdie_refl; reflexivity|]. intros d tx' H1. unfold s' in H1. cbn [s_ctxs] in H1.
        apply nth_upd_inv in H1. destruct H1 as [[-> [-> _]]|[_ H1]]; [exists tx; split; auto; unfold objs; cbn; apply incl_refl|].
        apply nth_upd_inv in H1. destruct H1 as [[-> [-> _]]|[_ H1]]; [|exists tx'; split; auto; apply incl_refl].
        exists cx. split; auto. unfold objs. cbn. intros o Hi. apply in_or_app. auto.
    - exists (fc_ctx m), (mk_cx (FExit x :: cx_frames tx) (SRun t) (cx_ver tx) (cx_alloc tx) (cx_caps tx)). unfold s' at 1 2. cbn [s_thr s_ctxs].
      split; [apply nth_upd_lt; eapply nth_some_lt; eauto|]. split; [apply nth_upd_lt; rewrite upd_length; eapply nth_some_lt; eauto|].
      split; [reflexivity|]. cbn [cx_frames]. rewrite T4. destruct L as [L|[E0 [-> ->]]].
      + apply lk_exit; [exact HPx|]. apply Rest; auto. exists tx. auto.
      + rewrite E0. apply lk_base. apply bf_exit0.
  Qed.

  Lemma ok_step s : SInv s -> ok s -> exists l, cleanup s t = Some l /\
    match step s t l with Next s' => ok s' \/ finished s' | Terminate | Violation => b = false | _ => False end.
  Proof.
    intros I [HG [x [cx [Ht [Hx [Hr L]]]]]].
    assert (UN : forall m, (b = true -> P x) -> un m (cx_frames cx) -> (forall fs, un m fs -> lk s x fs) ->
       (exists fs', susp_at s m (FDtor :: fs') /\ (lk s (fc_ctx m) fs' \/ fc_ctx m = c0 /\ fs' = fs0 /\ x = d0)) ->
       exists l, cleanup s t = Some l /\ match step s t l with Next s' => ok s' \/ finished s' | Terminate | Violation => b = false | _ => False end).
    { intros m HPx U HL [fs' [S1 S2]]. remember (cx_frames cx) as fs eqn:Ef. symmetry in Ef. destruct U as [f rest Hm Hg| |f rest Hi U|d rest Hpd U].
      - destruct (ok_exc s x cx m f rest I HG Ht Hx Hr Ef Hm Hg HL HPx) as [l [E1 E2]]. exists l. split; auto. destruct (step s t l); auto.
      - destruct (ok_left s x cx m fs' I HG Ht Hx Hr Ef S1 S2 HPx) as [l [s' [E1 [E2 E3]]]]. exists l. rewrite E2. auto.
      - destruct (ok_idle s x cx f rest I HG Ht Hx Hr Ef Hi) as [l [s' [E1 [E2 E3]]]]; auto. exists l. rewrite E2. auto.
      - destruct (ok_fexit s x cx d rest I HG Ht Hx Hr Ef) as [l [s' [E1 [E2 E3]]]]; auto. exists l. rewrite E2. auto. }
    inversion L as [fs Hb E1 E2|fs U E0 S0 E1 E2|x' fs m fs' Hpx U S2 Ly E1 E2]; subst.
    - remember (cx_frames cx) as fs eqn:Ef. symmetry in Ef. destruct Hb as [|f rest Hi Hb|d rest Hpd Hb].
      + destruct (ok_fexit s c0 cx d0 fs0 I HG Ht Hx Hr Ef) as [l [s' [E1 [E2 E3]]]]; auto. exists l. rewrite E2. auto.
      + destruct (ok_idle s c0 cx f rest I HG Ht Hx Hr Ef Hi) as [l [s' [E1 [E2 E3]]]]; [apply lk_base; auto|]. exists l. rewrite E2. auto.
      + destruct (ok_fexit s c0 cx d rest I HG Ht Hx Hr Ef) as [l [s' [E1 [E2 E3]]]]; auto; [left; apply lk_base; auto|]. exists l. rewrite E2. auto.
    - apply (UN me0); auto.
      + intros fs Hu. apply lk_stop; auto.
      + exists fs0. auto.
    - apply (UN m); auto.
      + intros fs Hu. eapply lk_next; eauto.
      + exists fs'. auto.
  Qed.

  Lemma ok_settles s : SInv s -> ok s -> exists k,
    match settle k s t with Next s' => finished s' | Terminate | Violation => b = false | _ => False end.
  Proof.
    remember (weight s) as n eqn:En. revert s En. induction n as [n IH] using lt_wf_ind. intros s -> I O.
    destruct (ok_step s I O) as [l [E1 E2]]. pose proof (step_good s t l I) as SG.
    destruct (step s t l) as [s'| | | | |] eqn:Es; try contradiction.
    - destruct E2 as [O'|F].
      + pose proof (step_weight _ _ _ _ I (cleanup_winding _ _ _ E1) Es) as Hw. destruct (IH _ Hw s' eq_refl SG O') as [k Hk].
        exists (S k). cbn. rewrite E1, Es. exact Hk.
      + exists 1. cbn. rewrite E1, Es. exact F.
    - exists 1. cbn. rewrite E1, Es. exact E2.
    - exists 1. cbn. rewrite E1, Es. exact E2.
  Qed.
End Chain.
