(** Exceptions, unwind requests and entering of context-functions in the history and in the state. *)
From Coq Require Import List Arith Bool Lia.
From Verif Require Import ListUtil Fiber FiberInv FiberInv2 FiberInv3 Micro MicroInv FiberSpec TraceInv CallInv CallInv2 StackInv ObjInv.
Import ListNotations.

Definition uexn (u : uframe) : list exn :=
  match uf_mode u with MLand e | MUnw e => [e] | _ => [] end ++ match uf_caught u with Some e => [e] | None => [] end.
Definition fexn (f : frame) : list exn := match f with FU u => uexn u | _ => [] end.

(** h is the suspension of something else than a destructor *)
Definition plain_susp (tr : list event) (h : fctx) : Prop :=
  exists t c0 to k, In (EvSwitch t c0 h to k) tr /\ k <> SwUnwind.

Definition xfr (tr : list event) (c : nat) (f : frame) : Prop :=
  match f with
  | FU u => forall e, In e (uexn u) -> origin tr c e
  | FEntry2 => entered tr c
  | FEntry3 r => In (EvDone c r) tr /\ match r with Some h => unwinds tr h c \/ plain_susp tr h | None => True end
  | _ => True
  end.
Definition mk (f : frame) : Prop := (exists m, In (EForced m) (fexn f)) \/ exists r, f = FEntry3 r.
Definition marked (fs : list frame) : Prop := fs = [] \/ Exists mk fs.
Definition start (f : frame) : Prop := f = FEntry1 \/ exists h, f = FEntry0 h.

Record xok (tr : list event) (c : nat) (fs : list frame) : Prop := mk_xok {
  x_fr : Forall (xfr tr c) fs;
  x_mark : unwound tr c -> marked fs;
  x_start : Exists start fs -> ~ entered tr c;
  x_done : forall r, In (EvDone c r) tr -> Forall (eq (FEntry3 r)) fs }.

Definition touches (e : event) (c : nat) : Prop :=
  match e with
  | EvEnter c' _ | EvDone c' _ => c' = c
  | EvSwitch _ _ _ to SwUnwind => fc_ctx to = c
  | _ => False
  end.

Lemma origin_app es tr c e : origin tr c e -> origin (es ++ tr) c e.
Proof.
  destruct e; cbn; [intros; apply in_or_app; auto|]. intros [t [c0 [to [H E]]]]. exists t, c0, to. split; auto. apply in_or_app; auto.
Qed.
Lemma xfr_app es tr c f : xfr tr c f -> xfr (es ++ tr) c f.
Proof.
  destruct f; cbn; auto.
  - intros H e Hi. apply origin_app; auto.
  - intros [r H]. exists r. apply in_or_app; auto.
  - intros [Hd HH]. split; [apply in_or_app; auto|]. destruct t; auto. destruct HH as [[t [c0 [to [H E]]]]|[t [c0 [to [k [H E]]]]]].
    + left. exists t, c0, to. split; auto. apply in_or_app; auto.
    + right. exists t, c0, to, k. split; auto. apply in_or_app; auto.
Qed.
Lemma xfrs_app es tr c fs : Forall (xfr tr c) fs -> Forall (xfr (es ++ tr) c) fs.
Proof. intros H. eapply Forall_impl; [|exact H]. intros f. apply xfr_app. Qed.

Lemma xok_ext es tr c fs : (forall e, In e es -> ~ touches e c) -> xok tr c fs -> xok (es ++ tr) c fs.
Proof.
  intros Hn [X1 X2 X3 X4]. constructor.
  - apply xfrs_app; auto.
  - intros [m [t [c0 [to [H E]]]]]. apply in_app_or in H. destruct H as [H|H].
    + exfalso. apply (Hn _ H). exact E.
    + apply X2. exists m, t, c0, to. auto.
  - intros Hs [r H]. apply in_app_or in H. destruct H as [H|H].
    + apply (Hn _ H). reflexivity.
    + apply X3; auto. exists r; auto.
  - intros r H. apply in_app_or in H. destruct H as [H|H]; auto. exfalso. apply (Hn _ H). reflexivity.
Qed.

(** new frames after events that do not touch c *)
Lemma xok_new es tr c fs fs' : (forall e, In e es -> ~ touches e c) -> xok tr c fs ->
  Forall (xfr (es ++ tr) c) fs' -> (marked fs -> marked fs') -> (Exists start fs' -> Exists start fs) ->
  (forall r, Forall (eq (FEntry3 r)) fs -> Forall (eq (FEntry3 r)) fs') -> xok (es ++ tr) c fs'.
Proof.
  intros Hn X H1 H2 H3 H4. apply (xok_ext es) in X; auto. destruct X as [X1 X2 X3 X4]. constructor; auto.
Qed.

Lemma not_entry3 r u rest : ~ Forall (eq (FEntry3 r)) (FU u :: rest).
Proof. intros H. inversion H. discriminate. Qed.
Lemma not_entry3_w r w rest : waiting w = true -> ~ Forall (eq (FEntry3 r)) (w :: rest).
Proof. intros Hw H. inversion H. subst. discriminate. Qed.

Lemma leaving_unw f e : leaving f (MUnw e) -> uexn f = [e].
Proof. intros [H1 [_ H3]]. unfold uexn. now rewrite H1, H3. Qed.
Lemma leaving_ret f r : leaving f (MRet r) -> uexn f = [].
Proof. intros [H1 [_ H3]]. unfold uexn. now rewrite H1, H3. Qed.
Lemma run_uexn f : uf_mode f = MRun -> uexn f = match uf_caught f with Some e => [e] | None => [] end.
Proof. unfold uexn. intros ->. reflexivity. Qed.
Lemma land_uexn f e : uf_mode f = MRun -> uexn (set_mode f (MLand e)) = e :: uexn f.
Proof. unfold uexn. intros ->. reflexivity. Qed.

Lemma marked_cons f fs : marked (f :: fs) <-> mk f \/ Exists mk fs.
Proof.
  unfold marked. split.
  - intros [E|H]; [discriminate|]. inversion H; auto.
  - intros [H|H]; right; [apply Exists_cons_hd|apply Exists_cons_tl]; auto.
Qed.
Lemma mk_fu u : mk (FU u) <-> exists m, In (EForced m) (uexn u).
Proof. unfold mk; cbn. split; [intros [H|[r H]]; [auto|discriminate]|auto]. Qed.
Lemma mk_plain f : fexn f = [] -> (forall r, f <> FEntry3 r) -> ~ mk f.
Proof. intros H1 H2 [[m H]|[r H]]; [rewrite H1 in H; destruct H|eapply H2; eauto]. Qed.
Lemma mk_wait w : waiting w = true -> ~ mk w.
Proof. destruct w; try discriminate; intros _; apply mk_plain; try reflexivity; discriminate. Qed.
Lemma start_cons f fs : Exists start (f :: fs) <-> start f \/ Exists start fs.
Proof. split; [intros H; inversion H; auto|intros [H|H]; [apply Exists_cons_hd|apply Exists_cons_tl]; auto]. Qed.
Lemma start_fu u : ~ start (FU u).
Proof. intros [H|[h H]]; discriminate. Qed.

Lemma userwait_waiting w : userwait w = true -> waiting w = true.
Proof. destruct w; try discriminate; reflexivity. Qed.

Lemma dl_xok c r fs fs' es tr main : wfs main fs -> dl c r fs fs' es -> xok tr c fs -> ~ (fs = [FEntry1] /\ unwound tr c) -> xok (es ++ tr) c fs'.
Proof.
  intros Hw D X HE. destruct D.
  - assert (Ht : forall e, In e [EvCtor (OnCtx c) (OFib v); EvResumed c r] -> ~ touches e c) by (intros e [<-|[<-|[]]] []).
    pose proof (userwait_waiting _ Hw0) as Hww. pose proof X as [X1 X2 X3 X4].
    eapply xok_new; [exact Ht|exact X| | | |].
    + inversion X1 as [|a l1 _ Y]; subst. apply xfrs_app. inversion Y as [|a l1 Y1 Y2]; subst. constructor; auto.
    + rewrite !marked_cons, !Exists_cons, !mk_fu. pose proof (mk_wait w Hww). intuition.
    + rewrite !start_cons. intros [H|H]; [destruct (start_fu _ H)|auto].
    + intros r0 H. exfalso. eapply not_entry3_w; eauto.
  - assert (Ht : forall e, In e [EvDestroyed c] -> ~ touches e c) by (intros e [<-|[]] []).
    pose proof X as [X1 X2 X3 X4].
    eapply xok_new; [exact Ht|exact X| | | |].
    + inversion X1; subst. apply xfrs_app; auto.
    + rewrite marked_cons. intros [H|H]; [destruct (mk_wait FDtor eq_refl H)|right; auto].
    + rewrite start_cons. auto.
    + intros r0 H. exfalso. eapply (not_entry3_w r0 FDtor); eauto.
  - destruct rest; [|rewrite wfs_cons in Hw; destruct Hw as [[] _]]. destruct X as [X1 X2 X3 X4].
    constructor.
    + constructor; [intros e []|]. constructor; [exists r; right; left; reflexivity|constructor].
    + intros U. exfalso. apply HE. split; auto.
      destruct U as [m [t [c0 [to [H E]]]]]. cbn in H. destruct H as [H|[H|H]]; try discriminate. exists m, t, c0, to. auto.
    + rewrite !start_cons. intros [H|[H|H]]; [destruct (start_fu _ H)|destruct H as [H|[h H]]; discriminate|inversion H].
    + intros r0 [H|[H|H]]; try discriminate. apply X4 in H. exfalso. eapply (not_entry3_w r0 FEntry1); eauto.
Qed.

Lemma forced_false x m : forced x = false -> x <> Some (EForced m).
Proof. intros H ->. discriminate. Qed.

Lemma lrule_xok c tr fs fs' es main : wfs main fs -> lrule c tr fs fs' es -> xok tr c fs -> xok (es ++ tr) c fs'.
Proof.
  intros Hwf L X. pose proof X as [X1 X2 X3 X4]. destruct L.
  - apply (xok_ext []); auto.
  - (* ontop_raised *)
    pose proof (userwait_waiting _ Hw) as Hww. pose proof (leaving_unw _ _ Hl) as He.
    apply (xok_new [EvRaised c e; EvOntopExn c g e] tr c _ _) with (2 := X).
    + intros x [<-|[<-|[]]] [].
    + apply xfrs_app. inversion X1 as [|a1 l1 Y1 Y]; subst. inversion Y as [|a2 l2 Y2 Z]; subst. inversion Z as [|a3 l3 Y3 Z2]; subst.
      inversion Z2 as [|a4 l4 Y4 Z3]; subst. constructor; auto. cbn [xfr] in *. intros x. rewrite land_uexn by auto.
      intros [<-|Hi]; [apply Y1; rewrite He; left; reflexivity|auto].
    + rewrite !marked_cons, !Exists_cons, !mk_fu, He, land_uexn by auto. pose proof (mk_wait w Hww).
      assert (~ mk FOntop) by (apply mk_plain; [reflexivity|discriminate]).
      intros [[m [->|[]]]|[H1|[H1|[[m H1]|H1]]]]; try tauto.
      * left. exists m. left. reflexivity.
      * left. exists m. right. exact H1.
    + rewrite !start_cons. intros [H|H]; [destruct (start_fu _ H)|auto].
    + intros r0 H. exfalso. eapply not_entry3; eauto.
  - (* ontop_raise_entry *)
    pose proof (leaving_unw _ _ Hl) as He.
    assert (Hrest : rest = []). { apply wfs_tail, wfs_tail in Hwf. destruct rest; [reflexivity|rewrite wfs_cons in Hwf; destruct Hwf as [[] _]]. }
    subst rest. constructor.
    + constructor; [|constructor]. split; [left; reflexivity|]. left. inversion X1 as [|a1 l1 Y1 Y]; subst.
      apply (origin_app [EvDone c (Some h); EvOntopExn c g (EForced h)] tr c (EForced h)). apply Y1. rewrite He. left; reflexivity.
    + intros _. right. apply Exists_cons_hd. right. eauto.
    + intros H. inversion H as [? ? Hq|? ? Hq]; subst; [destruct Hq as [Hq|[? Hq]]; discriminate|inversion Hq].
    + intros r0 [H|[H|H]]; [injection H as <-; constructor; auto|discriminate|]. apply X4 in H. exfalso. eapply not_entry3; eauto.
  - (* fn_raise *)
    pose proof (leaving_unw _ _ Hl) as He.
    assert (Hrest : rest = []). { apply wfs_tail in Hwf. destruct rest; [reflexivity|rewrite wfs_cons in Hwf; destruct Hwf as [[] _]]. }
    subst rest. constructor.
    + constructor; [|constructor]. split; [left; reflexivity|]. left. inversion X1 as [|a1 l1 Y1 Y]; subst.
      apply (origin_app [EvDone c (Some h)] tr c (EForced h)). apply Y1. rewrite He. left; reflexivity.
    + intros _. right. apply Exists_cons_hd. right. eauto.
    + intros H. inversion H as [? ? Hq|? ? Hq]; subst; [destruct Hq as [Hq|[? Hq]]; discriminate|inversion Hq].
    + intros r0 [H|H]; [injection H as <-; constructor; auto|]. apply X4 in H. exfalso. eapply not_entry3; eauto.
  - (* ret_pop *)
    pose proof (leaving_ret _ _ Hl) as He.
    apply (xok_new [] tr c _ _) with (2 := X).
    + intros e [].
    + inversion X1; auto.
    + rewrite marked_cons, mk_fu, He. intros [[m []]|H]. right; auto.
    + rewrite start_cons. auto.
    + intros r0 H. exfalso. eapply not_entry3; eauto.
  - (* ret_ontop *)
    pose proof (leaving_ret _ _ Hl) as He. rewrite <- app_assoc. apply wfs_tail, wfs_tail in Hwf.
    assert (Xm : xok ([EvOntopRet c g r] ++ tr) c (w :: rest)).
    { apply (xok_new [EvOntopRet c g r] tr c _ _) with (2 := X).
      - intros e [<-|[]] [].
      - inversion X1 as [|a1 l1 Y1 Y]; subst. inversion Y; subst. apply xfrs_app. auto.
      - rewrite !marked_cons, !Exists_cons, mk_fu, He. intros [[m []]|[H|H]]; auto.
        exfalso. revert H. apply mk_plain; [reflexivity|discriminate].
      - rewrite !start_cons. auto.
      - intros r0 H. exfalso. eapply not_entry3; eauto. }
    eapply dl_xok; eauto. intros [E U]. injection E as -> ->. destruct Xm as [_ Xm _ _]. apply Xm in U.
    rewrite marked_cons in U. destruct U as [U|U]; [destruct (mk_wait FEntry1 eq_refl U)|inversion U].
  - (* exn_plain *)
    pose proof (leaving_unw _ _ Hl) as He.
    apply (xok_new [] tr c _ _) with (2 := X).
    + intros x [].
    + inversion X1 as [|a1 l1 Y1 Y]; subst. inversion Y as [|a2 l2 Y2 Z]; subst. constructor; auto.
      cbn [xfr app] in *. intros x. rewrite land_uexn by auto. intros [<-|Hi]; [apply Y1; rewrite He; left; reflexivity|auto].
    + rewrite !marked_cons, !Exists_cons, !mk_fu, He, land_uexn by auto.
      intros [[m [->|[]]]|[[m H1]|H1]]; auto; left; exists m; [left|right]; auto.
    + rewrite !start_cons. intros [H|H]; [destruct (start_fu _ H)|auto].
    + intros r0 H. exfalso. eapply not_entry3; eauto.
  - (* pop *)
    apply (xok_new [EvDtor (OnCtx c) o] tr c _ _) with (2 := X).
    + intros e [<-|[]] [].
    + apply xfrs_app. inversion X1; subst. constructor; auto.
    + rewrite !marked_cons, !mk_fu. auto.
    + rewrite !start_cons. intros [H|H]; [destruct (start_fu _ H)|auto].
    + intros r0 H. exfalso. eapply not_entry3; eauto.
  - (* push_dtor *)
    apply (xok_new [] tr c _ _) with (2 := X).
    + intros e [].
    + constructor; auto. intros e [].
    + intros [->|H]; [destruct Hok|]. right. apply Exists_cons_tl. auto.
    + rewrite !start_cons. intros [H|H]; [destruct (start_fu _ H)|auto].
    + intros r0 H. exfalso. destruct fs as [|[] fs]; try destruct Hok; inversion H; discriminate.
  - apply xok_ext; auto. intros e [<-|[]] [].
  - (* new *)
    apply (xok_new [EvCtor (OnCtx c) o] tr c _ _) with (2 := X).
    + intros e [<-|[]] [].
    + apply xfrs_app. inversion X1; subst. constructor; auto.
    + rewrite !marked_cons, !mk_fu. auto.
    + rewrite !start_cons. intros [H|H]; [destruct (start_fu _ H)|auto].
    + intros r0 H. exfalso. eapply not_entry3; eauto.
  - apply xok_ext; auto. intros e [<-|[]] [].
  - (* call *)
    apply (xok_new [] tr c _ _) with (2 := X).
    + intros e [].
    + constructor; auto. intros e [].
    + intros [E|H]; [discriminate|]. right. apply Exists_cons_tl. auto.
    + rewrite !start_cons. intros [H|[H|H]]; [destruct (start_fu _ H)|auto|auto].
    + intros r0 H. exfalso. eapply not_entry3; eauto.
  - (* badalloc *)
    apply (xok_new [EvThrow c 0] tr c _ _) with (2 := X).
    + intros e [<-|[]] [].
    + inversion X1 as [|a1 l1 Y1 Y]; subst. constructor; [|apply xfrs_app; auto]. cbn [xfr] in *. intros x. rewrite land_uexn by auto.
      intros [<-|Hi]; [left; reflexivity|apply origin_app; auto].
    + rewrite !marked_cons, !mk_fu, land_uexn by auto. intros [[m H]|H]; auto. left; exists m; right; auto.
    + rewrite !start_cons. intros [H|H]; [destruct (start_fu _ H)|auto].
    + intros r0 H. exfalso. eapply not_entry3; eauto.
  - (* throw *)
    apply (xok_new [EvThrow c e] tr c _ _) with (2 := X).
    + intros x [<-|[]] [].
    + inversion X1 as [|a1 l1 Y1 Y]; subst. constructor; [|apply xfrs_app; auto]. cbn [xfr] in *. intros x Hi.
      destruct Hi as [<-|[]]. left; reflexivity.
    + rewrite !marked_cons, !mk_fu, run_uexn by auto. intros [[m H]|H]; auto.
      exfalso. destruct (uf_caught f) as [x|] eqn:Ec; [|destruct H]. destruct H as [->|[]]. discriminate.
    + rewrite !start_cons. intros [H|H]; [destruct (start_fu _ H)|auto].
    + intros r0 H. exfalso. eapply not_entry3; eauto.
  - (* mode *)
    assert (Hsub : forall e, In e (uexn (set_caught f x m)) -> In e (uexn f)).
    { intros e0. unfold uexn, set_caught; cbn. destruct Hr; cbn; intuition. }
    assert (Hsup : forall h, In (EForced h) (uexn f) -> In (EForced h) (uexn (set_caught f x m))).
    { intros h. unfold uexn, set_caught; cbn. destruct Hr as [x' r Hf|e|e|e|e x' Hf]; cbn; auto.
      - destruct x'; auto. intros [->|[]]. discriminate.
      - intros [E|[]]. discriminate.
      - destruct x'; [|tauto]. intros [->|[->|[]]]; auto. discriminate. }
    apply (xok_new [] tr c _ _) with (2 := X).
    + intros e [].
    + inversion X1 as [|a1 l1 Y1 Y]; subst. constructor; auto. cbn [xfr app] in *. intros e Hi. auto.
    + rewrite !marked_cons, !mk_fu. intros [[h H]|H]; auto. left. exists h. auto.
    + rewrite !start_cons. intros [H|H]; [destruct (start_fu _ H)|auto].
    + intros r0 H. exfalso. eapply not_entry3; eauto.
Qed.

Definition XInv (s : state) : Prop := forall c cx, nth_error (s_ctxs s) c = Some cx -> xok (s_tr s) c (cx_frames cx).

Lemma about_touches c c' es : about c es -> c' <> c -> forall e, In e es -> ~ touches e c'.
Proof.
  intros H N e Hi Ht. apply N. apply (H e c' Hi). destruct e; cbn in *; auto; try tauto.
  destruct k; try tauto.
Qed.

(** events that start with one switch from c to d and then are about d *)
Lemma sw_touches es t c me h k c' : about (fc_ctx h) es -> c' <> fc_ctx h -> forall e, In e (es ++ [EvSwitch t c me h k]) -> ~ touches e c'.
Proof.
  intros H N e Hi. apply in_app_or in Hi. destruct Hi as [Hi|[<-|[]]].
  - eapply about_touches; eauto.
  - cbn. destruct k; auto.
Qed.

Lemma xinv_step n t s s' : mreach n s -> XInv s -> mstep t s s' -> XInv s'.
Proof.
  intros Hmr X Hs. pose proof (m_shapes _ _ Hmr) as Hsh. pose proof (m_kinv _ _ Hmr) as K. pose proof (m_cinv _ _ Hmr) as CI.
  unfold XInv. destruct Hs; intros c' cx'; rewrite Etr, Ectx.
  - (* local *)
    pose proof (run_shape _ _ (Hsh _ _ Hc) Ht) as [Hw _]. intros Hn.
    apply nth_upd_inv in Hn. destruct Hn as [[-> [-> _]]|[N Hn]].
    + eapply lrule_xok; eauto.
    + apply xok_ext; auto. apply (about_touches c); auto. eapply lrule_about; eauto.
  - (* jump *)
    assert (Hne : c <> fc_ctx h) by (intros ->; congruence).
    set (sw := EvSwitch t c me h SwJump) in *. pose proof (dl_about _ _ _ _ _ HD) as Hab.
    intros Hn. apply nth_upd2_inv in Hn. destruct Hn as [[-> ->]|[[N [-> ->]]|[N1 [N2 Hn]]]].
    + cbn [cx_frames]. pose proof (susp_shape _ (Hsh _ _ Htx) Hts) as [Hw _]. rewrite Htf in Hw.
      pose proof (X _ _ Htx) as Xt. rewrite Htf in Xt.
      assert (Xs : xok (sw :: s_tr s) (fc_ctx h) (f1 :: r1)) by (apply (xok_ext [sw]); auto; intros e [<-|[]] []).
      eapply dl_xok; eauto. intros [E U]. injection E as -> ->. destruct Xs as [_ Xm _ _]. apply Xm in U.
      rewrite marked_cons in U. destruct U as [U|U]; [destruct (mk_wait FEntry1 eq_refl U)|inversion U].
    + cbn [cx_frames]. change (es ++ sw :: s_tr s) with (es ++ [sw] ++ s_tr s). rewrite app_assoc.
      pose proof (X _ _ Hc) as Xc. pose proof Xc as [X1 X2 X3 X4].
      eapply xok_new; [apply sw_touches; auto|exact Xc| | | |].
      * apply xfrs_app. inversion HJ as [f rest Hm Hr E1 E2|Hr E1 E2]; subst; rewrite <- E1 in X1.
        -- constructor; auto. exact I.
        -- constructor; auto. exact I.
      * inversion HJ as [f rest Hm Hr E1 E2|Hr E1 E2]; subst.
        -- rewrite !marked_cons, !Exists_cons. intros [H|H]; auto.
        -- rewrite !marked_cons. intros [H|H]; [|inversion H]. exfalso. revert H. apply mk_plain; [reflexivity|discriminate].
      * inversion HJ as [f rest Hm Hr E1 E2|Hr E1 E2]; subst.
        -- rewrite !start_cons. intros [[H|[? H]]|[H|H]]; try discriminate; auto.
        -- rewrite !start_cons. intros _. left. right. eauto.
      * intros r H. exfalso. inversion HJ as [f rest Hm Hr E1 E2|Hr E1 E2]; subst; rewrite <- E1 in H.
        -- eapply not_entry3; eauto.
        -- inversion H; discriminate.
    + change (es ++ sw :: s_tr s) with (es ++ [sw] ++ s_tr s). rewrite app_assoc. apply xok_ext; auto. apply sw_touches; auto.
  - (* ontop *)
    assert (Hne : c <> fc_ctx h) by (intros ->; congruence).
    set (sw := EvSwitch t c me h (SwOntop g)) in *.
    assert (Hab : about (fc_ctx h) es) by (intros e x Hi Hv; unfold es in Hi; cbn in Hi; intuition (subst; cbn in Hv; auto)).
    change (es ++ sw :: s_tr s) with (es ++ [sw] ++ s_tr s). rewrite app_assoc.
    assert (Hnt : forall x e, In e (es ++ [sw]) -> ~ touches e x) by (intros x e Hi; cbn in Hi; intuition (subst; auto)).
    intros Hn. apply nth_upd2_inv in Hn. destruct Hn as [[-> ->]|[[N [-> ->]]|[N1 [N2 Hn]]]].
    + cbn [cx_frames]. pose proof (X _ _ Htx) as Xt. rewrite Htf in Xt. pose proof Xt as [X1 X2 X3 X4].
      eapply xok_new; [apply Hnt|exact Xt| | | |].
      * constructor; [intros e []|]. constructor; [exact I|]. apply xfrs_app. auto.
      * rewrite !marked_cons, !Exists_cons. tauto.
      * rewrite !start_cons. intros [H|[[H|[? H]]|H]]; try discriminate; auto. destruct (start_fu _ H).
      * intros r H. exfalso. inversion H; subst. discriminate.
    + cbn [cx_frames]. pose proof (X _ _ Hc) as Xc. rewrite Hcf in Xc. pose proof Xc as [X1 X2 X3 X4].
      eapply xok_new; [apply Hnt|exact Xc| | | |].
      * constructor; [exact I|]. apply xfrs_app. auto.
      * rewrite !marked_cons, !Exists_cons. tauto.
      * rewrite !start_cons. intros [[H|[? H]]|[H|H]]; try discriminate; auto.
      * intros r H. exfalso. eapply not_entry3; eauto.
    + apply xok_ext; auto.
  - (* unwind *)
    assert (Hne : c <> fc_ctx h) by (intros ->; congruence).
    set (sw := EvSwitch t c me h SwUnwind) in *.
    assert (Hab : about (fc_ctx h) [ev]) by (intros e x [<-|[]] Hv; destruct HR; cbn in Hv; auto).
    change (ev :: sw :: s_tr s) with ([ev] ++ [sw] ++ s_tr s). rewrite app_assoc.
    intros Hn. apply nth_upd2_inv in Hn. destruct Hn as [[-> ->]|[[N [-> ->]]|[N1 [N2 Hn]]]].
    + cbn [cx_frames]. pose proof (X _ _ Htx) as Xt. pose proof (susp_shape _ (Hsh _ _ Htx) Hts) as [Hw _].
      pose proof Xt as [X1 X2 X3 X4].
      assert (Hu : unwinds (([ev] ++ [sw]) ++ s_tr s) me (fc_ctx h)) by (exists t, c, h; split; auto; right; left; reflexivity).
      remember (cx_frames tx) as fs0 eqn:Efs. destruct HR.
      * pose proof (userwait_waiting _ Hw0) as Hww. constructor.
        -- inversion X1 as [|a1 l1 Y1 Y]; subst. inversion Y as [|a2 l2 Y2 Z]; subst. constructor; [|apply xfrs_app; auto].
           cbn [xfr] in *. intros x. rewrite land_uexn by auto. intros [<-|Hi]; [exact Hu|apply origin_app; auto].
        -- intros _. rewrite marked_cons, mk_fu, land_uexn by auto. left. exists me. left; reflexivity.
        -- rewrite start_cons. intros [H|H]; [destruct (start_fu _ H)|]. intros [r [E|[E|Hi]]]; try discriminate.
           apply X3; [rewrite !start_cons; auto|exists r; auto].
        -- intros r [E|[E|Hi]]; try discriminate. apply X4 in Hi. exfalso. eapply not_entry3_w; eauto.
      * destruct rest; [|rewrite wfs_cons in Hw; destruct Hw as [[] _]]. constructor.
        -- constructor; [split; [left; reflexivity|left; exact Hu]|constructor].
        -- intros _. right. apply Exists_cons_hd. right. eauto.
        -- intros H. inversion H as [? ? Hq|? ? Hq]; subst; [destruct Hq as [Hq|[? Hq]]; discriminate|inversion Hq].
        -- intros r [E|[E|Hi]]; [injection E as <-; constructor; auto|discriminate|]. apply X4 in Hi. exfalso. eapply (not_entry3_w r FEntry1); eauto.
    + cbn [cx_frames]. pose proof (X _ _ Hc) as Xc. pose proof Xc as [X1 X2 X3 X4].
      eapply xok_new; [apply sw_touches; auto|exact Xc| | | |].
      * constructor; [exact I|]. apply xfrs_app. auto.
      * intros [E|H]; [rewrite E in Hok; destruct Hok|]. right. apply Exists_cons_tl. auto.
      * rewrite start_cons. intros [[H|[? H]]|H]; try discriminate; auto.
      * intros r H. exfalso. destruct (cx_frames cx) as [|[] ?]; try destruct Hok; inversion H; discriminate.
    + apply xok_ext; auto. apply sw_touches; auto.
  - (* ret_fn *)
    pose proof (run_shape _ _ (Hsh _ _ Hc) Ht) as [Hw _]. rewrite Hcf in Hw. apply wfs_tail in Hw.
    assert (Hrest : rest = []) by (destruct rest; [reflexivity|rewrite wfs_cons in Hw; destruct Hw as [[] _]]). subst rest.
    intros Hn. apply nth_upd_inv in Hn. destruct Hn as [[-> [-> _]]|[N Hn]].
    + cbn [set_frames cx_frames]. pose proof (X _ _ Hc) as Xc. rewrite Hcf in Xc. pose proof Xc as [X1 X2 X3 X4].
      constructor.
      * constructor; [|constructor]. split; [left; reflexivity|]. destruct r as [h|]; [|exact I]. right. destruct (Hden h eq_refl) as [tx [f1 [r1 [H1 [H2 [H3 [H4 [H5 H6]]]]]]]].
        pose proof (c_rel _ CI _ _ H1) as Hrel. rewrite H4 in Hrel.
        assert (Hww : waiting f1 = true) by (destruct f1; try discriminate H5; reflexivity).
        destruct (open_top n s (fc_ctx h) f1 r1 Hmr Hww Hrel) as [h1 [o1 [t2 [to2 [k2 [G1 [G2 G3]]]]]]].
        pose proof (c_susp _ CI _ _ H1 H2) as Hh. rewrite G1 in Hh. cbn in Hh. injection Hh as ->. rewrite H3, fctx_eta in *.
        exists t2, (fc_ctx h), to2, k2. split; [right; exact G2|]. intros ->. destruct f1; try discriminate H5; destruct G3.
      * intros _. right. apply Exists_cons_hd. right. eauto.
      * intros H. inversion H as [? ? Hq|? ? Hq]; subst; [destruct Hq as [Hq|[? Hq]]; discriminate|inversion Hq].
      * intros r0 [E|Hi]; [injection E as <-; constructor; auto|]. apply X4 in Hi. exfalso. eapply not_entry3; eauto.
    + apply (xok_ext [EvDone c r]); auto. intros e [<-|[]]. cbn. auto.
  - (* exit *)
    set (sw := EvSwitch t c _ h SwExit) in *.
    assert (Hnt : forall x e, In e [sw] -> ~ touches e x) by (intros x e [<-|[]] []).
    intros Hn. apply nth_upd2_inv in Hn. destruct Hn as [[-> ->]|[[N [-> ->]]|[N1 [N2 Hn]]]].
    + cbn [cx_frames]. pose proof (X _ _ Htx) as Xt. pose proof Xt as [X1 X2 X3 X4].
      apply (xok_new [sw] (s_tr s) (fc_ctx h) (cx_frames tx)); auto.
      * constructor; [exact I|]. apply xfrs_app. auto.
      * intros [E|H]; [congruence|]. right. apply Exists_cons_tl. auto.
      * rewrite start_cons. intros [[H|[? H]]|H]; try discriminate; auto.
      * intros r H. exfalso. rewrite Htf in H. inversion H; subst. destruct Hf1 as [Hf1|Hf1]; discriminate.
    + cbn [cx_frames]. pose proof (X _ _ Hc) as Xc. pose proof Xc as [X1 X2 X3 X4].
      apply (xok_new [sw] (s_tr s) c (cx_frames cx)); auto.
      * left; reflexivity.
      * intros H. inversion H.
    + apply (xok_ext [sw]); auto.
  - (* create *)
    assert (Hnt : forall x e, In e (EvSwitch t c me (mk_fc d 0) SwCreate :: es) -> ~ touches e x).
    { intros x e [<-|Hi]; [auto|]. unfold es in Hi. apply in_app_or in Hi. destruct Hi as [Hi|[<-|[]]]; [|auto].
      apply in_map_iff in Hi. destruct Hi as [o [<- _]]. auto. }
    change (EvSwitch t c me (mk_fc d 0) SwCreate :: es ++ s_tr s) with ((EvSwitch t c me (mk_fc d 0) SwCreate :: es) ++ s_tr s).
    intros Hn. apply nth_app_cases in Hn. destruct Hn as [[_ Hn]|[E ->]].
    + apply nth_upd_inv in Hn. destruct Hn as [[-> [-> _]]|[N Hn]].
      * cbn [cx_frames]. pose proof (X _ _ Hc) as Xc. rewrite Hcf in Xc. pose proof Xc as [X1 X2 X3 X4].
        eapply xok_new; [apply Hnt|exact Xc| | | |].
        -- constructor; [exact I|]. apply xfrs_app. auto.
        -- rewrite !marked_cons, !Exists_cons. tauto.
        -- rewrite !start_cons. intros [[H|[? H]]|[H|H]]; try discriminate; auto.
        -- intros r H. exfalso. eapply not_entry3; eauto.
      * apply xok_ext; auto.
    + rewrite upd_length in E. subst c'. fold d. cbn [cx_frames].
      assert (Hd : forall e, In e (s_tr s) -> ~ involves e d) by (intros e Hi Hv; pose proof (k_bound _ K e d Hi Hv); unfold d in *; lia).
      apply xok_ext; auto. constructor.
      * constructor; [exact I|constructor].
      * intros [m [t0 [c0 [to [H E]]]]]. exfalso. apply (Hd _ H). right. exact E.
      * intros _ [r H]. apply (Hd _ H). reflexivity.
      * intros r H. exfalso. apply (Hd _ H). reflexivity.
  - (* cap *)
    intros Hn. apply (xok_ext [EvDtor (OnCtx d) o]); [intros e [<-|[]] []|].
    apply nth_upd_inv in Hn. destruct Hn as [[-> [-> _]]|[N Hn]]; [|auto]. exact (X _ _ Hdx).
  - (* free *)
    assert (Hne : d <> c) by (intros ->; congruence).
    pose proof (dl_about _ _ _ _ _ HD) as Hab.
    pose proof (run_shape _ _ (Hsh _ _ Hc) Ht) as [Hw _]. rewrite Hcf in Hw.
    assert (X0 : forall x fs, xok (s_tr s) x fs -> xok (EvFree d a c :: EvRecord d :: s_tr s) x fs).
    { intros x fs. apply (xok_ext [EvFree d a c; EvRecord d]). intros e [<-|[<-|[]]] []. }
    intros Hn. apply nth_upd2_inv in Hn. destruct Hn as [[-> ->]|[[N [-> ->]]|[N1 [N2 Hn]]]].
    + cbn [set_frames cx_frames]. pose proof (X _ _ Hc) as Xc. rewrite Hcf in Xc. pose proof Xc as [X1 X2 X3 X4].
      assert (Xr : xok (s_tr s) c rest).
      { eapply (xok_new [] (s_tr s) c (FExit d :: rest)); [intros e []|exact Xc| | | |].
        - inversion X1; auto.
        - rewrite marked_cons. intros [H|H]; [|right; auto]. exfalso. revert H. apply mk_plain; [reflexivity|discriminate].
        - rewrite start_cons. auto.
        - intros r H. inversion H; discriminate. }
      apply X0 in Xr. eapply (dl_xok c None rest); eauto.
      * destruct rest; [destruct Hw|]. apply wfs_tail in Hw. exact Hw.
      * intros [-> U]. destruct Xr as [_ Xm _ _]. apply Xm in U.
        rewrite marked_cons in U. destruct U as [U|U]; [destruct (mk_wait FEntry1 eq_refl U)|inversion U].
    + apply xok_ext; [apply (about_touches c); auto|]. apply X0. constructor.
      * constructor.
      * intros _; left; reflexivity.
      * intros H; inversion H.
      * intros; constructor.
    + apply xok_ext; [apply (about_touches c); auto|]. apply X0. auto.
Qed.

Lemma m_xinv n s : mreach n s -> XInv s.
Proof.
  induction 1 as [|t s s' Hr IH Hs]; [|eapply xinv_step; eauto].
  intros c cx H. apply init_nth in H. destruct H as [t ->]. cbn. constructor.
  - constructor; [intros e []|constructor].
  - intros [m [t0 [c0 [to [[] _]]]]].
  - intros _ [r []].
  - intros r [].
Qed.
