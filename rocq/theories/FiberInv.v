(** Invariant of the fiber machine: ownership of suspensions, objects and stacks. *)
From Coq Require Import List Arith Bool Lia.
From Verif Require Import ListUtil Fiber.
Import ListNotations.

(* ------------------------------------------------------------------ counting *)

(** classes of places where a handle may be stored: CR = fiber objects and return values;
    CD = forced_unwind exceptions; CC = fiber_entry before its first jump; CX = fiber_entry L101 *)
Inductive cls := CR | CD | CC | CX.

Definition fc_eqb (a b : fctx) : bool := Nat.eqb (fc_ctx a) (fc_ctx b) && Nat.eqb (fc_ver a) (fc_ver b).

Lemma fc_eqb_spec a b : reflect (a = b) (fc_eqb a b).
Proof.
  unfold fc_eqb. destruct a as [c v], b as [c' v']; cbn.
  destruct (Nat.eqb_spec c c'); destruct (Nat.eqb_spec v v'); cbn; constructor; congruence.
Qed.
Lemma fc_eqb_refl a : fc_eqb a a = true.
Proof. destruct (fc_eqb_spec a a); congruence. Qed.

Definition b2n (b : bool) : nat := if b then 1 else 0.
Definition w1 (k h : fctx) : nat := b2n (fc_eqb h k).
Definition wh (k : fctx) (r : hopt) : nat := match r with Some h => w1 k h | None => 0 end.
Definition we (k : fctx) (e : exn) : nat := match e with EForced h => w1 k h | EUser _ => 0 end.
Definition woe (k : fctx) (e : option exn) : nat := match e with Some e => we k e | None => 0 end.

Definition wfr (cl : cls) (k : fctx) (f : frame) : nat :=
  match cl, f with
  | CR, FU u => match uf_mode u with MRet r => wh k r | _ => 0 end
  | CD, FU u => match uf_mode u with MLand e | MUnw e => we k e | _ => 0 end + woe k (uf_caught u)
  | CC, FEntry0 t => w1 k t
  | CX, FEntry3 r => wh k r
  | _, _ => 0
  end.
Definition wfs_ (cl : cls) (k : fctx) (fs : list frame) : nat := sumf (wfr cl k) fs.
Definition wcx (cl : cls) (k : fctx) (cx : ctx) : nat := wfs_ cl k (cx_frames cx).
Definition wvar (cl : cls) (k : fctx) (v : var) : nat :=
  match cl, v with CR, VLive _ r => wh k r | _, _ => 0 end.
Definition cnt (cl : cls) (k : fctx) (s : state) : nat :=
  sumf (wcx cl k) (s_ctxs s) + sumf (wvar cl k) (s_vars s).
(** a handle held by the library between two places *)
Definition wfl (cl : cls) (k : fctx) (fl : option (cls * fctx)) : nat :=
  match fl with
  | Some (cl', h) => match cl, cl' with CR, CR | CD, CD | CC, CC | CX, CX => w1 k h | _, _ => 0 end
  | None => 0
  end.

Definition susp (k : fctx) (s : state) : nat :=
  match nth_error (s_ctxs s) (fc_ctx k) with
  | Some cx => match cx_status cx with SSusp => b2n (Nat.eqb (cx_ver cx) (fc_ver k)) | _ => 0 end
  | None => 0
  end.

Definition top (k : fctx) (s : state) : option frame := hd_error (frames_of s (fc_ctx k)).

Definition resumable_frame (f : frame) : bool :=
  match f with FResume | FResumeW _ | FEntry1 => true | _ => false end.
Definition compat (cl : cls) (f : option frame) : bool :=
  match cl, f with
  | CR, Some f => resumable_frame f
  | CD, Some FDtor => true
  | CC, Some FCreate => true
  | CX, Some FDtor => true
  | CX, Some f => resumable_frame f
  | _, _ => false
  end.

Definition wob (v : nat) (o : obj) : nat := match o with OFib v' => b2n (Nat.eqb v' v) | OUsr _ => 0 end.
Definition wobs (v : nat) (l : list obj) : nat := sumf (wob v) l.
Definition wof (v : nat) (f : frame) : nat := match f with FU u => wobs v (uf_objs u) | _ => 0 end.
Definition wofs (v : nat) (fs : list frame) : nat := sumf (wof v) fs.
Definition wocx (v : nat) (cx : ctx) : nat := wofs v (cx_frames cx) + wobs v (cx_caps cx).
Definition own (v : nat) (s : state) : nat := sumf (wocx v) (s_ctxs s).
Definition auto_live (x : option var) : nat := match x with Some (VLive false _) => 1 | _ => 0 end.

Definition wex (d : nat) (f : frame) : nat := match f with FExit d' => b2n (Nat.eqb d' d) | _ => 0 end.
Definition wexs (d : nat) (fs : list frame) : nat := sumf (wex d) fs.
Definition wexcx (d : nat) (cx : ctx) : nat := wexs d (cx_frames cx).
Definition exits (d : nat) (s : state) : nat := sumf (wexcx d) (s_ctxs s).
Definition dying (d : nat) (s : state) : nat :=
  match nth_error (s_ctxs s) d with
  | Some cx => match cx_status cx with SDying => 1 | _ => 0 end
  | None => 0
  end.
Definition wpe (d : nat) (pe : option nat) : nat := match pe with Some d' => b2n (Nat.eqb d' d) | None => 0 end.

(* ------------------------------------------------------------------ shape of a stack *)

(** a frame that is being left handles no exception; only context-functions and injected functions
    return a fiber *)
Definition fok (f : uframe) : Prop :=
  match uf_mode f with
  | MRet r => uf_caught f = None /\
              match uf_kind f with KMain => False | KPlain | KDtor _ => r = None | _ => True end
  | MUnw _ => uf_caught f = None
  | _ => True
  end.

(** which frame may be directly above which *)
Definition below (u l : frame) : Prop :=
  match u with
  | FU f => fok f /\
      match uf_kind f with
      | KMain => False
      | KCtx => l = FEntry2
      | KOntop _ => l = FOntop
      | KPlain => match l with FU g => uf_mode g = MRun | _ => False end
      | KDtor _ => match l with
                   | FU g => match uf_mode g with MLand _ => False | _ => True end
                   | FExit _ => True
                   | _ => False
                   end
      end
  | FCreate | FResume | FResumeW _ => match l with FU g => uf_mode g = MRun | _ => False end
  | FDtor => match l with
             | FU g => match uf_mode g with MLand _ => False | _ => True end
             | FExit _ => True
             | _ => False
             end
  | FOntop => resumable_frame l = true
  | FExit _ => resumable_frame l = true \/ l = FDtor
  | _ => False
  end.

Definition bottom (main : bool) (f : frame) : Prop :=
  match f with
  | FU u => fok u /\ main = true /\ uf_kind u = KMain
  | FEntry0 _ | FEntry1 | FEntry2 | FEntry3 _ => main = false
  | _ => False
  end.

Fixpoint wfs (main : bool) (fs : list frame) : Prop :=
  match fs with
  | [] => False
  | f :: r => match r with [] => bottom main f | g :: _ => below f g /\ wfs main r end
  end.

(** frames that wait in jump_fcontext/ontop_fcontext *)
Definition waiting (f : frame) : bool :=
  match f with FCreate | FResume | FResumeW _ | FDtor | FEntry1 => true | _ => false end.
(** frames that can execute when on top *)
Definition active (f : frame) : bool :=
  match f with FU _ | FEntry0 _ | FEntry3 _ | FExit _ => true | _ => false end.

Definition top_ok (p : frame -> bool) (fs : list frame) : Prop :=
  match fs with f :: _ => p f = true | [] => False end.

Definition is_main (cx : ctx) : bool := match cx_alloc cx with None => true | Some _ => false end.

(** w: the thread that is just switching / returning into a suspended call *)
Definition shape (w : option nat) (cx : ctx) : Prop :=
  match cx_status cx with
  | SRun t => wfs (is_main cx) (cx_frames cx) /\
              top_ok (if match w with Some t' => Nat.eqb t t' | None => false end then waiting else active)
                     (cx_frames cx)
  | SSusp => wfs (is_main cx) (cx_frames cx) /\ top_ok waiting (cx_frames cx)
  | SDying => cx_frames cx = [] /\ is_main cx = false
  | SFreed => cx_frames cx = [] /\ cx_caps cx = [] /\ is_main cx = false
  end.

Record Inv (s : state) (fl : option (cls * fctx)) (ol : list nat) (w : option nat) (pe : option nat) : Prop := mk_inv {
  i_cnt : forall k, cnt CR k s + cnt CD k s + cnt CC k s + cnt CX k s
                    + (wfl CR k fl + wfl CD k fl + wfl CC k fl + wfl CX k fl) = susp k s;
  i_top : forall cl k, 0 < cnt cl k s + wfl cl k fl -> compat cl (top k s) = true;
  i_own : forall v, own v s + sumf (fun v' => b2n (Nat.eqb v' v)) ol = auto_live (nth_error (s_vars s) v);
  i_thr : forall t c, nth_error (s_thr s) t = Some c ->
            exists cx, nth_error (s_ctxs s) c = Some cx /\ cx_status cx = SRun t;
  i_run : forall c cx t, nth_error (s_ctxs s) c = Some cx -> cx_status cx = SRun t ->
            nth_error (s_thr s) t = Some c;
  i_shape : forall c cx, nth_error (s_ctxs s) c = Some cx -> shape w cx;
  i_exit : forall d, exits d s + wpe d pe = dying d s }.

Definition SInv (s : state) : Prop := Inv s None [] None None.

(* ------------------------------------------------------------------ basic consequences *)

Lemma susp_le1 k s : susp k s <= 1.
Proof.
  unfold susp. destruct (nth_error (s_ctxs s) (fc_ctx k)) as [cx|]; [|lia].
  destruct (cx_status cx); try lia. destruct (cx_ver cx =? fc_ver k); cbn; lia.
Qed.

Lemma w1_self h : w1 h h = 1.
Proof. unfold w1. now rewrite fc_eqb_refl. Qed.

Lemma w1_pos k h : 0 < w1 k h -> h = k.
Proof. unfold w1. destruct (fc_eqb_spec h k); cbn; [auto|lia]. Qed.

Lemma susp_pos k s : 0 < susp k s ->
  exists cx, nth_error (s_ctxs s) (fc_ctx k) = Some cx /\ cx_status cx = SSusp /\ cx_ver cx = fc_ver k.
Proof.
  unfold susp. destruct (nth_error (s_ctxs s) (fc_ctx k)) as [cx|]; [|lia].
  destruct (cx_status cx) eqn:E; try lia. destruct (Nat.eqb_spec (cx_ver cx) (fc_ver k)); cbn; [|lia].
  intros _. exists cx; auto.
Qed.

Lemma frames_put_frames s c fs cx :
  nth_error (s_ctxs s) c = Some cx ->
  put_frames s c fs = mk_s (upd (s_ctxs s) c (set_frames cx fs)) (s_vars s) (s_thr s) (s_nusr s) (s_tr s).
Proof. intros H. unfold put_frames. rewrite H. reflexivity. Qed.

(* ------------------------------------------------------------------ local steps *)

(** A step that changes only the frames of the context running on thread t, the variables (and the
    trace): the handles and objects are moved around but none appears or disappears. *)
Lemma inv_local s s' t c cx fs' fl ol w pe fl' ol' w' pe' :
  Inv s fl ol w pe ->
  nth_error (s_ctxs s) c = Some cx -> cx_status cx = SRun t ->
  s_ctxs s' = upd (s_ctxs s) c (set_frames cx fs') -> s_thr s' = s_thr s ->
  (forall k, wfs_ CR k fs' + wfs_ CD k fs' + wfs_ CC k fs' + wfs_ CX k fs'
             + sumf (wvar CR k) (s_vars s') + (wfl CR k fl' + wfl CD k fl' + wfl CC k fl' + wfl CX k fl')
           = wfs_ CR k (cx_frames cx) + wfs_ CD k (cx_frames cx) + wfs_ CC k (cx_frames cx) + wfs_ CX k (cx_frames cx)
             + sumf (wvar CR k) (s_vars s) + (wfl CR k fl + wfl CD k fl + wfl CC k fl + wfl CX k fl)) ->
  (forall k, wfs_ CR k fs' + sumf (wvar CR k) (s_vars s') + wfl CR k fl'
             <= wfs_ CR k (cx_frames cx) + sumf (wvar CR k) (s_vars s) + wfl CR k fl) ->
  (forall k, wfs_ CD k fs' + wfl CD k fl' <= wfs_ CD k (cx_frames cx) + wfl CD k fl) ->
  (forall k, wfs_ CC k fs' + wfl CC k fl' = wfs_ CC k (cx_frames cx) + wfl CC k fl) ->
  (forall v, wofs v fs' + sumf (fun v' => b2n (Nat.eqb v' v)) ol' + auto_live (nth_error (s_vars s) v)
           = wofs v (cx_frames cx) + sumf (fun v' => b2n (Nat.eqb v' v)) ol + auto_live (nth_error (s_vars s') v)) ->
  (forall d, wexs d fs' + wpe d pe' = wexs d (cx_frames cx) + wpe d pe) ->
  (forall t', t' <> t -> w = Some t' <-> w' = Some t') ->
  shape w' (set_frames cx fs') ->
  Inv s' fl' ol' w' pe'.
Proof.
  intros I Hc Hst Hcx Hthr Htot HR HD HC Hown Hex Hw Hsh.
  assert (Hcnt : forall cl k, cnt cl k s' + wfs_ cl k (cx_frames cx) + sumf (wvar cl k) (s_vars s)
                            = cnt cl k s + wfs_ cl k fs' + sumf (wvar cl k) (s_vars s')).
  { intros cl k. unfold cnt. rewrite Hcx.
    pose proof (sumf_upd (wcx cl k) _ c (set_frames cx fs') cx Hc) as E.
    change (wcx cl k cx) with (wfs_ cl k (cx_frames cx)) in E.
    change (wcx cl k (set_frames cx fs')) with (wfs_ cl k fs') in E. lia. }
  assert (Hsusp : forall k, susp k s' = susp k s).
  { intros k. unfold susp. rewrite Hcx, nth_upd.
    destruct (Nat.eqb_spec c (fc_ctx k)) as [E|E]; [|reflexivity].
    destruct (Nat.ltb_spec c (length (s_ctxs s))) as [E2|E2].
    - rewrite <- E, Hc. cbn [set_frames cx_status cx_ver]. reflexivity.
    - apply nth_some_lt in Hc. lia. }
  assert (Hvo : forall cl k l, cl <> CR -> sumf (wvar cl k) l = 0).
  { intros cl k l Hcl. apply sumf_zero. intros x _. destruct cl; [congruence| | |]; reflexivity. }
  assert (Htop : forall k, 0 < susp k s -> top k s' = top k s).
  { intros k Hk. apply susp_pos in Hk. destruct Hk as [kx [Hkx [Hks _]]].
    unfold top, frames_of. rewrite Hcx, nth_upd_ne; [reflexivity|]. intros ->. congruence. }
  destruct I as [I1 I2 I3 I4 I5 I6 I7].
  assert (H1 : forall k, cnt CR k s' + cnt CD k s' + cnt CC k s' + cnt CX k s'
                    + (wfl CR k fl' + wfl CD k fl' + wfl CC k fl' + wfl CX k fl') = susp k s').
  { intros k. rewrite Hsusp, <- (I1 k). specialize (Htot k).
    pose proof (Hcnt CR k). pose proof (Hcnt CD k). pose proof (Hcnt CC k). pose proof (Hcnt CX k).
    rewrite !(Hvo CD), !(Hvo CC), !(Hvo CX) in * by discriminate. lia. }
  constructor; auto.
  - intros cl k Hp.
    assert (Hk : 0 < susp k s) by (rewrite <- Hsusp, <- (H1 k); destruct cl; lia).
    rewrite (Htop k Hk).
    pose proof (Hcnt CR k). pose proof (Hcnt CD k). pose proof (Hcnt CC k). pose proof (Hcnt CX k).
    rewrite !(Hvo CD), !(Hvo CC), !(Hvo CX) in * by discriminate.
    specialize (HR k). specialize (HD k). specialize (HC k).
    destruct cl.
    + apply (I2 CR k). lia.
    + apply (I2 CD k). lia.
    + apply (I2 CC k). lia.
    + (* CX: may come from CR, CD, CX *)
      pose proof (I1 k) as E. pose proof (I2 CR k) as C1. pose proof (I2 CD k) as C2.
      pose proof (I2 CC k) as C3. pose proof (I2 CX k) as C4. specialize (Htot k).
      destruct (Nat.eq_dec (cnt CR k s + wfl CR k fl) 0) as [Z1|Z1].
      * destruct (Nat.eq_dec (cnt CD k s + wfl CD k fl) 0) as [Z2|Z2].
        -- destruct (Nat.eq_dec (cnt CX k s + wfl CX k fl) 0) as [Z4|Z4].
           ++ exfalso. pose proof (H1 k). rewrite Hsusp in *.
              assert (cnt CC k s' + wfl CC k fl' = cnt CC k s + wfl CC k fl); [|lia].
              pose proof (susp_le1 k s). lia.
           ++ apply C4; lia.
        -- specialize (C2 ltac:(lia)). destruct (top k s) as [f|]; cbn in *; [|discriminate].
           destruct f; try discriminate; reflexivity.
      * specialize (C1 ltac:(lia)). destruct (top k s) as [f|]; cbn in *; [|discriminate].
        destruct f; try discriminate; reflexivity.
  - intros v. unfold own. rewrite Hcx.
    pose proof (sumf_upd (wocx v) _ c (set_frames cx fs') cx Hc) as E.
    unfold wocx in E at 2 4. cbn [set_frames cx_frames cx_caps] in E.
    specialize (I3 v). specialize (Hown v). unfold own in I3. lia.
  - intros t' c' Ht. rewrite Hthr in Ht. destruct (I4 t' c' Ht) as [cx' [Hc' Hs']].
    rewrite Hcx, nth_upd. destruct (Nat.eqb_spec c c') as [<-|E]; [|eauto].
    pose proof (nth_some_lt _ _ _ Hc) as Hlt. apply Nat.ltb_lt in Hlt. rewrite Hlt.
    eexists; split; [reflexivity|]. cbn. congruence.
  - intros c' cx' t' Hc' Hs'. rewrite Hthr. rewrite Hcx, nth_upd in Hc'.
    destruct (Nat.eqb_spec c c') as [<-|E]; [|eauto].
    destruct (c <? length (s_ctxs s)); [|discriminate]. injection Hc' as <-. cbn in Hs'. eauto.
  - intros c' cx' Hc'. rewrite Hcx, nth_upd in Hc'.
    destruct (Nat.eqb_spec c c') as [<-|E].
    + destruct (c <? length (s_ctxs s)); [|discriminate]. injection Hc' as <-. exact Hsh.
    + pose proof (I6 c' cx' Hc') as Hs'. unfold shape in *. destruct (cx_status cx') as [t'| | |] eqn:Et; auto.
      assert (t' <> t).
      { intros ->. pose proof (I5 c' cx' t Hc' Et). pose proof (I5 c cx t Hc Hst). congruence. }
      specialize (Hw t' H).
      assert (Heq : (match w' with Some t'' => t' =? t'' | None => false end)
                  = (match w with Some t'' => t' =? t'' | None => false end)).
      { destruct w as [a|], w' as [b|]; auto.
        - destruct (Nat.eqb_spec t' a), (Nat.eqb_spec t' b); auto; subst.
          + destruct Hw as [Hw1 Hw2]. specialize (Hw1 eq_refl). congruence.
          + destruct Hw as [Hw1 Hw2]. specialize (Hw2 eq_refl). congruence.
        - destruct (Nat.eqb_spec t' a); auto. subst. destruct Hw as [Hw1 _]. specialize (Hw1 eq_refl). congruence.
        - destruct (Nat.eqb_spec t' b); auto. subst. destruct Hw as [_ Hw2]. specialize (Hw2 eq_refl). congruence. }
      rewrite Heq. exact Hs'.
  - intros d. unfold exits. rewrite Hcx.
    pose proof (sumf_upd (wexcx d) _ c (set_frames cx fs') cx Hc) as E.
    unfold wexcx in E at 2 4. cbn [set_frames cx_frames] in E.
    specialize (I7 d). specialize (Hex d). unfold exits in I7.
    assert (dying d s' = dying d s).
    { unfold dying. rewrite Hcx, nth_upd. destruct (Nat.eqb_spec c d) as [<-|E']; [|reflexivity].
      pose proof (nth_some_lt _ _ _ Hc) as Hlt. apply Nat.ltb_lt in Hlt. rewrite Hlt, Hc. reflexivity. }
    lia.
Qed.

(* ------------------------------------------------------------------ the switch *)

Lemma inv_target s cl h ol w pe :
  Inv s (Some (cl, h)) ol w pe ->
  exists tx, nth_error (s_ctxs s) (fc_ctx h) = Some tx /\ cx_status tx = SSusp /\ cx_ver tx = fc_ver h
             /\ compat cl (hd_error (cx_frames tx)) = true.
Proof.
  intros I. assert (H : 0 < wfl cl h (Some (cl, h))) by (destruct cl; cbn; rewrite w1_self; lia).
  assert (Hs : 0 < susp h s) by (rewrite <- (i_cnt _ _ _ _ _ I h); destruct cl; lia).
  apply susp_pos in Hs. destruct Hs as [tx [H1 [H2 H3]]]. exists tx. repeat split; auto.
  pose proof (i_top _ _ _ _ _ I cl h ltac:(lia)) as Ht. unfold top, frames_of in Ht. rewrite H1 in Ht. exact Ht.
Qed.

Lemma wfl_self cl k h : wfl CR k (Some (cl, h)) + wfl CD k (Some (cl, h)) + wfl CC k (Some (cl, h)) + wfl CX k (Some (cl, h)) = w1 k h.
Proof. destruct cl; cbn; lia. Qed.

Lemma inv_switch s t c cx cl h cl' ol kk :
  Inv s (Some (cl, h)) ol (Some t) None ->
  nth_error (s_ctxs s) c = Some cx -> cx_status cx = SRun t ->
  compat cl' (hd_error (cx_frames cx)) = true ->
  exists s' me tx tx',
    switch s t c SSusp h kk = Some (s', me) /\
    nth_error (s_ctxs s) (fc_ctx h) = Some tx /\ compat cl (hd_error (cx_frames tx)) = true /\
    nth_error (s_ctxs s') (fc_ctx h) = Some tx' /\ cx_frames tx' = cx_frames tx /\ cx_status tx' = SRun t /\
    s_vars s' = s_vars s /\
    Inv s' (Some (cl', me)) ol (Some t) None.
Proof.
  intros I Hc Hst Hcompat.
  destruct (inv_target _ _ _ _ _ _ I) as [tx [Htx [Hts [Htv Htc]]]].
  assert (Hne : c <> fc_ctx h) by (intros ->; congruence).
  set (me := mk_fc c (S (cx_ver cx))).
  set (cx' := mk_cx (cx_frames cx) SSusp (S (cx_ver cx)) (cx_alloc cx) (cx_caps cx)).
  set (tx' := mk_cx (cx_frames tx) (SRun t) (cx_ver tx) (cx_alloc tx) (cx_caps tx)).
  set (s' := mk_s (upd (upd (s_ctxs s) c cx') (fc_ctx h) tx') (s_vars s)
                  (upd (s_thr s) t (fc_ctx h)) (s_nusr s) (EvSwitch t c me h kk :: s_tr s)).
  assert (Hsw : switch s t c SSusp h kk = Some (s', me)).
  { unfold switch. rewrite Hc, Htx, Hts. rewrite Htv, Nat.eqb_refl. unfold s', cx', tx'. rewrite Htv. reflexivity. }
  assert (Htx1 : nth_error (upd (s_ctxs s) c cx') (fc_ctx h) = Some tx) by (rewrite nth_upd_ne; auto).
  assert (Hnth : forall d, nth_error (s_ctxs s') d =
            if Nat.eqb d (fc_ctx h) then Some tx' else if Nat.eqb d c then Some cx' else nth_error (s_ctxs s) d).
  { intros d. unfold s'; cbn [s_ctxs]. destruct (Nat.eqb_spec d (fc_ctx h)) as [->|E1].
    - eapply nth_upd_eq; eauto.
    - rewrite nth_upd_ne by auto. destruct (Nat.eqb_spec d c) as [->|E2].
      + eapply nth_upd_eq; eauto.
      + rewrite nth_upd_ne; auto. }
  exists s', me, tx, tx'.
  assert (Hsum : forall f : ctx -> nat, f cx' = f cx -> f tx' = f tx -> sumf f (s_ctxs s') = sumf f (s_ctxs s)).
  { intros f E1 E2. unfold s'; cbn [s_ctxs].
    pose proof (sumf_upd f _ c cx' cx Hc). pose proof (sumf_upd f _ (fc_ctx h) tx' tx Htx1). lia. }
  split; [exact Hsw|]. split; [exact Htx|]. split; [exact Htc|].
  split; [rewrite Hnth, Nat.eqb_refl; reflexivity|]. split; [reflexivity|]. split; [reflexivity|]. split; [reflexivity|].
  assert (Hcnt : forall cl0 k, cnt cl0 k s' = cnt cl0 k s).
  { intros cl0 k. unfold cnt. rewrite Hsum; reflexivity. }
  assert (Hsusp : forall k, susp k s' + w1 k h = susp k s + w1 k me).
  { intros k. unfold susp. rewrite Hnth.
    destruct (Nat.eqb_spec (fc_ctx k) (fc_ctx h)) as [E1|E1].
    - rewrite E1, Htx, Hts. cbn [tx' cx_status].
      unfold w1. destruct (fc_eqb_spec h k) as [<-|Hhk].
      + rewrite Htv, Nat.eqb_refl. cbn. destruct (fc_eqb_spec me h) as [Em|]; [|cbn; lia].
        exfalso. apply Hne. rewrite <- Em. reflexivity.
      + destruct (Nat.eqb_spec (cx_ver tx) (fc_ver k)) as [E2|E2].
        * exfalso. apply Hhk. destruct h, k; cbn in *. congruence.
        * cbn. destruct (fc_eqb_spec me k) as [Em|]; [|cbn; lia].
          exfalso. apply Hne. rewrite <- E1, <- Em. reflexivity.
    - destruct (Nat.eqb_spec (fc_ctx k) c) as [E2|E2].
      + rewrite E2, Hc, Hst. cbn [cx' cx_status cx_ver]. unfold w1.
        destruct (fc_eqb_spec h k) as [Ehk|_]; [subst k; congruence|].
        destruct (fc_eqb_spec me k) as [Em|Em].
        * subst k. cbn. rewrite Nat.eqb_refl. reflexivity.
        * destruct (Nat.eqb_spec (S (cx_ver cx)) (fc_ver k)) as [E3|E3]; [|reflexivity].
          exfalso. apply Em. unfold me. destruct k; cbn in *. congruence.
      + unfold w1. destruct (fc_eqb_spec h k) as [Ehk|_]; [subst k; congruence|].
        destruct (fc_eqb_spec me k) as [Em|Em]; [subst k; cbn in E2; congruence|]. reflexivity. }
  destruct I as [I1 I2 I3 I4 I5 I6 I7].
  assert (H1 : forall k, cnt CR k s' + cnt CD k s' + cnt CC k s' + cnt CX k s'
     + (wfl CR k (Some (cl', me)) + wfl CD k (Some (cl', me)) + wfl CC k (Some (cl', me)) + wfl CX k (Some (cl', me)))
      = susp k s').
  { intros k. rewrite !Hcnt, wfl_self. pose proof (I1 k) as E. rewrite wfl_self in E. pose proof (Hsusp k). lia. }
  assert (Hme0 : susp me s = 0).
  { unfold susp, me; cbn [fc_ctx]. rewrite Hc, Hst. reflexivity. }
  constructor.
  - exact H1.
  - intros cl0 k Hp.
    destruct (fc_eqb_spec me k) as [<-|Hmk].
    + (* the new suspension *)
      assert (Hz : cnt cl0 me s = 0).
      { pose proof (I1 me). rewrite Hme0 in *. destruct cl0; lia. }
      rewrite Hcnt, Hz in Hp. unfold top, frames_of. rewrite Hnth. cbn [me fc_ctx].
      destruct (Nat.eqb_spec c (fc_ctx h)); [congruence|]. rewrite Nat.eqb_refl. cbn [cx' cx_frames].
      destruct cl0, cl'; cbn [wfl] in Hp; try lia; exact Hcompat.
    + assert (Hw0 : wfl cl0 k (Some (cl', me)) = 0).
      { assert (w1 k me = 0) by (unfold w1; destruct (fc_eqb_spec me k); [congruence|reflexivity]).
        destruct cl0, cl'; cbn; auto. }
      rewrite Hcnt, Hw0 in Hp.
      assert (Hkh : k <> h).
      { intros ->. pose proof (H1 h) as E. pose proof (Hsusp h) as E2. rewrite w1_self in E2.
        pose proof (susp_le1 h s).
        assert (w1 h me = 0) by (unfold w1; destruct (fc_eqb_spec me h); [congruence|reflexivity]).
        rewrite wfl_self, !Hcnt in E. destruct cl0; lia. }
      assert (Hks : 0 < susp k s').
      { rewrite <- (H1 k), !Hcnt. destruct cl0; lia. }
      apply susp_pos in Hks. destruct Hks as [kx [Hk1 [Hk2 Hk3]]].
      rewrite Hnth in Hk1.
      destruct (Nat.eqb_spec (fc_ctx k) (fc_ctx h)) as [E1|E1].
      { injection Hk1 as <-. discriminate. }
      destruct (Nat.eqb_spec (fc_ctx k) c) as [E2|E2].
      { injection Hk1 as <-. exfalso. apply Hmk. unfold me. destruct k; cbn in *. subst. reflexivity. }
      replace (top k s') with (top k s).
      * apply I2. lia.
      * unfold top, frames_of. rewrite Hnth.
        destruct (Nat.eqb_spec (fc_ctx k) (fc_ctx h)); [congruence|].
        destruct (Nat.eqb_spec (fc_ctx k) c); [congruence|]. reflexivity.
  - intros v. unfold own. rewrite Hsum by reflexivity. apply I3.
  - intros t' c' Ht. unfold s' in Ht; cbn [s_thr] in Ht. rewrite nth_upd in Ht.
    destruct (Nat.eqb_spec t t') as [<-|Et].
    + destruct (t <? length (s_thr s)); [|discriminate]. injection Ht as <-.
      exists tx'. rewrite Hnth, Nat.eqb_refl. auto.
    + destruct (I4 t' c' Ht) as [x [Hx1 Hx2]]. exists x. split; [|exact Hx2]. rewrite Hnth.
      destruct (Nat.eqb_spec c' (fc_ctx h)) as [->|]; [congruence|].
      destruct (Nat.eqb_spec c' c) as [->|]; [congruence|]. exact Hx1.
  - intros c' x t' Hx Hxs. rewrite Hnth in Hx. unfold s'; cbn [s_thr].
    destruct (Nat.eqb_spec c' (fc_ctx h)) as [->|E1].
    + injection Hx as <-. cbn in Hxs. injection Hxs as <-.
      exact (nth_upd_eq _ _ _ _ (I5 c cx t Hc ltac:(assumption))).
    + destruct (Nat.eqb_spec c' c) as [->|E2].
      * injection Hx as <-. discriminate.
      * pose proof (I5 c' x t' Hx Hxs). rewrite nth_upd_ne; auto.
        intros <-. pose proof (I5 c cx t Hc Hst). congruence.
  - intros c' x Hx. rewrite Hnth in Hx.
    destruct (Nat.eqb_spec c' (fc_ctx h)) as [->|E1].
    + injection Hx as <-. pose proof (I6 _ _ Htx) as Hsh. unfold shape in *. rewrite Hts in Hsh.
      cbn [tx' cx_status cx_frames]. rewrite Nat.eqb_refl. exact Hsh.
    + destruct (Nat.eqb_spec c' c) as [->|E2].
      * injection Hx as <-. pose proof (I6 _ _ Hc) as Hsh. unfold shape in *. rewrite Hst in Hsh.
        cbn [cx' cx_status cx_frames]. rewrite Nat.eqb_refl in Hsh. exact Hsh.
      * pose proof (I6 _ _ Hx) as Hsh. unfold shape in *. destruct (cx_status x) eqn:Ex; auto.
  - intros d. unfold exits. rewrite Hsum by reflexivity. specialize (I7 d). unfold exits in I7. rewrite I7.
    unfold dying. rewrite Hnth. destruct (Nat.eqb_spec d (fc_ctx h)) as [->|E1].
    + rewrite Htx, Hts. reflexivity.
    + destruct (Nat.eqb_spec d c) as [->|E2]; [|reflexivity]. rewrite Hc, Hst. reflexivity.
Qed.

(** what every step must satisfy *)
Definition good (o : outcome) : Prop :=
  match o with Next s' => SInv s' | UB => False | _ => True end.

Ltac fold_simpl := cbn [s_ctxs s_vars s_thr emit add_var put_var].

Lemma auto_live_app l x v :
  auto_live (nth_error (l ++ [x]) v) =
  auto_live (nth_error l v) + (if Nat.eqb (length l) v then auto_live (Some x) else 0).
Proof.
  destruct (Nat.eqb_spec (length l) v) as [<-|E].
  - rewrite nth_app_last. replace (nth_error l (length l)) with (@None var); [reflexivity|].
    symmetry. apply nth_error_None. lia.
  - destruct (Nat.lt_ge_cases v (length l)).
    + rewrite nth_error_app1 by auto. lia.
    + replace (nth_error (l ++ [x]) v) with (@None var).
      2:{ symmetry; apply nth_error_None. rewrite app_length; cbn; lia. }
      replace (nth_error l v) with (@None var); [reflexivity|]. symmetry; apply nth_error_None; lia.
Qed.

Definition flr (r : hopt) : option (cls * fctx) := match r with Some h => Some (CR, h) | None => None end.
Definition fle (e : exn) : option (cls * fctx) := match e with EForced h => Some (CD, h) | EUser _ => None end.

Lemma wfl_flr cl k r : wfl cl k (flr r) = match cl with CR => wh k r | _ => 0 end.
Proof. destruct r, cl; reflexivity. Qed.
Lemma wfl_fle cl k e : wfl cl k (fle e) = match cl with CD => we k e | _ => 0 end.
Proof. destruct e, cl; reflexivity. Qed.

(** unfold all counts on explicit frame lists *)
Ltac counts :=
  intros; unfold wfs_, wofs, wexs, wobs;
  repeat (rewrite ?sumf_app, ?auto_live_app, ?wfl_flr, ?wfl_fle; cbn [sumf wfr wof wobs wex wvar wfl wh we woe wob wpe uf_mode uf_objs uf_caught uf_kind
       set_mode set_objs set_caught auto_live s_vars emit add_var put_var]); unfold wobs in *.

Lemma wfs_cons main f g r : wfs main (f :: g :: r) <-> below f g /\ wfs main (g :: r).
Proof. reflexivity. Qed.

Lemma wfs_set_fu main f f' r :
  uf_kind f' = uf_kind f -> fok f' -> wfs main (FU f :: r) -> wfs main (FU f' :: r).
Proof.
  intros Hk Hf. destruct r as [|g r]; cbn [wfs bottom below]; rewrite Hk; tauto.
Qed.

Lemma shape_run t cx fs :
  cx_status cx = SRun t -> wfs (is_main cx) fs -> top_ok active fs -> shape None (set_frames cx fs).
Proof. intros H1 H2 H3. unfold shape. cbn [set_frames cx_status cx_frames]. rewrite H1. auto. Qed.

Lemma shape_wait t cx fs :
  cx_status cx = SRun t -> wfs (is_main cx) fs -> top_ok waiting fs -> shape (Some t) (set_frames cx fs).
Proof.
  intros H1 H2 H3. unfold shape. cbn [set_frames cx_status cx_frames]. rewrite H1, Nat.eqb_refl. auto.
Qed.

Lemma inv_wfs s fl ol w pe c cx t :
  Inv s fl ol w pe -> nth_error (s_ctxs s) c = Some cx -> cx_status cx = SRun t -> wfs (is_main cx) (cx_frames cx).
Proof. intros I Hc Ht. pose proof (i_shape _ _ _ _ _ I c cx Hc) as H. unfold shape in H. rewrite Ht in H. tauto. Qed.

Lemma put_frames_thr s c fs : s_thr (put_frames s c fs) = s_thr s.
Proof. unfold put_frames. destruct (nth_error (s_ctxs s) c); reflexivity. Qed.
Lemma put_frames_vars s c fs : s_vars (put_frames s c fs) = s_vars s.
Proof. unfold put_frames. destruct (nth_error (s_ctxs s) c); reflexivity. Qed.
Lemma put_frames_ctxs s c fs cx : nth_error (s_ctxs s) c = Some cx ->
  s_ctxs (put_frames s c fs) = upd (s_ctxs s) c (set_frames cx fs).
Proof. intros H. unfold put_frames. rewrite H. reflexivity. Qed.

(** returning into a suspended call *)
Lemma deliver_inv s t c cx r :
  Inv s (flr r) [] (Some t) None ->
  nth_error (s_ctxs s) c = Some cx -> cx_status cx = SRun t ->
  (r <> None -> hd_error (cx_frames cx) <> Some FDtor) ->
  good (deliver s c (cx_frames cx) r).
Proof.
  intros I Hc Ht Hd.
  pose proof (i_shape _ _ _ _ _ I c cx Hc) as Hsh. unfold shape in Hsh. rewrite Ht, Nat.eqb_refl in Hsh.
  destruct Hsh as [Hwf Htop].
  assert (Huser : forall f0 f rest, cx_frames cx = f0 :: FU f :: rest -> below f0 (FU f) -> uf_mode f = MRun ->
     match f0 with FCreate | FResume | FResumeW _ => True | _ => False end ->
     SInv (put_frames (emit (emit (add_var s (VLive false r)) (EvResumed c r)) (EvCtor (OnCtx c) (OFib (length (s_vars s)))))
             c (FU (set_objs f (OFib (length (s_vars s)) :: uf_objs f)) :: rest))).
  { intros f0 f rest Hfs Hb Hm W1. rewrite Hfs in Hwf. destruct Hwf as [_ Hwf].
    eapply (inv_local s _ t c cx _ (flr r) [] (Some t) None None [] None None I Hc Ht).
    - rewrite (put_frames_ctxs _ c _ cx) by exact Hc. reflexivity.
    - rewrite put_frames_thr. reflexivity.
    - rewrite Hfs, put_frames_vars. counts. destruct f0; try tauto; counts; rewrite ?Hm; cbn; lia.
    - rewrite Hfs, put_frames_vars. counts. destruct f0; try tauto; counts; rewrite ?Hm; cbn; lia.
    - rewrite Hfs. counts. destruct f0; try tauto; counts; rewrite ?Hm; cbn; lia.
    - rewrite Hfs. counts. destruct f0; try tauto; counts; cbn; lia.
    - rewrite Hfs, put_frames_vars. counts. destruct f0; try tauto; counts;
      destruct (length (s_vars s) =? v); cbn; lia.
    - rewrite Hfs. counts. destruct f0; try tauto; counts; lia.
    - intros t' Hne. split; congruence.
    - eapply shape_run; [eassumption| |reflexivity]. apply (wfs_set_fu _ f); [reflexivity| |exact Hwf]; unfold fok; cbn; rewrite ?Hm; exact Logic.I. }
  destruct (cx_frames cx) as [|f0 rest] eqn:Hfs; [destruct Htop|].
  cbn [top_ok] in Htop. cbn [deliver].
  destruct f0; try discriminate Htop.
  - (* FCreate *) destruct rest as [|[f| | | | | | | | | |] rest]; cbn in Hwf; try tauto.
    destruct Hwf as [Hb Hwf']. cbn [good]. eapply Huser; eauto; exact Logic.I.
  - destruct rest as [|[f| | | | | | | | | |] rest]; cbn in Hwf; try tauto.
    destruct Hwf as [Hb Hwf']. cbn [good]. eapply Huser; eauto; exact Logic.I.
  - destruct rest as [|[f| | | | | | | | | |] rest]; cbn in Hwf; try tauto.
    destruct Hwf as [Hb Hwf']. cbn [good]. eapply Huser; eauto; exact Logic.I.
  - (* FDtor *) destruct r as [h|]; [exfalso; apply Hd; [discriminate|reflexivity]|].
    destruct rest as [|g rest]; cbn in Hwf; [tauto|]. destruct Hwf as [Hb Hwf]. cbn [good].
    eapply (inv_local s _ t c cx _ None [] (Some t) None None [] None None I Hc Ht).
    + rewrite (put_frames_ctxs _ c _ cx) by exact Hc. reflexivity.
    + rewrite put_frames_thr. reflexivity.
    + rewrite Hfs, put_frames_vars. counts. lia.
    + rewrite Hfs, put_frames_vars. counts. lia.
    + rewrite Hfs. counts. lia.
    + rewrite Hfs. counts. lia.
    + rewrite Hfs, put_frames_vars. counts. lia.
    + rewrite Hfs. counts. lia.
    + intros t' Hne. split; congruence.
    + eapply shape_run; eauto. destruct g; cbn in Hb; try tauto; reflexivity.
  - (* FEntry1 *) destruct rest as [|g rest]; cbn in Hwf; [|tauto]. cbn [good].
    eapply (inv_local s _ t c cx _ (flr r) [] (Some t) None None [] None None I Hc Ht).
    + rewrite (put_frames_ctxs _ c _ cx) by exact Hc. reflexivity.
    + rewrite put_frames_thr. reflexivity.
    + rewrite Hfs, put_frames_vars. counts. lia.
    + rewrite Hfs, put_frames_vars. counts. lia.
    + rewrite Hfs. counts. lia.
    + rewrite Hfs. counts. lia.
    + rewrite Hfs, put_frames_vars. counts.
      destruct (length (s_vars s) =? v); cbn; lia.
    + rewrite Hfs. counts. lia.
    + intros t' Hne. split; congruence.
    + eapply shape_run; [eassumption| |reflexivity]. cbn. auto.
Qed.

(** throwing out of a suspended call *)
Lemma raise_inv s t c cx e fs :
  Inv s (fle e) [] (Some t) None ->
  nth_error (s_ctxs s) c = Some cx -> cx_status cx = SRun t -> cx_frames cx = fs ->
  good (raise s c fs e).
Proof.
  intros I Hc Ht Hfs.
  pose proof (i_shape _ _ _ _ _ I c cx Hc) as Hsh. unfold shape in Hsh. rewrite Ht, Nat.eqb_refl, Hfs in Hsh.
  destruct Hsh as [Hwf Htop].
  assert (Huser : forall f0 f rest, fs = f0 :: FU f :: rest -> uf_mode f = MRun ->
     match f0 with FCreate | FResume | FResumeW _ => True | _ => False end ->
     SInv (put_frames (emit s (EvRaised c e)) c (FU (set_mode f (MLand e)) :: rest))).
  { intros f0 f rest Hfs' Hm W1. rewrite Hfs' in *. destruct Hwf as [_ Hwf].
    eapply (inv_local s _ t c cx _ (fle e) [] (Some t) None None [] None None I Hc Ht).
    - rewrite (put_frames_ctxs _ c _ cx) by exact Hc. reflexivity.
    - rewrite put_frames_thr. reflexivity.
    - rewrite Hfs, put_frames_vars. counts. destruct f0; try tauto; counts; rewrite ?Hm; cbn; lia.
    - rewrite Hfs, put_frames_vars. counts. destruct f0; try tauto; counts; rewrite ?Hm; cbn; lia.
    - rewrite Hfs. counts. destruct f0; try tauto; counts; rewrite ?Hm; cbn; lia.
    - rewrite Hfs. counts. destruct f0; try tauto; counts; cbn; lia.
    - rewrite Hfs, put_frames_vars. counts. destruct f0; try tauto; counts; lia.
    - rewrite Hfs. counts. destruct f0; try tauto; counts; lia.
    - intros t' Hne. split; congruence.
    - eapply shape_run; [eassumption| |reflexivity]. apply (wfs_set_fu _ f); [reflexivity| |exact Hwf]; unfold fok; cbn; rewrite ?Hm; exact Logic.I. }
  destruct fs as [|f0 rest]; [destruct Htop|].
  cbn [top_ok] in Htop. cbn [raise].
  destruct f0; try discriminate Htop.
  - destruct rest as [|[f| | | | | | | | | |] rest]; cbn in Hwf; try tauto.
    destruct Hwf as [Hb Hwf']. cbn [good]. eapply Huser; eauto; exact Logic.I.
  - destruct rest as [|[f| | | | | | | | | |] rest]; cbn in Hwf; try tauto.
    destruct Hwf as [Hb Hwf']. cbn [good]. eapply Huser; eauto; exact Logic.I.
  - destruct rest as [|[f| | | | | | | | | |] rest]; cbn in Hwf; try tauto.
    destruct Hwf as [Hb Hwf']. cbn [good]. eapply Huser; eauto; exact Logic.I.
  - exact Logic.I.
  - (* FEntry1 *) destruct e as [e|h]; [exact Logic.I|].
    destruct rest as [|g rest]; cbn in Hwf; [|tauto]. cbn [good].
    eapply (inv_local s _ t c cx _ (fle (EForced h)) [] (Some t) None None [] None None I Hc Ht).
    + rewrite (put_frames_ctxs _ c _ cx) by exact Hc. reflexivity.
    + rewrite put_frames_thr. reflexivity.
    + rewrite Hfs, put_frames_vars. counts. lia.
    + rewrite Hfs, put_frames_vars. counts. lia.
    + rewrite Hfs. counts. lia.
    + rewrite Hfs. counts. lia.
    + rewrite Hfs, put_frames_vars. counts. lia.
    + rewrite Hfs. counts. lia.
    + intros t' Hne. split; congruence.
    + eapply shape_run; eauto; reflexivity.
Qed.

(* ------------------------------------------------------------------ the three kinds of switches *)

Lemma jump_inv s t c fs h cl cx :
  Inv (put_frames s c fs) (Some (cl, h)) [] (Some t) None ->
  nth_error (s_ctxs (put_frames s c fs)) c = Some cx -> cx_status cx = SRun t -> cx_frames cx = fs ->
  compat CR (hd_error fs) = true -> cl = CR \/ cl = CC ->
  good (do_jump s t c fs h).
Proof.
  intros I Hc Ht Hfs Htop Hcl. unfold do_jump.
  destruct (inv_switch _ t c cx cl h CR [] SwJump I Hc Ht ltac:(rewrite Hfs; exact Htop))
    as [s' [me [tx [tx' [Hsw [Htx [Hco [Htx' [Hf' [Hs' [_ I']]]]]]]]]]].
  rewrite Hsw. unfold frames_of. rewrite Htx'.
  eapply (deliver_inv s' t (fc_ctx h) tx' (Some me)); eauto.
  rewrite Hf'. intros _ E. rewrite E in Hco. destruct Hcl as [-> | ->]; discriminate.
Qed.

Lemma unwind_inv s t c fs h cl cx :
  Inv (put_frames s c fs) (Some (cl, h)) [] (Some t) None ->
  nth_error (s_ctxs (put_frames s c fs)) c = Some cx -> cx_status cx = SRun t -> cx_frames cx = fs ->
  compat CD (hd_error fs) = true ->
  good (do_unwind s t c fs h).
Proof.
  intros I Hc Ht Hfs Htop. unfold do_unwind.
  destruct (inv_switch _ t c cx cl h CD [] SwUnwind I Hc Ht ltac:(rewrite Hfs; exact Htop))
    as [s' [me [tx [tx' [Hsw [Htx [Hco [Htx' [Hf' [Hs' [_ I']]]]]]]]]]].
  rewrite Hsw. unfold frames_of. rewrite Htx'.
  eapply (raise_inv s' t (fc_ctx h) tx' (EForced me)); eauto.
Qed.

Lemma ontop_inv s t c fs h g cx :
  Inv (put_frames s c fs) (Some (CR, h)) [] (Some t) None ->
  nth_error (s_ctxs (put_frames s c fs)) c = Some cx -> cx_status cx = SRun t -> cx_frames cx = fs ->
  compat CR (hd_error fs) = true ->
  good (do_ontop s t c fs h g).
Proof.
  intros I Hc Ht Hfs Htop. unfold do_ontop.
  destruct (inv_switch _ t c cx CR h CR [] (SwOntop g) I Hc Ht ltac:(rewrite Hfs; exact Htop))
    as [s' [me [tx [tx' [Hsw [Htx [Hco [Htx' [Hf' [Hs' [_ I']]]]]]]]]]].
  rewrite Hsw. cbv zeta. unfold frames_of. rewrite Htx'. cbn [good].
  pose proof (inv_wfs _ _ _ _ _ _ _ _ I' Htx' Hs') as Hwf.
  eapply (inv_local s' _ t (fc_ctx h) tx' _ (Some (CR, me)) [] (Some t) None None [] None None I' Htx' Hs').
  - rewrite (put_frames_ctxs _ _ _ tx') by exact Htx'. reflexivity.
  - rewrite put_frames_thr. reflexivity.
  - rewrite put_frames_vars. counts. lia.
  - rewrite put_frames_vars. counts. lia.
  - counts. lia.
  - counts. lia.
  - rewrite put_frames_vars. counts.
    destruct (length (s_vars s') =? v); cbn; lia.
  - counts. lia.
  - intros t' Hne. split; congruence.
  - eapply shape_run; [eassumption| |reflexivity].
    cbn [wfs below uf_kind]. split; [split; [exact Logic.I|reflexivity]|].
    rewrite Hf' in *. destruct (cx_frames tx) as [|f0 r]; [destruct Hwf|]. split; [exact Hco|exact Hwf].
Qed.

(** leaving a context for good *)
Lemma exit_inv s t c cx h :
  SInv s -> nth_error (s_ctxs s) c = Some cx -> cx_status cx = SRun t ->
  cx_frames cx = [FEntry3 (Some h)] ->
  good (do_exit s t c h).
Proof.
  intros I Hc Ht Hfs.
  assert (Hcx : 0 < cnt CX h s).
  { unfold cnt. pose proof (sumf_le (wcx CX h) _ _ _ Hc) as H. unfold wcx in H at 1. rewrite Hfs in H. unfold wfs_ in H.
    cbn in H. rewrite w1_self in H. lia. }
  assert (Hs1 : 0 < susp h s) by (rewrite <- (i_cnt _ _ _ _ _ I h); lia).
  pose proof (i_top _ _ _ _ _ I CX h ltac:(lia)) as Hco.
  apply susp_pos in Hs1. destruct Hs1 as [tx [Htx [Hts Htv]]].
  unfold top, frames_of in Hco. rewrite Htx in Hco.
  assert (Hne : c <> fc_ctx h) by (intros ->; congruence).
  pose proof (i_shape _ _ _ _ _ I c cx Hc) as Hshc. unfold shape in Hshc. rewrite Ht, Hfs in Hshc.
  destruct Hshc as [Hbot _]. cbn in Hbot.
  pose proof (i_shape _ _ _ _ _ I _ _ Htx) as Hsht. unfold shape in Hsht. rewrite Hts in Hsht.
  unfold do_exit.
  set (cx0 := set_frames cx []).
  assert (Hc0 : nth_error (s_ctxs (put_frames s c [])) c = Some cx0).
  { rewrite (put_frames_ctxs _ _ _ cx Hc). eapply nth_upd_eq; eauto. }
  assert (Htx0 : nth_error (s_ctxs (put_frames s c [])) (fc_ctx h) = Some tx).
  { rewrite (put_frames_ctxs _ _ _ cx Hc). rewrite nth_upd_ne; auto. }
  unfold switch. rewrite Hc0, Htx0, Hts, Htv, Nat.eqb_refl.
  cbv zeta. cbn [cx0 set_frames cx_frames cx_ver cx_alloc cx_caps].
  set (dx := mk_cx [] SDying (S (cx_ver cx)) (cx_alloc cx) (cx_caps cx)).
  set (tx1 := mk_cx (cx_frames tx) (SRun t) (fc_ver h) (cx_alloc tx) (cx_caps tx)).
  unfold frames_of; cbn [s_ctxs].
  rewrite (put_frames_ctxs s c [] cx Hc).
  assert (Huu : forall x y, upd (upd (s_ctxs s) c x) c y = upd (s_ctxs s) c y).
  { intros x y. clear. revert c; induction (s_ctxs s) as [|z l IH]; intros [|k]; cbn; auto. now rewrite IH. }
  rewrite Huu.
  assert (Htx1 : nth_error (upd (s_ctxs s) c dx) (fc_ctx h) = Some tx) by (rewrite nth_upd_ne; auto).
  rewrite (nth_upd_eq _ _ tx1 _ Htx1). cbn [tx1 cx_frames].
  set (s1 := mk_s (upd (upd (s_ctxs s) c dx) (fc_ctx h) tx1) _ _ _ _).
  assert (Hn1 : nth_error (s_ctxs s1) (fc_ctx h) = Some tx1) by (unfold s1; cbn [s_ctxs]; eapply nth_upd_eq; eauto).
  cbn [good].
  set (tx' := set_frames tx1 (FExit c :: cx_frames tx)).
  assert (Hctxs : s_ctxs (put_frames s1 (fc_ctx h) (FExit c :: cx_frames tx)) = upd (upd (s_ctxs s) c dx) (fc_ctx h) tx').
  { rewrite (put_frames_ctxs _ _ _ tx1 Hn1). unfold s1, tx'; cbn [s_ctxs].
    clear. generalize (upd (s_ctxs s) c dx). intros l. generalize (fc_ctx h). intros n. revert n.
    induction l as [|z l IH]; intros [|n]; cbn; auto. now rewrite IH. }
  set (s' := put_frames s1 (fc_ctx h) (FExit c :: cx_frames tx)) in *.
  assert (Hvars : s_vars s' = s_vars s).
  { unfold s'. rewrite put_frames_vars. unfold s1; cbn [s_vars]. apply put_frames_vars. }
  assert (Hthr : s_thr s' = upd (s_thr s) t (fc_ctx h)).
  { unfold s'. rewrite put_frames_thr. unfold s1; cbn [s_thr]. now rewrite put_frames_thr. }
  assert (Hsum : forall f : ctx -> nat, sumf f (s_ctxs s') + f cx + f tx = sumf f (s_ctxs s) + f dx + f tx').
  { intros f. rewrite Hctxs. pose proof (sumf_upd f _ c dx cx Hc). pose proof (sumf_upd f _ (fc_ctx h) tx' tx Htx1). lia. }
  assert (Hnth : forall d, nth_error (s_ctxs s') d =
            if Nat.eqb d (fc_ctx h) then Some tx' else if Nat.eqb d c then Some dx else nth_error (s_ctxs s) d).
  { intros d. rewrite Hctxs. destruct (Nat.eqb_spec d (fc_ctx h)) as [->|E1].
    - eapply nth_upd_eq; eauto.
    - rewrite nth_upd_ne by auto. destruct (Nat.eqb_spec d c) as [->|E2].
      + eapply nth_upd_eq; eauto.
      + rewrite nth_upd_ne; auto. }
  assert (Hcnt : forall cl k, cnt cl k s' + (match cl with CX => w1 k h | _ => 0 end) = cnt cl k s).
  { intros cl k. unfold cnt. rewrite Hvars. 
    assert (E : sumf (wcx cl k) (s_ctxs s') + wfs_ cl k (cx_frames cx) + wfs_ cl k (cx_frames tx)
              = sumf (wcx cl k) (s_ctxs s) + wfs_ cl k [] + wfs_ cl k (FExit c :: cx_frames tx)) by exact (Hsum (wcx cl k)).
    rewrite Hfs in E. unfold wfs_ in E.
    destruct cl; cbn [wfr wh sumf] in E; lia. }
  assert (Hsusp : forall k, susp k s' + w1 k h = susp k s).
  { intros k. unfold susp. rewrite Hnth.
    destruct (Nat.eqb_spec (fc_ctx k) (fc_ctx h)) as [E1|E1].
    - rewrite E1, Htx, Hts. cbn. unfold w1. destruct (fc_eqb_spec h k) as [<-|Hhk].
      + rewrite Htv, Nat.eqb_refl. reflexivity.
      + destruct (Nat.eqb_spec (cx_ver tx) (fc_ver k)) as [E2|E2]; [|reflexivity].
        exfalso. apply Hhk. destruct h, k; cbn in *. congruence.
    - unfold w1. destruct (fc_eqb_spec h k) as [Ehk|_]; [subst k; congruence|].
      destruct (Nat.eqb_spec (fc_ctx k) c) as [E2|E2].
      + rewrite E2, Hc, Ht. reflexivity.
      + cbn. lia. }
  destruct I as [I1 I2 I3 I4 I5 I6 I7].
  constructor.
  - intros k. pose proof (I1 k) as E. pose proof (Hsusp k) as E1.
    pose proof (Hcnt CR k). pose proof (Hcnt CD k). pose proof (Hcnt CC k). pose proof (Hcnt CX k).
    cbn [wfl] in *. lia.
  - intros cl k Hp. cbn [wfl] in Hp. pose proof (Hcnt cl k) as E.
    assert (Hkh : k <> h).
    { intros ->. pose proof (Hsusp h). rewrite w1_self in *. pose proof (susp_le1 h s). pose proof (I1 h) as E3.
      pose proof (Hcnt CR h). pose proof (Hcnt CD h). pose proof (Hcnt CC h). pose proof (Hcnt CX h).
      cbn [wfl] in E3. rewrite w1_self in *. destruct cl; lia. }
    assert (Hks : 0 < susp k s).
    { pose proof (I1 k) as E3. cbn [wfl] in E3. destruct cl; lia. }
    apply susp_pos in Hks. destruct Hks as [kx [Hk1 [Hk2 Hk3]]].
    replace (top k s') with (top k s).
    + apply I2. cbn [wfl]. destruct cl; lia.
    + unfold top, frames_of. rewrite Hnth.
      destruct (Nat.eqb_spec (fc_ctx k) (fc_ctx h)) as [E1|E1].
      * exfalso. apply Hkh. rewrite E1, Htx in Hk1. injection Hk1 as <-. destruct k, h; cbn in *; congruence.
      * destruct (Nat.eqb_spec (fc_ctx k) c) as [E2|E2]; [|reflexivity].
        rewrite E2, Hc in Hk1. congruence.
  - intros v. specialize (I3 v). unfold own in *. rewrite Hvars, <- I3. cbn [sumf].
    
    assert (E : sumf (wocx v) (s_ctxs s') + (wofs v (cx_frames cx) + wobs v (cx_caps cx)) + (wofs v (cx_frames tx) + wobs v (cx_caps tx))
              = sumf (wocx v) (s_ctxs s) + (wofs v [] + wobs v (cx_caps cx)) + (wofs v (FExit c :: cx_frames tx) + wobs v (cx_caps tx)))
      by exact (Hsum (wocx v)).
    rewrite Hfs in E. unfold wofs in E. cbn [sumf wof] in E. lia.
  - intros t' c' Ht'. rewrite Hthr, nth_upd in Ht'.
    destruct (Nat.eqb_spec t t') as [<-|Et].
    + destruct (t <? length (s_thr s)); [|discriminate]. injection Ht' as <-.
      exists tx'. rewrite Hnth, Nat.eqb_refl. auto.
    + destruct (I4 t' c' Ht') as [x [Hx1 Hx2]]. exists x. split; [|exact Hx2]. rewrite Hnth.
      destruct (Nat.eqb_spec c' (fc_ctx h)) as [->|]; [congruence|].
      destruct (Nat.eqb_spec c' c) as [->|]; [congruence|]. exact Hx1.
  - intros c' x t' Hx Hxs. rewrite Hnth in Hx. rewrite Hthr.
    destruct (Nat.eqb_spec c' (fc_ctx h)) as [->|E1].
    + injection Hx as <-. cbn in Hxs. injection Hxs as <-.
      exact (nth_upd_eq _ _ _ _ (I5 c cx t Hc ltac:(assumption))).
    + destruct (Nat.eqb_spec c' c) as [->|E2].
      * injection Hx as <-. discriminate.
      * pose proof (I5 c' x t' Hx Hxs). rewrite nth_upd_ne; auto.
        intros <-. pose proof (I5 c cx t Hc Ht). congruence.
  - intros c' x Hx. rewrite Hnth in Hx.
    destruct (Nat.eqb_spec c' (fc_ctx h)) as [->|E1].
    + injection Hx as <-. unfold shape. cbn [tx' tx1 set_frames cx_status cx_frames].
      split; [|reflexivity]. destruct Hsht as [Hwf _].
      change (is_main tx') with (is_main tx). destruct (cx_frames tx) as [|f0 r] eqn:Ef; [destruct Hwf|].
      rewrite wfs_cons. split; [|exact Hwf]. cbn [hd_error compat] in Hco. cbn [below].
      destruct f0; try discriminate; auto.
    + destruct (Nat.eqb_spec c' c) as [->|E2].
      * injection Hx as <-. unfold shape. cbn [dx cx_status cx_frames]. split; [reflexivity|exact Hbot].
      * pose proof (I6 _ _ Hx) as Hsh. exact Hsh.
  - intros d. specialize (I7 d). cbn [wpe] in *. unfold exits in *.
    
    assert (E : sumf (wexcx d) (s_ctxs s') + wexs d (cx_frames cx) + wexs d (cx_frames tx)
              = sumf (wexcx d) (s_ctxs s) + wexs d [] + wexs d (FExit c :: cx_frames tx)) by exact (Hsum (wexcx d)).
    rewrite Hfs in E. unfold wexs in E. cbn [sumf wex] in E.
    assert (Hdy : dying d s' = dying d s + b2n (c =? d)).
    { unfold dying. rewrite Hnth. destruct (Nat.eqb_spec d (fc_ctx h)) as [->|E1].
      - rewrite Htx, Hts. cbn. destruct (Nat.eqb_spec c (fc_ctx h)); [congruence|reflexivity].
      - destruct (Nat.eqb_spec d c) as [->|E2].
        + rewrite Hc, Ht. cbn. rewrite Nat.eqb_refl. reflexivity.
        + destruct (Nat.eqb_spec c d); [congruence|]. cbn. lia. }
    lia.
Qed.
