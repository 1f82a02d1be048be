(** Every transition of the fiber machine is a sequence of micro-steps: a rewrite of the frames of
    the running context with the events it emits, a switch, a creation, a release. Trace
    properties are proved micro-step by micro-step. This file is proof machinery only: no
    statement of a property mentions it. *)
From Coq Require Import List Arith Bool Lia.
From Verif Require Import ListUtil Fiber FiberInv FiberInv2 FiberInv3.
Import ListNotations.

Definition userwait (f : frame) : bool := match f with FCreate | FResume | FResumeW _ => true | _ => false end.

(** a suspended call of c returns with t.fctx = r: what happens to the frames, and the events *)
Inductive dl (c : nat) (r : hopt) : list frame -> list frame -> list event -> Prop :=
| DL_user w f rest v (Hw : userwait w = true) (Hm : uf_mode f = MRun) :
    dl c r (w :: FU f :: rest) (FU (set_objs f (OFib v :: uf_objs f)) :: rest) [EvCtor (OnCtx c) (OFib v); EvResumed c r]
| DL_dtor rest (Hok : dtor_ok rest) : dl c r (FDtor :: rest) rest [EvDestroyed c]
| DL_enter rest v :
    dl c r (FEntry1 :: rest) (FU (mk_uf KCtx [OFib v] MRun None) :: FEntry2 :: rest) [EvCtor (OnCtx c) (OFib v); EvEnter c r].
Definition hd_usr (u : nat) (tr : list event) : Prop :=
  match tr with EvDtor _ (OUsr u') :: _ => u' = u | _ => False end.
Definition forced (e : option exn) : bool := match e with Some (EForced _) => true | _ => false end.

(** changes of the control state of a user frame *)
Inductive mrule : mode -> option exn -> mode -> option exn -> Prop :=
| m_ret x r : forced x = false -> mrule MRun x (MRet r) None
| m_rethrow e : mrule MRun (Some e) (MUnw e) None
| m_endcatch e : mrule MRun (Some (EUser e)) MRun None
| m_catch e : mrule (MLand e) None MRun (Some e)
| m_prop e x : forced x = false -> mrule (MLand e) x (MUnw e) None.

Definition leaving (f : uframe) (m : mode) : Prop := uf_mode f = m /\ uf_objs f = [] /\ uf_caught f = None.

Inductive lrule (c : nat) (tr : list event) : list frame -> list frame -> list event -> Prop :=
| R_nop fs : lrule c tr fs fs []
| R_ontop_raised f0 g w f rest e (Hw : userwait w = true) (Hrs : resumable_frame w = true) (Hm : uf_mode f = MRun)
    (Hk : uf_kind f0 = KOntop g) (Hl : leaving f0 (MUnw e)) :
    lrule c tr (FU f0 :: FOntop :: w :: FU f :: rest) (FU (set_mode f (MLand e)) :: rest) [EvRaised c e; EvOntopExn c g e]
| R_ontop_raise_entry f0 g rest h (Hk : uf_kind f0 = KOntop g) (Hl : leaving f0 (MUnw (EForced h))) :
    lrule c tr (FU f0 :: FOntop :: FEntry1 :: rest) (FEntry3 (Some h) :: rest) [EvDone c (Some h); EvOntopExn c g (EForced h)]
| R_fn_raise f0 rest h (Hk : uf_kind f0 = KCtx) (Hl : leaving f0 (MUnw (EForced h))) :
    lrule c tr (FU f0 :: FEntry2 :: rest) (FEntry3 (Some h) :: rest) [EvDone c (Some h)]
| R_ret_pop f0 rest (Hk : uf_kind f0 = KPlain \/ exists u, uf_kind f0 = KDtor u) (Hl : leaving f0 (MRet None)) :
    lrule c tr (FU f0 :: rest) rest []
| R_ret_ontop f0 g w rest r fs' es (Hk : uf_kind f0 = KOntop g) (Hl : leaving f0 (MRet r)) (Hrs : resumable_frame w = true)
    (HD : dl c r (w :: rest) fs' es) :
    lrule c tr (FU f0 :: FOntop :: w :: rest) fs' (es ++ [EvOntopRet c g r])
| R_exn_plain f0 g rest e (Hk : uf_kind f0 = KPlain) (Hm : uf_mode g = MRun) (Hl : leaving f0 (MUnw e)) :
    lrule c tr (FU f0 :: FU g :: rest) (FU (set_mode g (MLand e)) :: rest) []
| R_pop f o l rest (Ho : uf_objs f = o :: l) (Hm : forall e, uf_mode f <> MLand e) :
    lrule c tr (FU f :: rest) (FU (set_objs f l) :: rest) [EvDtor (OnCtx c) o]
| R_push_dtor u fs (Hu : hd_usr u tr) (Hok : dtor_ok fs) : lrule c tr fs (FU (mk_uf (KDtor u) [] MRun None) :: fs) []
| R_heap_dtor v f rest (Hm : uf_mode f = MRun) : lrule c tr (FU f :: rest) (FU f :: rest) [EvDtor OnHeap (OFib v)]
| R_new f o rest (Hm : uf_mode f = MRun) :
    lrule c tr (FU f :: rest) (FU (set_objs f (o :: uf_objs f)) :: rest) [EvCtor (OnCtx c) o]
| R_newheap v f rest (Hm : uf_mode f = MRun) : lrule c tr (FU f :: rest) (FU f :: rest) [EvCtor OnHeap (OFib v)]
| R_call f rest (Hm : uf_mode f = MRun) : lrule c tr (FU f :: rest) (FU (mk_uf KPlain [] MRun None) :: FU f :: rest) []
| R_badalloc f rest (Hm : uf_mode f = MRun) :
    lrule c tr (FU f :: rest) (FU (set_mode f (MLand (EUser 0))) :: rest) [EvThrow c 0]
| R_throw f e rest (Hm : uf_mode f = MRun) (Hf : forced (uf_caught f) = false) :
    lrule c tr (FU f :: rest) (FU (set_caught f None (MUnw (EUser e))) :: rest) [EvThrow c e]
| R_mode f m x rest (Hr : mrule (uf_mode f) (uf_caught f) m x) (Hfok : fok (set_caught f x m)) :
    lrule c tr (FU f :: rest) (FU (set_caught f x m) :: rest) [].

(** which objects may be constructed: only new ones *)
Definition fresh_obj (nv nu : nat) (o : obj) : Prop :=
  match o with OFib v => nv <= v | OUsr u => nu <= u end.
Definition old_obj (nv nu : nat) (o : obj) : Prop :=
  match o with OFib v => v < nv | OUsr u => u < nu end.
Fixpoint ctors (es : list event) : list obj :=
  match es with EvCtor _ o :: r => o :: ctors r | _ :: r => ctors r | [] => [] end.
Definition fresh_ok (s s' : state) (es : list event) : Prop :=
  length (s_vars s) <= length (s_vars s') /\ s_nusr s <= s_nusr s' /\ NoDup (ctors es) /\
  forall o, In o (ctors es) -> fresh_obj (length (s_vars s)) (s_nusr s) o /\ old_obj (length (s_vars s')) (s_nusr s') o.

(** leaving a context by jump_fcontext to h, whose waiting frame is f1 *)
Inductive leave_jump (h : fctx) (f1 : frame) : list frame -> list frame -> Prop :=
| LJ_resume f rest : uf_mode f = MRun -> resumable_frame f1 = true -> leave_jump h f1 (FU f :: rest) (FResume :: FU f :: rest)
| LJ_entry : f1 = FCreate -> leave_jump h f1 [FEntry0 h] [FEntry1].

(** a forced unwind arrives at a suspended call of context c *)
Inductive rrule (c : nat) (h : fctx) : list frame -> list frame -> event -> Prop :=
| RR_call w f rest (Hw : userwait w = true) (Hrs : resumable_frame w = true) (Hm : uf_mode f = MRun) :
    rrule c h (w :: FU f :: rest) (FU (set_mode f (MLand (EForced h))) :: rest) (EvRaised c (EForced h))
| RR_entry rest : rrule c h (FEntry1 :: rest) (FEntry3 (Some h) :: rest) (EvDone c (Some h)).

(** what a handle of a fiber object denotes *)
Definition denotes (s : state) (h : fctx) (cl : cls) : Prop :=
  exists tx f1 r1, nth_error (s_ctxs s) (fc_ctx h) = Some tx /\ cx_status tx = SSusp /\ cx_ver tx = fc_ver h /\
    cx_frames tx = f1 :: r1 /\ compat cl (Some f1) = true /\ wfs (is_main tx) (cx_frames tx).

Inductive mstep (t : nat) : state -> state -> Prop :=
| M_local s s' c cx fs' es
    (Hc : nth_error (s_ctxs s) c = Some cx) (Ht : cx_status cx = SRun t)
    (HL : lrule c (s_tr s) (cx_frames cx) fs' es)
    (Ectx : s_ctxs s' = upd (s_ctxs s) c (set_frames cx fs')) (Ethr : s_thr s' = s_thr s) (Etr : s_tr s' = es ++ s_tr s)
    (Hfr : fresh_ok s s' es) : mstep t s s'
| M_jump s s' c cx fsw h tx f1 r1 fs' es
    (Hc : nth_error (s_ctxs s) c = Some cx) (Ht : cx_status cx = SRun t)
    (HJ : leave_jump h f1 (cx_frames cx) fsw)
    (Htx : nth_error (s_ctxs s) (fc_ctx h) = Some tx) (Hts : cx_status tx = SSusp) (Htv : cx_ver tx = fc_ver h)
    (Htf : cx_frames tx = f1 :: r1)
    (me := mk_fc c (S (cx_ver cx)))
    (HD : dl (fc_ctx h) (Some me) (f1 :: r1) fs' es)
    (Ectx : s_ctxs s' = upd (upd (s_ctxs s) c (mk_cx fsw SSusp (S (cx_ver cx)) (cx_alloc cx) (cx_caps cx)))
                    (fc_ctx h) (mk_cx fs' (SRun t) (cx_ver tx) (cx_alloc tx) (cx_caps tx)))
    (Ethr : s_thr s' = upd (s_thr s) t (fc_ctx h))
    (Etr : s_tr s' = es ++ EvSwitch t c me h SwJump :: s_tr s) (Hfr : fresh_ok s s' es) :
    mstep t s s'
| M_ontop s s' c cx f rest h tx f1 r1 g v
    (Hc : nth_error (s_ctxs s) c = Some cx) (Ht : cx_status cx = SRun t)
    (Hcf : cx_frames cx = FU f :: rest) (Hm : uf_mode f = MRun)
    (Htx : nth_error (s_ctxs s) (fc_ctx h) = Some tx) (Hts : cx_status tx = SSusp) (Htv : cx_ver tx = fc_ver h)
    (Htf : cx_frames tx = f1 :: r1) (Hf1 : resumable_frame f1 = true)
    (me := mk_fc c (S (cx_ver cx)))
    (es := [EvCtor (OnCtx (fc_ctx h)) (OFib v); EvOntop (fc_ctx h) g me])
    (Ectx : s_ctxs s' = upd (upd (s_ctxs s) c (mk_cx (FResumeW g :: FU f :: rest) SSusp (S (cx_ver cx)) (cx_alloc cx) (cx_caps cx)))
                    (fc_ctx h) (mk_cx (FU (mk_uf (KOntop g) [OFib v] MRun None) :: FOntop :: f1 :: r1) (SRun t) (cx_ver tx) (cx_alloc tx) (cx_caps tx)))
    (Ethr : s_thr s' = upd (s_thr s) t (fc_ctx h))
    (Etr : s_tr s' = es ++ EvSwitch t c me h (SwOntop g) :: s_tr s) (Hfr : fresh_ok s s' es) :
    mstep t s s'
| M_unwind s s' c cx h tx fs' ev
    (Hc : nth_error (s_ctxs s) c = Some cx) (Ht : cx_status cx = SRun t) (Hok : dtor_ok (cx_frames cx))
    (Htx : nth_error (s_ctxs s) (fc_ctx h) = Some tx) (Hts : cx_status tx = SSusp) (Htv : cx_ver tx = fc_ver h)
    (me := mk_fc c (S (cx_ver cx)))
    (HR : rrule (fc_ctx h) me (cx_frames tx) fs' ev)
    (Ectx : s_ctxs s' = upd (upd (s_ctxs s) c (mk_cx (FDtor :: cx_frames cx) SSusp (S (cx_ver cx)) (cx_alloc cx) (cx_caps cx)))
                    (fc_ctx h) (mk_cx fs' (SRun t) (cx_ver tx) (cx_alloc tx) (cx_caps tx)))
    (Ethr : s_thr s' = upd (s_thr s) t (fc_ctx h))
    (Etr : s_tr s' = ev :: EvSwitch t c me h SwUnwind :: s_tr s)
    (Evar : length (s_vars s') = length (s_vars s)) (Eusr : s_nusr s' = s_nusr s) :
    mstep t s s'
| M_ret_fn s s' c cx f0 rest r
    (Hc : nth_error (s_ctxs s) c = Some cx) (Ht : cx_status cx = SRun t) (Hcf : cx_frames cx = FU f0 :: FEntry2 :: rest)
    (Hk : uf_kind f0 = KCtx) (Hl : leaving f0 (MRet r))
    (Hden : forall h, r = Some h -> denotes s h CR)
    (Ectx : s_ctxs s' = upd (s_ctxs s) c (set_frames cx (FEntry3 r :: rest))) (Ethr : s_thr s' = s_thr s)
    (Etr : s_tr s' = EvDone c r :: s_tr s) (Evar : s_vars s' = s_vars s) (Eusr : s_nusr s' = s_nusr s) :
    mstep t s s'
| M_exit s s' c cx h tx f1 r1
    (Hc : nth_error (s_ctxs s) c = Some cx) (Ht : cx_status cx = SRun t) (Hcf : cx_frames cx = [FEntry3 (Some h)])
    (Htx : nth_error (s_ctxs s) (fc_ctx h) = Some tx) (Hts : cx_status tx = SSusp) (Htv : cx_ver tx = fc_ver h)
    (Htf : cx_frames tx = f1 :: r1) (Hf1 : resumable_frame f1 = true \/ f1 = FDtor)
    (Ectx : s_ctxs s' = upd (upd (s_ctxs s) c (mk_cx [] SDying (S (cx_ver cx)) (cx_alloc cx) (cx_caps cx)))
                    (fc_ctx h) (mk_cx (FExit c :: cx_frames tx) (SRun t) (cx_ver tx) (cx_alloc tx) (cx_caps tx)))
    (Ethr : s_thr s' = upd (s_thr s) t (fc_ctx h))
    (Etr : s_tr s' = EvSwitch t c (mk_fc c (S (cx_ver cx))) h SwExit :: s_tr s) (Evar : s_vars s' = s_vars s) (Eusr : s_nusr s' = s_nusr s) :
    mstep t s s'
| M_create s s' c cx f rest a caps
    (Hc : nth_error (s_ctxs s) c = Some cx) (Ht : cx_status cx = SRun t) (Hcf : cx_frames cx = FU f :: rest) (Hm : uf_mode f = MRun)
    (d := length (s_ctxs s))
    (me := mk_fc c (S (cx_ver cx)))
    (es := map (EvCtor (OnCtx d)) caps ++ [EvAlloc d a])
    (Ectx : s_ctxs s' = upd (s_ctxs s) c (mk_cx (FCreate :: FU f :: rest) SSusp (S (cx_ver cx)) (cx_alloc cx) (cx_caps cx))
                ++ [mk_cx [FEntry0 me] (SRun t) 0 (Some a) caps])
    (Ethr : s_thr s' = upd (s_thr s) t d)
    (Etr : s_tr s' = EvSwitch t c me (mk_fc d 0) SwCreate :: es ++ s_tr s)
    (Hfr : fresh_ok s s' es) : mstep t s s'
| M_cap s s' c cx d rest dx o l
    (Hc : nth_error (s_ctxs s) c = Some cx) (Ht : cx_status cx = SRun t) (Hcf : cx_frames cx = FExit d :: rest)
    (Hdx : nth_error (s_ctxs s) d = Some dx) (Hds : cx_status dx = SDying) (Hdc : cx_caps dx = o :: l)
    (Ectx : s_ctxs s' = upd (s_ctxs s) d (set_caps dx l)) (Ethr : s_thr s' = s_thr s)
    (Etr : s_tr s' = EvDtor (OnCtx d) o :: s_tr s) (Evar : length (s_vars s') = length (s_vars s)) (Eusr : s_nusr s' = s_nusr s) :
    mstep t s s'
| M_free s s' c cx d rest dx a fs' es
    (Hc : nth_error (s_ctxs s) c = Some cx) (Ht : cx_status cx = SRun t) (Hcf : cx_frames cx = FExit d :: rest)
    (Hdx : nth_error (s_ctxs s) d = Some dx) (Hds : cx_status dx = SDying) (Hdc : cx_caps dx = []) (Hda : cx_alloc dx = Some a)
    (HD : dl c None rest fs' es)
    (Ectx : s_ctxs s' = upd (upd (s_ctxs s) d (mk_cx [] SFreed (cx_ver dx) (cx_alloc dx) [])) c (set_frames cx fs'))
    (Ethr : s_thr s' = s_thr s)
    (Etr : s_tr s' = es ++ EvFree d a c :: EvRecord d :: s_tr s) (Hfr : fresh_ok s s' es) :
    mstep t s s'.

Inductive msteps (t : nat) : state -> state -> Prop :=
| ms_nil s : msteps t s s
| ms_cons s s1 s2 : mstep t s s1 -> msteps t s1 s2 -> msteps t s s2.

Lemma ms_app t s1 s2 s3 : msteps t s1 s2 -> msteps t s2 s3 -> msteps t s1 s3.
Proof. induction 1; intros; auto. econstructor; eauto. Qed.
Lemma ms_one t s1 s2 : mstep t s1 s2 -> msteps t s1 s2.
Proof. intros. econstructor; eauto. constructor. Qed.

(* ------------------------------------------------------------------ building micro-steps *)

Lemma fresh_nil s s' es : length (s_vars s) <= length (s_vars s') -> s_nusr s <= s_nusr s' -> ctors es = [] -> fresh_ok s s' es.
Proof. intros H1 H2 H3. unfold fresh_ok. rewrite H3. repeat split; auto; try constructor; destruct H. Qed.

Lemma fresh_one s s' es o : length (s_vars s) <= length (s_vars s') -> s_nusr s <= s_nusr s' -> ctors es = [o] ->
  fresh_obj (length (s_vars s)) (s_nusr s) o -> old_obj (length (s_vars s')) (s_nusr s') o -> fresh_ok s s' es.
Proof.
  intros H1 H2 H3 H4 H5. unfold fresh_ok. rewrite H3. repeat split; auto.
  - constructor; [intros []|constructor].
  - destruct H as [<-|[]]; auto.
  - destruct H as [<-|[]]; auto.
Qed.

Lemma put_frames_tr s c fs : s_tr (put_frames s c fs) = s_tr s.
Proof. unfold put_frames. destruct (nth_error (s_ctxs s) c); reflexivity. Qed.
Lemma put_frames_nusr s c fs : s_nusr (put_frames s c fs) = s_nusr s.
Proof. unfold put_frames. destruct (nth_error (s_ctxs s) c); reflexivity. Qed.

(** a local step written with [put_frames] *)
Lemma mk_local t s s1 c cx fs' es :
  nth_error (s_ctxs s) c = Some cx -> cx_status cx = SRun t ->
  lrule c (s_tr s) (cx_frames cx) fs' es ->
  s_ctxs s1 = s_ctxs s -> s_thr s1 = s_thr s -> s_tr s1 = es ++ s_tr s ->
  fresh_ok s s1 es -> mstep t s (put_frames s1 c fs').
Proof.
  intros Hc Ht Hl H1 H2 H3 H4. eapply M_local; eauto.
  - rewrite (put_frames_ctxs _ _ _ cx); [now rewrite H1|now rewrite H1].
  - now rewrite put_frames_thr.
  - now rewrite put_frames_tr.
  - unfold fresh_ok. rewrite put_frames_vars, put_frames_nusr. exact H4.
Qed.

(** a local step that changes neither frames nor the trace *)
Lemma mk_vars t s s1 c cx :
  nth_error (s_ctxs s) c = Some cx -> cx_status cx = SRun t ->
  s_ctxs s1 = s_ctxs s -> s_thr s1 = s_thr s -> s_tr s1 = s_tr s ->
  length (s_vars s1) = length (s_vars s) -> s_nusr s1 = s_nusr s -> mstep t s s1.
Proof.
  intros Hc Ht H1 H2 H3 H4 H5. eapply (M_local t s s1 c cx (cx_frames cx) []); eauto.
  - constructor.
  - replace (set_frames cx (cx_frames cx)) with cx by (destruct cx; reflexivity). rewrite upd_same; auto.
  - apply fresh_nil; [lia|lia|reflexivity].
Qed.

Lemma wfs_tail main f g r : wfs main (f :: g :: r) -> wfs main (g :: r).
Proof. intros H. rewrite wfs_cons in H. tauto. Qed.

Lemma deliver_spec s c fs r main s' :
  wfs main fs -> deliver s c fs r = Next s' ->
  exists fs' es z, dl c r fs fs' es /\ s' = put_frames z c fs' /\ s_ctxs z = s_ctxs s /\ s_thr z = s_thr s /\
    s_tr z = es ++ s_tr s /\ fresh_ok s z es.
Proof.
  intros Hwf. unfold deliver.
  destruct fs as [|f0 rest]; [discriminate|].
  assert (Hu : forall f r', rest = FU f :: r' -> userwait f0 = true -> uf_mode f = MRun ->
     s' = (put_frames (emit (emit (add_var s (VLive false r)) (EvResumed c r)) (EvCtor (OnCtx c) (OFib (length (s_vars s)))))
                       c (FU (set_objs f (OFib (length (s_vars s)) :: uf_objs f)) :: r')) ->
     exists fs' es z, dl c r (f0 :: rest) fs' es /\ s' = put_frames z c fs' /\ s_ctxs z = s_ctxs s /\ s_thr z = s_thr s /\
    s_tr z = es ++ s_tr s /\ fresh_ok s z es).
  { intros f r' E1 E2 E3 E4. subst rest.
    eexists _, _, _. split; [apply (DL_user c r f0 f r' (length (s_vars s))); auto|]. split; [exact E4|].
    split; [reflexivity|]. split; [reflexivity|]. split; [reflexivity|].
    eapply fresh_one; cbn; rewrite ?app_length; cbn; try lia; try reflexivity; cbn; lia. }
  destruct f0; try discriminate.
  - destruct rest as [|[f| | | | | | | | | |] rest]; try discriminate. destruct Hwf as [Hb _]. intros E; injection E as <-. eapply Hu; eauto.
  - destruct rest as [|[f| | | | | | | | | |] rest]; try discriminate. destruct Hwf as [Hb _]. intros E; injection E as <-. eapply Hu; eauto.
  - destruct rest as [|[f| | | | | | | | | |] rest]; try discriminate. destruct Hwf as [Hb _]. intros E; injection E as <-. eapply Hu; eauto.
  - intros E; injection E as <-. eexists _, _, _. split; [apply DL_dtor|].
    + destruct rest as [|g rest]; [destruct Hwf|]. rewrite wfs_cons in Hwf. destruct Hwf as [Hb _]. destruct g; cbn in *; auto.
    + split; [reflexivity|]. split; [reflexivity|]. split; [reflexivity|]. split; [reflexivity|]. apply fresh_nil; auto.
  - intros E; injection E as <-. eexists _, _, _. split; [apply DL_enter|].
    split; [reflexivity|]. split; [reflexivity|]. split; [reflexivity|]. split; [reflexivity|].
    eapply fresh_one; cbn; rewrite ?app_length; cbn; try lia; try reflexivity; cbn; lia.
Qed.

(** jump_fcontext *)
Lemma ms_jump t s s1 c cx fsw h tx f1 r1 s' :
  nth_error (s_ctxs s) c = Some cx -> cx_status cx = SRun t ->
  s_ctxs s1 = s_ctxs s -> s_thr s1 = s_thr s -> s_tr s1 = s_tr s -> length (s_vars s1) = length (s_vars s) -> s_nusr s1 = s_nusr s ->
  leave_jump h f1 (cx_frames cx) fsw ->
  nth_error (s_ctxs s) (fc_ctx h) = Some tx -> cx_status tx = SSusp -> cx_ver tx = fc_ver h ->
  cx_frames tx = f1 :: r1 -> wfs (is_main tx) (cx_frames tx) ->
  do_jump s1 t c fsw h = Next s' -> mstep t s s'.
Proof.
  intros Hc Ht E1 E2 E3 E4 E5 Hk Htx Hts Htv Hf1 Hwf Hd. unfold do_jump in Hd.
  assert (Hc1 : nth_error (s_ctxs s1) c = Some cx) by (rewrite E1; exact Hc).
  assert (Hne : c <> fc_ctx h) by (intros ->; congruence).
  assert (Hcf : nth_error (s_ctxs (put_frames s1 c fsw)) c = Some (set_frames cx fsw)) by (apply put_frames_nth; exact Hc1).
  assert (Htf : nth_error (s_ctxs (put_frames s1 c fsw)) (fc_ctx h) = Some tx).
  { rewrite (put_frames_ctxs _ _ _ cx Hc1), nth_upd_ne, E1; auto. }
  unfold switch in Hd. rewrite Hcf, Htf, Hts, Htv, Nat.eqb_refl in Hd.
  cbn [set_frames cx_frames cx_ver cx_alloc cx_caps] in Hd.
  set (s0 := put_frames s1 c fsw) in *.
  set (cx1 := mk_cx fsw SSusp (S (cx_ver cx)) (cx_alloc cx) (cx_caps cx)) in *.
  set (tx2 := mk_cx (cx_frames tx) (SRun t) (fc_ver h) (cx_alloc tx) (cx_caps tx)) in *.
  set (me := mk_fc c (S (cx_ver cx))) in *.
  set (s2 := mk_s _ _ _ _ _) in Hd.
  assert (Hn : nth_error (s_ctxs s2) (fc_ctx h) = Some tx2).
  { unfold s2; cbn [s_ctxs]. eapply nth_upd_eq. rewrite nth_upd_ne; eauto. }
  assert (Hfr : frames_of s2 (fc_ctx h) = cx_frames tx) by (unfold frames_of; rewrite Hn; reflexivity).
  rewrite Hfr in Hd. eapply deliver_spec in Hd; [|exact Hwf].
  destruct Hd as [fs' [es [z [D1 [D2 [D3 [D4 [D5 D6]]]]]]]]. subst s'.
  rewrite Hf1 in D1.
  eapply (M_jump t s _ c cx fsw h tx f1 r1 fs' es); eauto.
  - rewrite (put_frames_ctxs _ _ _ tx2) by (rewrite D3; exact Hn). rewrite D3. unfold s2; cbn [s_ctxs]. rewrite upd_upd.
    unfold s0. rewrite (put_frames_ctxs _ _ _ cx Hc1), upd_upd, E1. unfold tx2, set_frames; cbn. rewrite Htv. reflexivity.
  - rewrite put_frames_thr, D4. unfold s2, s0; cbn [s_thr]. rewrite put_frames_thr, E2. reflexivity.
  - rewrite put_frames_tr, D5. unfold s2, s0; cbn [s_tr]. rewrite put_frames_tr, E3. reflexivity.
  - unfold fresh_ok in *. rewrite put_frames_vars, put_frames_nusr. unfold s2, s0 in D6; cbn [s_vars s_nusr] in D6.
    rewrite put_frames_vars, put_frames_nusr, E4, E5 in D6. exact D6.
Qed.

(** ontop_fcontext with fiber_ontop *)
Lemma ms_ontop t s s1 c cx f rest h g tx f1 r1 s' :
  nth_error (s_ctxs s) c = Some cx -> cx_status cx = SRun t ->
  s_ctxs s1 = s_ctxs s -> s_thr s1 = s_thr s -> s_tr s1 = s_tr s -> length (s_vars s1) = length (s_vars s) -> s_nusr s1 = s_nusr s ->
  cx_frames cx = FU f :: rest -> uf_mode f = MRun ->
  nth_error (s_ctxs s) (fc_ctx h) = Some tx -> cx_status tx = SSusp -> cx_ver tx = fc_ver h ->
  cx_frames tx = f1 :: r1 -> resumable_frame f1 = true ->
  do_ontop s1 t c (FResumeW g :: FU f :: rest) h g = Next s' -> mstep t s s'.
Proof.
  intros Hc Ht E1 E2 E3 E4 E5 Hfs Hm Htx Hts Htv Hf1 Hk Hd. unfold do_ontop in Hd.
  set (fsw := FResumeW g :: FU f :: rest) in *.
  assert (Hc1 : nth_error (s_ctxs s1) c = Some cx) by (rewrite E1; exact Hc).
  assert (Hne : c <> fc_ctx h) by (intros ->; congruence).
  assert (Hcf : nth_error (s_ctxs (put_frames s1 c fsw)) c = Some (set_frames cx fsw)) by (apply put_frames_nth; exact Hc1).
  assert (Htf : nth_error (s_ctxs (put_frames s1 c fsw)) (fc_ctx h) = Some tx).
  { rewrite (put_frames_ctxs _ _ _ cx Hc1), nth_upd_ne, E1; auto. }
  unfold switch in Hd. rewrite Hcf, Htf, Hts, Htv, Nat.eqb_refl in Hd.
  cbn [set_frames cx_frames cx_ver cx_alloc cx_caps] in Hd.
  set (s0 := put_frames s1 c fsw) in *.
  set (cx1 := mk_cx fsw SSusp (S (cx_ver cx)) (cx_alloc cx) (cx_caps cx)) in *.
  set (tx2 := mk_cx (cx_frames tx) (SRun t) (fc_ver h) (cx_alloc tx) (cx_caps tx)) in *.
  set (me := mk_fc c (S (cx_ver cx))) in *.
  set (s2 := mk_s _ _ _ _ _) in Hd.
  assert (Hn : nth_error (s_ctxs s2) (fc_ctx h) = Some tx2).
  { unfold s2; cbn [s_ctxs]. eapply nth_upd_eq. rewrite nth_upd_ne; eauto. }
  assert (Hfr : frames_of s2 (fc_ctx h) = cx_frames tx) by (unfold frames_of; rewrite Hn; reflexivity).
  rewrite Hfr in Hd. cbv zeta in Hd. injection Hd as <-.
  eapply (M_ontop t s _ c cx f rest h tx f1 r1 g (length (s_vars s2))); eauto.
  - rewrite (put_frames_ctxs _ _ _ tx2) by exact Hn. cbn [emit add_var s_ctxs]. unfold s2; cbn [s_ctxs]. rewrite upd_upd.
    unfold s0. rewrite (put_frames_ctxs _ _ _ cx Hc1), upd_upd, E1. unfold tx2, set_frames; cbn. rewrite Htv, Hf1. reflexivity.
  - rewrite put_frames_thr. cbn [emit add_var s_thr]. unfold s2, s0; cbn [s_thr]. rewrite put_frames_thr, E2. reflexivity.
  - rewrite put_frames_tr. cbn [emit add_var s_tr]. unfold s2, s0; cbn [s_tr]. rewrite put_frames_tr, E3. reflexivity.
  - eapply fresh_one; rewrite ?put_frames_vars, ?put_frames_nusr; cbn; rewrite ?app_length; unfold s0; cbn; rewrite ?put_frames_vars, ?put_frames_nusr, ?E4, ?E5; cbn; try lia; try reflexivity; cbn; try lia.
Qed.

(** what a handle stored in class cl denotes *)
Lemma handle_target s cl h :
  SInv s -> 0 < cnt cl h s ->
  exists tx f1 r1, nth_error (s_ctxs s) (fc_ctx h) = Some tx /\ cx_status tx = SSusp /\ cx_ver tx = fc_ver h /\
    cx_frames tx = f1 :: r1 /\ compat cl (Some f1) = true /\ wfs (is_main tx) (cx_frames tx).
Proof.
  intros I H. assert (Hs : 0 < susp h s) by (rewrite <- (i_cnt _ _ _ _ _ I h); destruct cl; lia).
  apply susp_pos in Hs. destruct Hs as [tx [H1 [H2 H3]]].
  pose proof (i_top _ _ _ _ _ I cl h ltac:(lia)) as Hc. unfold top, frames_of in Hc. rewrite H1 in Hc.
  pose proof (i_shape _ _ _ _ _ I _ _ H1) as Hsh. unfold shape in Hsh. rewrite H2 in Hsh. destruct Hsh as [Hwf _].
  destruct (cx_frames tx) as [|f1 r1] eqn:Hf; [destruct Hwf|].
  exists tx, f1, r1. rewrite Hf. repeat split; auto.
Qed.

Lemma var_cnt s v b h : nth_error (s_vars s) v = Some (VLive b (Some h)) -> 0 < cnt CR h s.
Proof.
  intros H. unfold cnt. pose proof (sumf_le (wvar CR h) _ _ _ H) as E. cbn in E. rewrite w1_self in E. lia.
Qed.

Lemma frame_cnt s c cx cl h : nth_error (s_ctxs s) c = Some cx -> 0 < wfs_ cl h (cx_frames cx) -> 0 < cnt cl h s.
Proof.
  intros H Hp. unfold cnt. pose proof (sumf_le (wcx cl h) _ _ _ H) as E. unfold wcx in E at 1. lia.
Qed.

(** ~fiber of a fiber with value h *)
Lemma ms_unwind t s s1 c cx fs h s' tx f1 r1 :
  nth_error (s_ctxs s) c = Some cx -> cx_status cx = SRun t -> cx_frames cx = fs -> dtor_ok fs ->
  s_ctxs s1 = s_ctxs s -> s_thr s1 = s_thr s -> s_tr s1 = s_tr s -> length (s_vars s1) = length (s_vars s) -> s_nusr s1 = s_nusr s ->
  nth_error (s_ctxs s) (fc_ctx h) = Some tx -> cx_status tx = SSusp -> cx_ver tx = fc_ver h ->
  cx_frames tx = f1 :: r1 -> compat CR (Some f1) = true -> wfs (is_main tx) (cx_frames tx) ->
  do_unwind s1 t c (FDtor :: fs) h = Next s' -> mstep t s s'.
Proof.
  intros Hc Ht Hfs Hok E1 E2 E3 E4 E5 Htx Hts Htv Hf1 Hco Hwf Hd. unfold do_unwind in Hd.
  assert (Hc1 : nth_error (s_ctxs s1) c = Some cx) by (rewrite E1; exact Hc).
  assert (Hne : c <> fc_ctx h) by (intros ->; congruence).
  set (fs1 := FDtor :: fs) in *.
  assert (Hcf : nth_error (s_ctxs (put_frames s1 c fs1)) c = Some (set_frames cx fs1)) by (apply put_frames_nth; exact Hc1).
  assert (Htf : nth_error (s_ctxs (put_frames s1 c fs1)) (fc_ctx h) = Some tx).
  { rewrite (put_frames_ctxs _ _ _ cx Hc1), nth_upd_ne, E1; auto. }
  unfold switch in Hd. rewrite Hcf, Htf, Hts, Htv, Nat.eqb_refl in Hd.
  cbn [set_frames cx_frames cx_ver cx_alloc cx_caps] in Hd.
  set (s0 := put_frames s1 c fs1) in *.
  set (cx1 := mk_cx fs1 SSusp (S (cx_ver cx)) (cx_alloc cx) (cx_caps cx)) in *.
  set (tx2 := mk_cx (cx_frames tx) (SRun t) (fc_ver h) (cx_alloc tx) (cx_caps tx)) in *.
  set (me := mk_fc c (S (cx_ver cx))) in *.
  set (s2 := mk_s _ _ _ _ _) in Hd.
  assert (Hn : nth_error (s_ctxs s2) (fc_ctx h) = Some tx2).
  { unfold s2; cbn [s_ctxs]. eapply nth_upd_eq. rewrite nth_upd_ne; eauto. }
  assert (Hfr : frames_of s2 (fc_ctx h) = cx_frames tx) by (unfold frames_of; rewrite Hn; reflexivity).
  rewrite Hfr in Hd.
  assert (Hgen : forall fs' ev, rrule (fc_ctx h) me (cx_frames tx) fs' ev ->
       mstep t s (put_frames (emit s2 ev) (fc_ctx h) fs')).
  { intros fs' ev Hr. eapply (M_unwind t s _ c cx h tx fs' ev); eauto.
    - rewrite Hfs. exact Hok.
    - rewrite (put_frames_ctxs _ _ _ tx2) by exact Hn. unfold s2; cbn [emit s_ctxs]. rewrite upd_upd.
      unfold s0. rewrite (put_frames_ctxs _ _ _ cx Hc1), upd_upd, E1. unfold tx2, set_frames; cbn. rewrite Htv, Hfs. reflexivity.
    - rewrite put_frames_thr. unfold s2, s0; cbn [emit s_thr]. rewrite put_frames_thr, E2. reflexivity.
    - rewrite put_frames_tr. unfold s2, s0; cbn [emit s_tr]. rewrite put_frames_tr, E3. reflexivity.
    - rewrite put_frames_vars. unfold s2, s0; cbn [emit s_vars]. rewrite put_frames_vars, E4. reflexivity.
    - rewrite put_frames_nusr. unfold s2, s0; cbn [emit s_nusr]. rewrite put_frames_nusr, E5. reflexivity. }
  rewrite Hf1 in Hd, Hwf, Hgen. unfold raise in Hd.
  destruct f1; try discriminate Hco.
  - destruct r1 as [|[f| | | | | | | | | |] r]; try discriminate. injection Hd as <-. destruct Hwf as [Hb _].
    apply Hgen. constructor; auto.
  - destruct r1 as [|[f| | | | | | | | | |] r]; try discriminate. injection Hd as <-. destruct Hwf as [Hb _].
    apply Hgen. constructor; auto.
  - injection Hd as <-. apply Hgen. constructor.
Qed.

(* ------------------------------------------------------------------ destroying *)

Definition after_dtor (s : state) (c : nat) (fs : list frame) (p : place) (o : obj) : state :=
  put_frames (match o with OFib v => put_var (emit s (EvDtor p o)) v VDead | OUsr _ => emit s (EvDtor p o) end) c fs.

Lemma ms_destroy t s c cx fs p o s' :
  nth_error (s_ctxs s) c = Some cx -> cx_status cx = SRun t -> dtor_ok fs ->
  (forall v b h, nth_error (s_vars s) v = Some (VLive b (Some h)) -> denotes s h CR) ->
  destroy s t c fs p o = Next s' -> msteps t (after_dtor s c fs p o) s'.
Proof.
  intros Hc Ht Hok Hden. unfold destroy. destruct o as [v|u].
  - destruct (nth_error (s_vars s) v) as [[|b h]|] eqn:Hv; try discriminate. cbv zeta. unfold after_dtor.
    set (s1 := put_var (emit s (EvDtor p (OFib v))) v VDead).
    destruct h as [h|].
    + intros Hd. destruct (Hden _ _ _ Hv) as [tx [f1 [r1 [H1 [H2 [H3 [H4 [H5 H6]]]]]]]].
      apply ms_one.
      assert (Hc1 : nth_error (s_ctxs s1) c = Some cx) by exact Hc.
      assert (Hne : c <> fc_ctx h) by (intros ->; congruence).
      apply (ms_unwind t (put_frames s1 c fs) (put_frames s1 c fs) c (set_frames cx fs) fs h s' tx f1 r1); auto.
      * apply put_frames_nth. exact Hc.
      * rewrite (put_frames_ctxs _ _ _ cx Hc1), nth_upd_ne by auto. exact H1.
      * unfold do_unwind in *. rewrite put_frames_put. exact Hd.
    + intros E; injection E as <-. constructor.
  - intros E; injection E as <-. unfold after_dtor. apply ms_one.
    rewrite <- (put_frames_put (emit s _) c fs (FU (mk_uf (KDtor u) [] MRun None) :: fs)).
    eapply (mk_local t _ _ c (set_frames cx fs) _ []); try reflexivity.
    + apply put_frames_nth. exact Hc.
    + exact Ht.
    + rewrite put_frames_tr. apply R_push_dtor; [reflexivity|exact Hok].
    + apply fresh_nil; auto.
Qed.

Lemma inv_denotes s cl h : SInv s -> 0 < cnt cl h s -> denotes s h cl.
Proof. intros. apply handle_target; auto. Qed.

Lemma ms_pop t s c cx f rest o l s' :
  SInv s -> nth_error (s_ctxs s) c = Some cx -> cx_status cx = SRun t -> cx_frames cx = FU f :: rest ->
  uf_objs f = o :: l -> (forall e, uf_mode f <> MLand e) ->
  destroy s t c (FU (set_objs f l) :: rest) (OnCtx c) o = Next s' -> msteps t s s'.
Proof.
  intros I Hc Ht Hfs Ho Hm Hd.
  econstructor.
  2:{ eapply (ms_destroy t s c cx); eauto.
      - cbn. destruct (uf_mode f); auto. eapply Hm; reflexivity.
      - intros v b h Hv. apply inv_denotes; auto. eapply var_cnt; eauto. }
  unfold after_dtor. eapply (mk_local t _ _ c cx); eauto.
  - rewrite Hfs. apply R_pop; [exact Ho|exact Hm].
  - destruct o; reflexivity.
  - destruct o; reflexivity.
  - destruct o; reflexivity.
  - destruct o; apply fresh_nil; cbn; rewrite ?upd_length; auto.
Qed.

Lemma ms_exit_step t s c cx d rest s' :
  SInv s -> nth_error (s_ctxs s) c = Some cx -> cx_status cx = SRun t -> cx_frames cx = FExit d :: rest ->
  exit_step s t c d rest = Next s' -> msteps t s s'.
Proof.
  intros I Hc Ht Hfs. unfold exit_step.
  destruct (nth_error (s_ctxs s) d) as [dx|] eqn:Hdx; [|discriminate].
  destruct (cx_status dx) eqn:Hds; try discriminate.
  assert (Hne : d <> c) by (intros ->; congruence).
  destruct (cx_caps dx) as [|o l] eqn:Hcaps.
  - destruct (cx_alloc dx) as [a|] eqn:Hal; [|discriminate]. rewrite <- Hal.
    set (fx := mk_cx [] SFreed (cx_ver dx) (cx_alloc dx) []).
    assert (Hc2 : nth_error (s_ctxs (put_ctx s d fx)) c = Some cx) by (cbn [put_ctx s_ctxs]; rewrite nth_upd_ne; auto).
    pose proof (inv_wfs _ _ _ _ _ _ _ _ I Hc Ht) as Hwf. rewrite Hfs in Hwf.
    destruct rest as [|g rest]; [cbn in Hwf; tauto|]. rewrite wfs_cons in Hwf. destruct Hwf as [Hb Hwf].
    intros Hd. eapply deliver_spec in Hd; [|exact Hwf].
    destruct Hd as [fs' [es [z [D1 [D2 [D3 [D4 [D5 D6]]]]]]]]. subst s'. apply ms_one.
    assert (Hcz : nth_error (s_ctxs z) c = Some cx) by (rewrite D3; exact Hc2).
    eapply (M_free t s _ c cx d (g :: rest) dx a fs' es); eauto.
    + rewrite (put_frames_ctxs _ _ _ cx Hcz), D3. reflexivity.
    + rewrite put_frames_thr, D4. reflexivity.
    + rewrite put_frames_tr, D5. reflexivity.
    + unfold fresh_ok in *. rewrite put_frames_vars, put_frames_nusr. exact D6.
  - intros Hd. set (s1 := put_ctx s d (set_caps dx l)).
    assert (Hc2 : nth_error (s_ctxs s1) c = Some cx) by (unfold s1; cbn [put_ctx s_ctxs]; rewrite nth_upd_ne; auto).
    econstructor.
    2:{ eapply (ms_destroy t s1 c cx); eauto.
        - exact Logic.I.
        - intros v b h Hv. assert (Hx : denotes s h CR) by (apply inv_denotes; auto; eapply var_cnt; eauto).
          destruct Hx as [tx [f1 [r1 [H1 [H2 H3]]]]]. exists tx, f1, r1. split; [|split; [exact H2|exact H3]].
          unfold s1; cbn [put_ctx s_ctxs]. rewrite nth_upd_ne; auto. intros E; subst d. congruence. }
    assert (Hsame : forall z, s_ctxs z = s_ctxs s1 -> put_frames z c (FExit d :: rest) = z).
    { intros z E. rewrite <- Hfs. apply put_frames_same. rewrite E. exact Hc2. }
    unfold after_dtor. rewrite Hsame by (destruct o; reflexivity).
    eapply (M_cap t s _ c cx d rest dx o l); eauto; destruct o; cbn; rewrite ?upd_length; reflexivity.
Qed.

Lemma ms_tau t s c cx s' :
  SInv s -> nth_error (s_ctxs s) c = Some cx -> cx_status cx = SRun t ->
  tau_step s t c (cx_frames cx) = Next s' -> msteps t s s'.
Proof.
  intros I Hc Ht. pose proof (i_shape _ _ _ _ _ I c cx Hc) as Hsh. unfold shape in Hsh. rewrite Ht in Hsh.
  destruct Hsh as [Hwf _]. unfold tau_step.
  destruct (cx_frames cx) as [|f0 rest] eqn:Hfs; [discriminate|].
  destruct f0 as [f| | | |  |h | | |r | |d]; try discriminate.
  - assert (Hfok : fok f) by (destruct rest; cbn in Hwf; tauto). unfold fok in Hfok.
    destruct (uf_mode f) as [|e|r|e] eqn:Hm; try discriminate.
    + destruct (uf_objs f) as [|o l] eqn:Ho.
      2:{ apply (ms_pop t s c cx f rest o l); auto. congruence. }
      destruct Hfok as [Hca Hr]. assert (Hl : leaving f (MRet r)) by (unfold leaving; auto).
      unfold leave_ret. destruct (uf_kind f) eqn:Hk.
      * discriminate.
      * destruct rest as [|[] rest']; try discriminate. intros E; injection E as <-. apply ms_one.
        eapply (M_ret_fn t s _ c cx f rest' r); eauto.
        -- intros h ->. apply inv_denotes; auto. eapply frame_cnt; eauto. rewrite Hfs. unfold wfs_. cbn. rewrite Hm. cbn.
           rewrite w1_self. lia.
        -- rewrite (put_frames_ctxs _ _ _ cx) by exact Hc. reflexivity.
        -- rewrite put_frames_thr. reflexivity.
        -- rewrite put_frames_tr. reflexivity.
        -- rewrite put_frames_vars. reflexivity.
        -- rewrite put_frames_nusr. reflexivity.
      * destruct rest as [|[] rest']; try discriminate. intros Hd.
        destruct rest' as [|g' r']; [discriminate|].
        cbn [wfs] in Hwf. destruct Hwf as [_ Hwf]. destruct Hwf as [Hb2 Hwf].
        eapply deliver_spec in Hd; [|exact Hwf].
        destruct Hd as [fs' [es [z [D1 [D2 [D3 [D4 [D5 D6]]]]]]]]. subst s'. apply ms_one.
        eapply (mk_local t _ _ c cx _ (es ++ [EvOntopRet c g r])); eauto.
        -- rewrite Hfs. eapply R_ret_ontop; eauto.
        -- rewrite D5, <- app_assoc. reflexivity.
        -- unfold fresh_ok in *. cbn [emit s_vars s_nusr] in D6.
           assert (Hct : ctors (es ++ [EvOntopRet c g r]) = ctors es) by (inversion D1; subst; reflexivity).
           rewrite Hct. exact D6.
      * destruct rest as [|[g| | | | | | | | | |] rest']; try discriminate. intros E; injection E as <-. apply ms_one.
        subst r. eapply (mk_local t _ _ c cx); eauto.
        -- rewrite Hfs. eapply R_ret_pop; eauto.
        -- reflexivity.
        -- apply fresh_nil; auto.
      * intros E; injection E as <-. apply ms_one. subst r. eapply (mk_local t _ _ c cx); eauto.
        -- rewrite Hfs. eapply R_ret_pop; eauto.
        -- reflexivity.
        -- apply fresh_nil; auto.
    + destruct (uf_objs f) as [|o l] eqn:Ho.
      2:{ apply (ms_pop t s c cx f rest o l); auto. congruence. }
      assert (Hl : leaving f (MUnw e)) by (unfold leaving; auto).
      unfold leave_exn. destruct (uf_kind f) eqn:Hk; try discriminate.
      * destruct rest as [|[] rest']; try discriminate. cbn [raise]. destruct e as [e|h]; [discriminate|].
        intros E; injection E as <-. apply ms_one. eapply (mk_local t _ _ c cx); eauto.
        -- rewrite Hfs. eapply R_fn_raise; eauto.
        -- reflexivity.
        -- apply fresh_nil; auto.
      * destruct rest as [|[] rest']; try discriminate. unfold raise.
        rewrite wfs_cons in Hwf. destruct Hwf as [_ Hwf]. cbn [wfs] in Hwf.
        destruct rest' as [|w rest']; [discriminate|]. destruct Hwf as [Hrs Hwf]. cbn [below] in Hrs.
        destruct w; try discriminate.
        -- destruct rest' as [|[g1| | | | | | | | | |] rest']; try discriminate. destruct Hwf as [Hm2 _].
           intros E; injection E as <-. apply ms_one. eapply (mk_local t _ _ c cx); eauto.
           ++ rewrite Hfs. eapply R_ontop_raised; eauto; try reflexivity.
           ++ reflexivity.
           ++ apply fresh_nil; auto.
        -- destruct rest' as [|[g1| | | | | | | | | |] rest']; try discriminate. destruct Hwf as [Hm2 _].
           intros E; injection E as <-. apply ms_one. eapply (mk_local t _ _ c cx); eauto.
           ++ rewrite Hfs. eapply R_ontop_raised; eauto; try reflexivity.
           ++ reflexivity.
           ++ apply fresh_nil; auto.
        -- destruct e as [e|h]; [discriminate|].
           intros E; injection E as <-. apply ms_one. eapply (mk_local t _ _ c cx); eauto.
           ++ rewrite Hfs. eapply R_ontop_raise_entry; eauto.
           ++ reflexivity.
           ++ apply fresh_nil; auto.
      * destruct rest as [|[g| | | | | | | | | |] rest']; try discriminate. intros E; injection E as <-. apply ms_one.
        rewrite wfs_cons in Hwf. destruct Hwf as [[_ Hb] _]. rewrite Hk in Hb.
        eapply (mk_local t _ _ c cx); eauto.
        -- rewrite Hfs. eapply R_exn_plain; eauto.
        -- reflexivity.
        -- apply fresh_nil; auto.
  - (* FEntry0 *) intros Hd.
    assert (Hx : denotes s h CC).
    { apply inv_denotes; auto. eapply frame_cnt; eauto. rewrite Hfs. unfold wfs_. cbn. rewrite w1_self. lia. }
    destruct Hx as [tx [f1 [r1 [H1 [H2 [H3 [H4 [H5 H6]]]]]]]].
    destruct f1; try discriminate H5.
    destruct rest as [|g rest]; [|rewrite wfs_cons in Hwf; destruct Hwf as [[] _]].
    apply ms_one. eapply (ms_jump t s s c cx [FEntry1] h tx FCreate r1); eauto.
    rewrite Hfs. constructor. reflexivity.
  - (* FEntry3 *) destruct r as [h|]; [|discriminate]. unfold do_exit. intros Hd.
    destruct rest as [|g rest]; [|rewrite wfs_cons in Hwf; destruct Hwf as [[] _]].
    assert (Hx : denotes s h CX).
    { apply inv_denotes; auto. eapply frame_cnt; eauto. rewrite Hfs. unfold wfs_. cbn. rewrite w1_self. lia. }
    destruct Hx as [tx [f1 [r1 [H1 [H2 [H3 [H4 [H5 H6]]]]]]]].
    assert (Hne : c <> fc_ctx h) by (intros ->; congruence).
    unfold switch in Hd. rewrite (put_frames_nth _ _ _ _ Hc) in Hd.
    rewrite (put_frames_ctxs _ _ _ cx Hc), upd_upd in Hd. rewrite nth_upd_ne in Hd by auto. rewrite H1, H2, H3, Nat.eqb_refl in Hd.
    injection Hd as <-. apply ms_one.
    set (tx1 := mk_cx (cx_frames tx) (SRun t) (fc_ver h) (cx_alloc tx) (cx_caps tx)).
    cbn [set_frames cx_frames cx_ver cx_alloc cx_caps].
    set (dx := mk_cx [] SDying (S (cx_ver cx)) (cx_alloc cx) (cx_caps cx)).
    assert (Hn : nth_error (upd (upd (s_ctxs s) c dx) (fc_ctx h) tx1) (fc_ctx h) = Some tx1).
    { eapply nth_upd_eq. rewrite nth_upd_ne; eauto. }
    unfold frames_of. cbn [s_ctxs]. rewrite Hn.
    eapply (M_exit t s _ c cx h tx f1 r1); eauto.
    + destruct f1; try discriminate H5; auto.
    + rewrite (put_frames_ctxs _ _ _ tx1) by exact Hn. cbn [s_ctxs]. rewrite upd_upd. rewrite H3. reflexivity.
    + rewrite put_frames_thr. cbn [s_thr]. rewrite put_frames_thr. reflexivity.
    + rewrite put_frames_tr. cbn [s_tr]. rewrite put_frames_tr. reflexivity.
    + rewrite put_frames_vars. cbn [s_vars]. rewrite put_frames_vars. reflexivity.
    + rewrite put_frames_nusr. cbn [s_nusr]. rewrite put_frames_nusr. reflexivity.
  - apply (ms_exit_step t s c cx d rest); auto.
Qed.

Lemma caps_micro l : forall s d acc s1 caps,
  do_caps s d l acc = Some (s1, caps) ->
  exists new, caps = new ++ acc /\ s_tr s1 = map (EvCtor (OnCtx d)) new ++ s_tr s /\
    s_ctxs s1 = s_ctxs s /\ s_thr s1 = s_thr s /\
    length (s_vars s) <= length (s_vars s1) /\ s_nusr s <= s_nusr s1 /\ NoDup new /\
    forall o, In o new -> fresh_obj (length (s_vars s)) (s_nusr s) o /\ old_obj (length (s_vars s1)) (s_nusr s1) o.
Proof.
  induction l as [|[v|] l IH]; intros s d acc s1 caps; cbn [do_caps].
  - intros E; injection E as <- <-. exists []. repeat split; auto; try constructor; destruct H.
  - destruct (get_var s v) as [[b h]|] eqn:Hv; [|discriminate]. intros Hd.
    apply IH in Hd. destruct Hd as [new [H1 [H2 [H3 [H4 [H5 [H6 [H7 H8]]]]]]]].
    cbn [emit add_var put_var s_vars s_nusr s_tr s_ctxs s_thr] in *. rewrite app_length, upd_length in *. cbn [length] in *.
    exists (new ++ [OFib (length (s_vars s))]).
    split; [rewrite <- app_assoc; exact H1|]. split; [rewrite map_app, <- app_assoc; exact H2|].
    split; [exact H3|]. split; [exact H4|]. split; [lia|]. split; [lia|]. split.
    + apply NoDup_rev in H7. rewrite <- (rev_involutive (new ++ _)). apply NoDup_rev. rewrite rev_app_distr. cbn.
      constructor; [|exact H7]. rewrite <- in_rev. intros Hin. apply H8 in Hin. destruct Hin as [Hin _]. cbn in Hin. lia.
    + intros o Ho. apply in_app_or in Ho. destruct Ho as [Ho|[<-|[]]].
      * apply H8 in Ho. destruct o; cbn in *; lia.
      * cbn. lia.
  - intros Hd. apply IH in Hd. destruct Hd as [new [H1 [H2 [H3 [H4 [H5 [H6 [H7 H8]]]]]]]].
    cbn [emit add_var put_var s_vars s_nusr s_tr s_ctxs s_thr] in *.
    exists (new ++ [OUsr (s_nusr s)]).
    split; [rewrite <- app_assoc; exact H1|]. split; [rewrite map_app, <- app_assoc; exact H2|].
    split; [exact H3|]. split; [exact H4|]. split; [lia|]. split; [lia|]. split.
    + apply NoDup_rev in H7. rewrite <- (rev_involutive (new ++ _)). apply NoDup_rev. rewrite rev_app_distr. cbn.
      constructor; [|exact H7]. rewrite <- in_rev. intros Hin. apply H8 in Hin. destruct Hin as [Hin _]. cbn in Hin. lia.
    + intros o Ho. apply in_app_or in Ho. destruct Ho as [Ho|[<-|[]]].
      * apply H8 in Ho. destruct o; cbn in *; lia.
      * cbn. lia.
Qed.

Lemma ctors_map p l r : ctors (map (EvCtor p) l ++ r) = l ++ ctors r.
Proof. induction l as [|o l IH]; cbn; [reflexivity|now rewrite IH]. Qed.

Lemma ms_user t s c cx f rest o s' :
  SInv s -> nth_error (s_ctxs s) c = Some cx -> cx_status cx = SRun t -> cx_frames cx = FU f :: rest ->
  user_step s t c f rest o = Next s' -> msteps t s s'.
Proof.
  intros I Hc Ht Hfs. unfold user_step.
  assert (Hmode : forall f' z, mrule (uf_mode f) (uf_caught f) (uf_mode f') (uf_caught f') -> fok f' ->
     uf_kind f' = uf_kind f -> uf_objs f' = uf_objs f ->
     s_ctxs z = s_ctxs s -> s_thr z = s_thr s -> s_tr z = s_tr s -> length (s_vars z) = length (s_vars s) -> s_nusr z = s_nusr s ->
     mstep t s (put_frames z c (FU f' :: rest))).
  { intros f' z Hr Hfok' Hk Ho E1 E2 E3 E4 E5. eapply (mk_local t _ _ c cx _ []); eauto.
    - rewrite Hfs. replace f' with (set_caught f (uf_caught f') (uf_mode f')).
      + apply R_mode; [exact Hr|]. replace (set_caught f (uf_caught f') (uf_mode f')) with f'; [exact Hfok'|]. destruct f'; cbn in *; subst; reflexivity.
      + destruct f'; cbn in *; subst; reflexivity.
    - apply fresh_nil; [lia|lia|reflexivity]. }
  assert (Hden : forall v b h, nth_error (s_vars s) v = Some (VLive b (Some h)) -> denotes s h CR).
  { intros v b h Hv. apply inv_denotes; auto. eapply var_cnt; eauto. }
  assert (Hfc : forced (uf_caught f) = forced_caught f) by reflexivity.
  assert (Hnew : forall z heap h, s_ctxs z = s_ctxs s -> s_thr z = s_thr s -> s_tr z = s_tr s ->
      length (s_vars z) = length (s_vars s) -> s_nusr z = s_nusr s -> uf_mode f = MRun ->
      new_fib z c f rest heap h = Next s' -> msteps t s s').
  { intros z heap h E1 E2 E3 E4 E5 Hm. unfold new_fib. cbv zeta.
    destruct heap; intros E; injection E as <-; apply ms_one.
    - eapply (mk_local t _ _ c cx); eauto.
      + rewrite Hfs. apply R_newheap. exact Hm.
      + cbn. rewrite E3. reflexivity.
      + eapply fresh_one; cbn; rewrite ?app_length; cbn; try lia; try reflexivity; cbn; lia.
    - eapply (mk_local t _ _ c cx); eauto.
      + rewrite Hfs. apply R_new. exact Hm.
      + cbn. rewrite E3. reflexivity.
      + eapply fresh_one; cbn; rewrite ?app_length; cbn; try lia; try reflexivity; cbn; lia. }
  destruct (uf_mode f) as [|e|r|e] eqn:Hm; try discriminate.
  - destruct o as [heap| |a l ok|src heap|dst src|va vb|v| |src|src g| |v|e| | | |].
    + apply Hnew; auto.
    + intros E; injection E as <-. apply ms_one. eapply (mk_local t _ _ c cx); eauto.
      * rewrite Hfs. apply R_new. exact Hm.
      * reflexivity.
      * eapply fresh_one; cbn; try lia; try reflexivity; cbn; lia.
    + (* UCreate *) destruct ok.
      2:{ intros E; injection E as <-. apply ms_one. eapply (mk_local t _ _ c cx); eauto.
          - rewrite Hfs. apply R_badalloc. exact Hm.
          - reflexivity.
          - apply fresh_nil; auto. }
      unfold do_create. cbv zeta.
      destruct (do_caps (emit s (EvAlloc (length (s_ctxs s)) a)) (length (s_ctxs s)) l []) as [[s1 caps]|] eqn:Hd; [|discriminate].
      apply caps_micro in Hd. destruct Hd as [new [H1 [H2 [H3 [H4 [H5 [H6 [H7 H8]]]]]]]].
      rewrite app_nil_r in H1. subst new. cbn [emit s_ctxs s_tr s_thr s_vars s_nusr] in *.
      rewrite H3, Hc. intros E; injection E as <-. apply ms_one.
      eapply (M_create t s _ c cx f rest a caps); eauto; cbn [s_ctxs s_thr s_tr].
      * rewrite H4. reflexivity.
      * rewrite H2, <- app_assoc. reflexivity.
      * unfold fresh_ok. rewrite ctors_map. cbn [ctors]. rewrite app_nil_r. auto.
    + destruct (get_var s src) as [[b h]|] eqn:Hv; [|discriminate]. apply Hnew; auto. cbn. apply upd_length.
    + (* UMoveAssign *) destruct (get_var s dst) as [[bd hd]|] eqn:Hvd; [|discriminate].
      destruct (get_var s src) as [[bs hs]|] eqn:Hvs; [|discriminate]. apply get_var_some in Hvd, Hvs.
      destruct (Nat.eqb_spec dst src) as [->|Hne]; [intros E; injection E as <-; constructor|]. cbv zeta.
      set (s1 := put_var (put_var s src (VLive bs None)) dst (VLive bd hs)).
      destruct hd as [h|].
      * intros Hd. destruct (Hden _ _ _ Hvd) as [tx [f1 [r1 [H1 [H2 [H3 [H4 [H5 H6]]]]]]]].
        apply ms_one. apply (ms_unwind t s s1 c cx (FU f :: rest) h s' tx f1 r1); auto.
        -- cbn. rewrite Hm. exact Logic.I.
        -- unfold s1; cbn. rewrite !upd_length. reflexivity.
      * intros E; injection E as <-. apply ms_one. eapply (mk_vars t s s1 c cx); eauto.
        unfold s1; cbn. rewrite !upd_length. reflexivity.
    + (* USwap *) destruct (get_var s va) as [[ba ha]|] eqn:Hva; [|discriminate].
      destruct (get_var s vb) as [[bb hb]|] eqn:Hvb; [|discriminate]. intros E; injection E as <-. apply ms_one.
      eapply (mk_vars t s _ c cx); eauto. cbn. rewrite !upd_length. reflexivity.
    + (* UDelete *) destruct (get_var s v) as [[b h]|] eqn:Hv; [|discriminate]. destruct b; [|discriminate].
      intros Hd. econstructor.
      2:{ eapply (ms_destroy t s c cx); eauto. cbn. rewrite Hm. exact Logic.I. }
      unfold after_dtor. eapply (mk_local t _ _ c cx); eauto.
      * rewrite Hfs. apply R_heap_dtor. exact Hm.
      * reflexivity.
      * apply fresh_nil; cbn; rewrite ?upd_length; auto.
    + (* UScope *) destruct (uf_objs f) as [|x l] eqn:Ho; [discriminate|]. apply (ms_pop t s c cx f rest x l); auto. congruence.
    + (* UResume *) destruct (get_var s src) as [[b h]|] eqn:Hv; [|discriminate]. destruct h as [h|]; [|discriminate].
      apply get_var_some in Hv. intros Hd.
      destruct (Hden _ _ _ Hv) as [tx [f1 [r1 [H1 [H2 [H3 [H4 [H5 H6]]]]]]]].
      apply ms_one. eapply (ms_jump t s (put_var s src (VLive b None)) c cx _ h tx f1 r1); eauto.
      * cbn. apply upd_length.
      * rewrite Hfs. constructor; auto.
    + (* UResumeWith *) destruct (get_var s src) as [[b h]|] eqn:Hv; [|discriminate]. destruct h as [h|]; [|discriminate].
      apply get_var_some in Hv. intros Hd.
      destruct (Hden _ _ _ Hv) as [tx [f1 [r1 [H1 [H2 [H3 [H4 [H5 H6]]]]]]]].
      apply ms_one. eapply (ms_ontop t s (put_var s src (VLive b None)) c cx f rest h g tx f1 r1); eauto.
      cbn. apply upd_length.
    + (* UCall *) intros E; injection E as <-. apply ms_one. eapply (mk_local t _ _ c cx); eauto.
      * rewrite Hfs. apply R_call. exact Hm.
      * reflexivity.
      * apply fresh_nil; auto.
    + (* UReturn *)
      destruct (uf_kind f) eqn:Hk; try discriminate; destruct (forced_caught f) eqn:Hf; try discriminate;
        destruct v as [v|]; try discriminate;
        try (destruct (get_var s v) as [[b h]|] eqn:Hv; [|discriminate]);
        intros E; injection E as <-; apply ms_one; apply Hmode; auto; try (constructor; exact Hfc); try (unfold fok; cbn; rewrite Hk; auto; fail); cbn; rewrite ?upd_length; reflexivity.
    + destruct (forced_caught f) eqn:Hf; [discriminate|]. intros E; injection E as <-. apply ms_one.
      eapply (mk_local t _ _ c cx); eauto.
      * rewrite Hfs. apply R_throw; auto.
      * reflexivity.
      * apply fresh_nil; auto.
    + discriminate.
    + discriminate.
    + destruct (uf_caught f) as [[e|h]|] eqn:Hca; try discriminate. intros E; injection E as <-. apply ms_one. apply Hmode; auto; try (unfold fok; cbn; auto; fail). constructor.
    + destruct (uf_caught f) as [e|] eqn:Hca; try discriminate. intros E; injection E as <-. apply ms_one. apply Hmode; auto; try (unfold fok; cbn; auto; fail). constructor.
  - destruct o; try discriminate.
    + destruct (uf_caught f) as [x|] eqn:Hca; [discriminate|]. intros E; injection E as <-. apply ms_one. apply Hmode; auto; try (unfold fok; cbn; auto; fail). constructor.
    + destruct (forced_caught f) eqn:Hf; [discriminate|]. intros E; injection E as <-. apply ms_one. apply Hmode; auto; try (unfold fok; cbn; auto; fail). constructor. exact Hfc.
Qed.

Theorem step_micro s t l s' : SInv s -> step s t l = Next s' -> msteps t s s'.
Proof.
  intros I. unfold step. destruct (nth_error (s_thr s) t) as [c|] eqn:Htc; [|discriminate].
  destruct (i_thr _ _ _ _ _ I t c Htc) as [cx [Hc Ht]]. rewrite Hc.
  destruct l as [|o].
  - apply ms_tau; auto.
  - destruct (cx_frames cx) as [|[f| | | | | | | | | |] rest] eqn:Hfs; try discriminate.
    eapply ms_user; eauto.
Qed.

(** induction principle for properties of reachable states that every micro-step preserves *)
Lemma micro_invariant n (P : state -> Prop) :
  P (init n) -> (forall t s s', P s -> mstep t s s' -> P s') -> forall s, reachable n s -> P s.
Proof.
  intros H0 H. apply reachable_ind'; auto. intros s t l s' _ I HP Hs.
  apply step_micro in Hs; auto. clear I. induction Hs; eauto.
Qed.
