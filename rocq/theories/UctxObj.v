(** Objects, exceptions and results of calls in the ucontext machine, for calm histories. *)
From Coq Require Import List Arith Bool Lia.
From Verif Require Import ListUtil Uctx UctxSpec UctxInv UctxInv2 UctxInv3 UctxInv4 UctxInv5 UctxInv6 UctxInv7 UctxInj.
Import ListNotations.

Definition fobjs (f : frame) : list obj := match f with FU u => uf_objs u | _ => [] end.
Definition fsobjs (fs : list frame) : list obj := flat_map fobjs fs.
Definition objs (x : rcd) : list obj := fsobjs (r_frames x) ++ r_caps x.

Definition uexn (u : uframe) : list exn :=
  match uf_mode u with MLand e | MUnw e => [e] | _ => [] end ++ match uf_caught u with Some e => [e] | None => [] end.
Definition fexn (f : frame) : list exn := match f with FU u => uexn u | _ => [] end.
Definition fok_exn (tr : list event) (c : nat) (f : frame) : Prop := forall e, In e (fexn f) -> origin tr c e.

Definition unw_by (tr : list event) (c : nat) (p : hopt) : Prop := exists t m, p = Some m /\ In (EvSwitch t m c SwUnwind) tr.

Record kloc (tr : list event) (c : nat) (x : rcd) : Prop := mk_kl {
  kl_objs : stack_objs tr c = objs x;
  kl_exn : Forall (fok_exn tr c) (r_frames x);
  kl_mark : unwound tr c -> r_term x = false -> r_alive x = true -> is_fin (hd_error (r_frames x)) = false -> 0 < wtks (r_frames x);
  kl_fin : forall p, hd_error (r_frames x) = Some (FFin p) -> unwound tr c -> unw_by tr c p }.

Definition old_obj (nv nu : nat) (o : obj) : Prop := match o with OFib v => v < nv | OUsr u => u < nu end.
Definition hok (tr : list event) (v : nat) (x : option var) : Prop :=
  match x with
  | Some (VLive b _) => (b = true -> In (EvCtor OnHeap (OFib v)) tr) /\ forall p, ~ In (EvDtor p (OFib v)) tr
  | Some VDead => True
  | None => forall p, ~ In (EvDtor p (OFib v)) tr
  end.
Definition VI (vars : list var) (nu : nat) (tr : list event) : Prop :=
  (forall p o, In (EvCtor p o) tr -> old_obj (length vars) nu o) /\ (forall v, hok tr v (nth_error vars v)).

Definition base_rule (e : event) (old : list event) : Prop :=
  match e with
  | EvCtor p o => forall p', ~ In (EvCtor p' o) old
  | EvDtor (OnCtx c) o => hd_error (stack_objs old c) = Some o /\ match o with OFib v => forall p, ~ In (EvDtor p o) old | OUsr _ => True end
  | EvDtor OnHeap o => match o with OFib v => In (EvCtor OnHeap o) old /\ forall p, ~ In (EvDtor p o) old | OUsr _ => False end
  | EvFree c _ _ => stack_objs old c = []
  | _ => True
  end.
Definition krule (e : event) (old : list event) : Prop := base_rule e old /\ result_rule e old /\ exn_rule e old.

(** no rule of the newest event is pending *)
Definition ready (tr : list event) : Prop :=
  match hd_error tr with Some (EvSwitch _ _ _ _) | Some (EvOntopRet _ _ _) | Some (EvOntopExn _ _ _) => False | _ => True end.

Record K (s : state) : Prop := mk_k {
  k_loc : forall c x, nth_error (s_rec s) c = Some x -> kloc (s_tr s) c x;
  k_none : forall c, length (s_rec s) <= c -> stack_objs (s_tr s) c = [];
  k_v : VI (s_vars s) (s_nusr s) (s_tr s);
  k_rule : always krule (s_tr s);
  k_hd : ready (s_tr s) }.

(* ------------------------------------------------------------------ monotonicity *)

Lemma origin_app new tr c e : origin tr c e -> origin (new ++ tr) c e.
Proof.
  destruct e; cbn; [intros; apply in_or_app; auto|]. intros (t & m & H & E). exists t, m. split; auto. apply in_or_app; auto.
Qed.
Lemma fok_app new tr c fs : Forall (fok_exn tr c) fs -> Forall (fok_exn (new ++ tr) c) fs.
Proof. intros H. eapply Forall_impl; [|exact H]. intros f Hf e He. apply origin_app; auto. Qed.
Lemma unw_by_app new tr c p : unw_by tr c p -> unw_by (new ++ tr) c p.
Proof. intros (t & m & H & E). exists t, m. split; auto. apply in_or_app; auto. Qed.

Lemma kloc_ext new tr c x : stack_objs (new ++ tr) c = stack_objs tr c -> (unwound (new ++ tr) c -> unwound tr c) ->
  kloc tr c x -> kloc (new ++ tr) c x.
Proof.
  intros H1 H2 [A B C D]. constructor.
  - rewrite H1; exact A.
  - apply fok_app; exact B.
  - intros Hu. apply C. auto.
  - intros p Hp Hu. apply unw_by_app. auto.
Qed.

(** one record changes, the events are about it *)
Lemma k_step s s' c x x' new :
  K s -> nth_error (s_rec s) c = Some x -> s_rec s' = upd (s_rec s) c x' -> s_tr s' = new ++ s_tr s ->
  (forall e, e <> c -> stack_objs (new ++ s_tr s) e = stack_objs (s_tr s) e) ->
  (forall e, e <> c -> unwound (new ++ s_tr s) e -> unwound (s_tr s) e) ->
  kloc (new ++ s_tr s) c x' -> VI (s_vars s') (s_nusr s') (new ++ s_tr s) -> always krule (new ++ s_tr s) -> ready (new ++ s_tr s) -> K s'.
Proof.
  intros [K1 K2 K3 K4 K5] Hc R1 R2 S1 U1 L V A Rd. pose proof (nth_some_lt _ _ _ Hc) as Lt. constructor; rewrite ?R2; auto.
  - intros e z. rewrite R1, nth_upd. destruct (Nat.eqb_spec c e) as [<-|E].
    + apply Nat.ltb_lt in Lt. rewrite Lt. intros H. injection H as <-. exact L.
    + intros Hz. apply kloc_ext; auto.
  - intros e. rewrite R1, upd_length. intros He. rewrite S1 by lia. auto.
Qed.

(** no context switch among the events *)
Definition nosw (e : event) : bool := match e with EvSwitch _ _ _ _ => false | _ => true end.
Lemma unwound_nosw new tr c : forallb nosw new = true -> unwound (new ++ tr) c -> unwound tr c.
Proof.
  intros H (t & f & Hi). apply in_app_or in Hi. destruct Hi as [Hi|Hi]; [|exists t, f; exact Hi].
  rewrite forallb_forall in H. apply H in Hi. discriminate.
Qed.
(** the events concern only objects of c *)
Definition oev (c : nat) (e : event) : Prop :=
  match e with EvCtor (OnCtx c') _ | EvDtor (OnCtx c') _ => c' = c | _ => True end.
Lemma stack_objs_oev c new tr e : Forall (oev c) new -> e <> c -> stack_objs (new ++ tr) e = stack_objs tr e.
Proof.
  intros H N. induction H as [|x new Hx H IH]; [reflexivity|]. cbn [app].
  destruct x; cbn [stack_objs]; auto; destruct p as [c'|]; auto; cbn in Hx; subst c'; destruct (Nat.eqb_spec c e); congruence.
Qed.

Lemma k_pf s s1 c x fs new :
  K s -> nth_error (s_rec s) c = Some x -> s_rec s1 = s_rec s -> s_tr s1 = new ++ s_tr s ->
  forallb nosw new = true -> Forall (oev c) new ->
  stack_objs (new ++ s_tr s) c = fsobjs fs ++ r_caps x ->
  Forall (fok_exn (new ++ s_tr s) c) fs ->
  (is_fin (hd_error (r_frames x)) = false /\ (0 < wtks (r_frames x) -> is_fin (hd_error fs) = false -> 0 < wtks fs)) ->
  (forall p, hd_error fs = Some (FFin p) -> unwound (s_tr s) c -> unw_by (new ++ s_tr s) c p) ->
  VI (s_vars s1) (s_nusr s1) (new ++ s_tr s) -> always krule (new ++ s_tr s) -> ready (new ++ s_tr s) ->
  K (put_frames s1 c fs).
Proof.
  intros HK Hc R1 R2 N O E1 E2 [E3 E3'] E4 V A Rd.
  assert (Hc1 : nth_error (s_rec s1) c = Some x) by (rewrite R1; exact Hc).
  apply (k_step s _ c x (set_frames x fs) new HK Hc).
  - rewrite (put_frames_rec _ _ _ x Hc1), R1. reflexivity.
  - rewrite put_frames_tr. exact R2.
  - intros e Ne. apply (stack_objs_oev c); auto.
  - intros e _. apply unwound_nosw; auto.
  - pose proof (k_loc _ HK c x Hc) as [A1 A2 A3 A4]. constructor; auto.
    + cbn [set_frames r_term r_alive r_frames]. intros Hu Ht Ha Hf. apply E3'; auto. apply A3; auto. eapply unwound_nosw; eauto.
    + cbn [set_frames r_frames]. intros p Hp Hu. apply E4; auto. eapply unwound_nosw; eauto.
  - rewrite put_frames_vars. unfold put_frames. rewrite Hc1. cbn. exact V.
  - exact A.
  - exact Rd.
Qed.

(* ------------------------------------------------------------------ variables *)

Definition noob (e : event) : bool := match e with EvCtor _ _ | EvDtor _ _ => false | _ => true end.
Lemma noob_in new tr p o : forallb noob new = true -> In (EvCtor p o) (new ++ tr) \/ In (EvDtor p o) (new ++ tr) ->
  In (EvCtor p o) tr \/ In (EvDtor p o) tr.
Proof.
  intros H. rewrite forallb_forall in H. rewrite !in_app_iff. intros [[Hi|Hi]|[Hi|Hi]]; auto; apply H in Hi; discriminate.
Qed.
Lemma noob_ctor new tr p o : forallb noob new = true -> In (EvCtor p o) (new ++ tr) <-> In (EvCtor p o) tr.
Proof.
  intros H. rewrite forallb_forall in H. rewrite in_app_iff. split; [intros [Hi|Hi]; auto; apply H in Hi; discriminate|auto].
Qed.
Lemma noob_dtor new tr p o : forallb noob new = true -> In (EvDtor p o) (new ++ tr) <-> In (EvDtor p o) tr.
Proof.
  intros H. rewrite forallb_forall in H. rewrite in_app_iff. split; [intros [Hi|Hi]; auto; apply H in Hi; discriminate|auto].
Qed.
Lemma hok_noob new tr v x : forallb noob new = true -> hok tr v x -> hok (new ++ tr) v x.
Proof.
  intros H. unfold hok. destruct x as [[|b h]|]; auto.
  - rewrite noob_ctor by exact H. intros [A B]. split; auto. intros p. rewrite noob_dtor by exact H. auto.
  - intros B p. rewrite noob_dtor by exact H. auto.
Qed.
Lemma vi_noob vars nu new tr : forallb noob new = true -> VI vars nu tr -> VI vars nu (new ++ tr).
Proof.
  intros H [A B]. split.
  - intros p o. rewrite noob_ctor by exact H. apply A.
  - intros v. apply hok_noob; auto.
Qed.
Lemma vi_set vars nu tr v b h h' : nth_error vars v = Some (VLive b h) -> VI vars nu tr -> VI (upd vars v (VLive b h')) nu tr.
Proof.
  intros E [A B]. split.
  - rewrite upd_length. exact A.
  - intros w. rewrite nth_upd. destruct (Nat.eqb_spec v w) as [<-|N]; [|apply B].
    pose proof (nth_some_lt _ _ _ E) as L. apply Nat.ltb_lt in L. rewrite L. specialize (B v). rewrite E in B. exact B.
Qed.
Lemma old_mono a b a' b' o : a <= a' -> b <= b' -> old_obj a b o -> old_obj a' b' o.
Proof. destruct o; cbn; lia. Qed.
Lemma hok_ctor tr v x p o : hok tr v x -> hok (EvCtor p o :: tr) v x.
Proof.
  unfold hok. destruct x as [[|b h]|]; auto.
  - intros [A B]. split; [intros E; right; auto|]. intros q [Hq|Hq]; [discriminate|]. eapply B; eauto.
  - intros B q [Hq|Hq]; [discriminate|]. eapply B; eauto.
Qed.
Lemma vi_new vars nu tr p heap h : (heap = true -> p = OnHeap) -> VI vars nu tr ->
  VI (vars ++ [VLive heap h]) nu (EvCtor p (OFib (length vars)) :: tr).
Proof.
  intros Hp [A B]. split.
  - rewrite app_length. cbn [length]. intros q o [E|Hi]; [injection E as <- <-; cbn; lia|].
    apply A in Hi. eapply old_mono; [| |exact Hi]; lia.
  - intros v. destruct (Nat.eq_dec v (length vars)) as [->|N].
    + rewrite nth_app_last. specialize (B (length vars)). rewrite (proj2 (nth_error_None _ _) (le_n _)) in B. cbn in B |- *. split.
      * intros E. left. rewrite (Hp E). reflexivity.
      * intros q [E|Hi]; [discriminate|]. eapply B; eauto.
    + assert (E : nth_error (vars ++ [VLive heap h]) v = nth_error vars v).
      { destruct (Nat.lt_ge_cases v (length vars)); [rewrite nth_error_app1; auto|].
        rewrite (proj2 (nth_error_None vars v)) by lia. apply nth_error_None. rewrite app_length; cbn; lia. }
      rewrite E. apply hok_ctor. apply B.
Qed.
Lemma vi_usr vars nu tr p : VI vars nu tr -> VI vars (S nu) (EvCtor p (OUsr nu) :: tr).
Proof.
  intros [A B]. split.
  - intros q o [E|Hi]; [injection E as <- <-; cbn; lia|]. apply A in Hi. eapply old_mono; [| |exact Hi]; lia.
  - intros v. apply hok_ctor. apply B.
Qed.
Lemma vi_dtor vars nu tr p v b h : nth_error vars v = Some (VLive b h) -> VI vars nu tr -> VI (upd vars v VDead) nu (EvDtor p (OFib v) :: tr).
Proof.
  intros E [A B]. split.
  - rewrite upd_length. intros q o [Hq|Hi]; [discriminate|]. eauto.
  - intros w. rewrite nth_upd. destruct (Nat.eqb_spec v w) as [<-|N].
    + pose proof (nth_some_lt _ _ _ E) as L. apply Nat.ltb_lt in L. rewrite L. exact I.
    + specialize (B w). unfold hok in *. destruct (nth_error vars w) as [[|b' h']|]; auto.
      * destruct B as [B1 B2]. split; [intros Hb; right; auto|]. intros q [Hq|Hq]; [congruence|]. eapply B2; eauto.
      * intros q [Hq|Hq]; [congruence|]. eapply B; eauto.
Qed.
Lemma vi_dtor_usr vars nu tr p u : VI vars nu tr -> VI vars nu (EvDtor p (OUsr u) :: tr).
Proof.
  intros [A B]. split.
  - intros q o [Hq|Hi]; [discriminate|]. eauto.
  - intros w. specialize (B w). unfold hok in *. destruct (nth_error vars w) as [[|b' h']|]; auto.
    + destruct B as [B1 B2]. split; [intros Hb; right; auto|]. intros q [Hq|Hq]; [congruence|]. eapply B2; eauto.
    + intros q [Hq|Hq]; [congruence|]. eapply B; eauto.
Qed.
Lemma vi_fresh vars nu tr p : VI vars nu tr -> ~ In (EvCtor p (OFib (length vars))) tr.
Proof. intros [A _] Hi. apply A in Hi. cbn in Hi. lia. Qed.
Lemma vi_fresh_usr vars nu tr p : VI vars nu tr -> ~ In (EvCtor p (OUsr nu)) tr.
Proof. intros [A _] Hi. apply A in Hi. cbn in Hi. lia. Qed.

(* ------------------------------------------------------------------ rules of events *)

Definition dull (e : event) : bool :=
  match e with EvAlloc _ _ | EvFail _ | EvEnter _ _ | EvOntop _ _ _ | EvThrow _ _ => true | _ => false end.
(** what e must not follow *)
Definition after_ok (tr : list event) : Prop :=
  match hd_error tr with Some (EvOntopRet _ _ _) | Some (EvOntopExn _ _ _) => False | _ => True end.
Lemma ready_after tr : ready tr -> after_ok tr.
Proof. unfold ready, after_ok. destruct (hd_error tr) as [[]|]; auto. Qed.
Lemma res_ok e tr : after_ok tr -> match e with EvResumed _ _ | EvRaised _ _ | EvDestroyed _ => False | _ => True end -> result_rule e tr.
Proof.
  intros H E. split; [destruct e; try exact I; contradiction|]. unfold after_ok in H. destruct (hd_error tr) as [[]|]; auto; contradiction.
Qed.
Lemma kr_dull e tr : dull e = true -> after_ok tr -> krule e tr.
Proof. intros D A. split; [destruct e; try discriminate; exact I|]. split; [apply res_ok; auto|]; destruct e; try discriminate; exact I. Qed.
Lemma kr_switch t c d k tr : after_ok tr -> krule (EvSwitch t c d k) tr.
Proof. intros A. split; [exact I|]. split; [apply res_ok; auto|]; exact I. Qed.
Lemma kr_ctor_fib p vars nu tr : after_ok tr -> VI vars nu tr -> krule (EvCtor p (OFib (length vars))) tr.
Proof. intros A V. split; [intros p'; eapply vi_fresh; eauto|]. split; [apply res_ok; auto|]; exact I. Qed.
Lemma kr_ctor_usr p vars nu tr : after_ok tr -> VI vars nu tr -> krule (EvCtor p (OUsr nu)) tr.
Proof. intros A V. split; [intros p'; eapply vi_fresh_usr; eauto|]. split; [apply res_ok; auto|]; exact I. Qed.

Lemma fsobjs_cons f fs : fsobjs (f :: fs) = fobjs f ++ fsobjs fs.
Proof. reflexivity. Qed.

Definition kgood (n : nat) (o : outcome) : Prop := match o with Next s' => calm (s_tr s') -> K s' | _ => True end.

(* ------------------------------------------------------------------ switching *)

Definition sw_ok (s : state) (c d : nat) (k : swk) : Prop :=
  (k = SwUnwind -> top s d = Some FRes) /\
  (k <> SwUnwind -> forall y, nth_error (s_rec s) d = Some y -> r_force y = true -> top s d <> Some FRes) /\
  (forall e, top s d = Some (FDt e) -> k = SwExit /\ exists t', In (EvSwitch t' d c SwUnwind) (s_tr s)).

Lemma switch_k n s t c d k :
  K s -> (calm_ev (EvSwitch t c d k) (s_tr s) -> sw_ok s c d k) -> kgood n (switch s t c d k).
Proof.
  intros HK Hsok. destruct (switch s t c d k) as [s'| | | | |] eqn:Hsw; try exact I. cbn [kgood]. intros Hcalm.
  pose proof (switch_new _ _ _ _ _ _ Hsw) as [new0 Hg].
  rewrite Hg in Hcalm. apply always_app in Hcalm. apply always_cons in Hcalm. destruct Hcalm as [Hcalm _].
  destruct (Hsok Hcalm) as (HO1 & HO2 & HO3). clear Hsok Hcalm new0 Hg.
  unfold switch in Hsw. destruct (nth_error (s_rec s) d) as [y|] eqn:Hd; [|discriminate].
  destruct (r_alive y && negb (existsb (Nat.eqb d) (s_thr s))) eqn:Hc; [|discriminate]. cbv zeta in Hsw.
  set (y2 := match k with SwOntop g => set_ontop (set_from y (Some c)) (Some g) | SwUnwind => set_force (set_from y (Some c)) true | _ => set_from y (Some c) end) in *.
  assert (Yf : r_frames y2 = r_frames y) by (unfold y2; destruct k; reflexivity).
  assert (Yc : r_caps y2 = r_caps y) by (unfold y2; destruct k; reflexivity).
  assert (Yt : r_term y2 = r_term y) by (unfold y2; destruct k; reflexivity).
  assert (Ya : r_alive y2 = r_alive y) by (unfold y2; destruct k; reflexivity).
  assert (Yr : r_from y2 = Some c) by (unfold y2; destruct k; reflexivity).
  assert (Yfo : r_force y2 = match k with SwUnwind => true | _ => r_force y end) by (unfold y2; destruct k; reflexivity).
  assert (Yon : r_ontop y2 = match k with SwOntop g => Some g | _ => r_ontop y end) by (unfold y2; destruct k; reflexivity).
  clearbody y2.
  set (s1 := mk_s (upd (s_rec s) d y2) (s_vars s) (upd (s_thr s) t d) (s_nusr s) (EvSwitch t c d k :: s_tr s)) in *.
  assert (Hd1 : nth_error (s_rec s1) d = Some y2) by (unfold s1; cbn; eapply nth_upd_eq; eauto).
  assert (Htop : top s d = hd_error (r_frames y)) by (unfold top; rewrite Hd; reflexivity).
  rewrite Htop in *.
  unfold arrive in Hsw. rewrite Hd1, Yf in Hsw.
  pose proof (k_loc _ HK d y Hd) as [L1 L2 L3 L4]. unfold objs in L1.
  pose proof (ready_after _ (k_hd _ HK)) as Haf.
  assert (Asw : always krule (EvSwitch t c d k :: s_tr s)).
  { rewrite always_cons. split; [apply kr_switch; exact Haf|exact (k_rule _ HK)]. }
  assert (Vsw : VI (s_vars s) (s_nusr s) (EvSwitch t c d k :: s_tr s)) by (apply (vi_noob _ _ [_]); [reflexivity|exact (k_v _ HK)]).
  (* all the arrivals *)
  assert (Hq : forall more z, s_tr s' = more ++ EvSwitch t c d k :: s_tr s ->
      s_rec s' = upd (s_rec s) d z -> Forall (oev d) more -> forallb nosw more = true ->
      stack_objs (more ++ EvSwitch t c d k :: s_tr s) d = objs z ->
      Forall (fok_exn (more ++ EvSwitch t c d k :: s_tr s) d) (r_frames z) ->
      (r_term z = r_term y /\ r_alive z = r_alive y /\ wtks (r_frames y) <= wtks (r_frames z) /\ (k = SwUnwind -> 0 < wtks (r_frames z)) /\
       is_fin (hd_error (r_frames z)) = false /\ is_fin (hd_error (r_frames y)) = false) ->
      VI (s_vars s') (s_nusr s') (more ++ EvSwitch t c d k :: s_tr s) ->
      always krule (more ++ EvSwitch t c d k :: s_tr s) -> ready (more ++ EvSwitch t c d k :: s_tr s) -> K s').
  { intros more z E1 E2 O N E3 E4 (E5 & E6 & E7 & E8 & E9 & E10) E11 E12 E13.
    assert (As : more ++ EvSwitch t c d k :: s_tr s = (more ++ [EvSwitch t c d k]) ++ s_tr s) by (rewrite <- app_assoc; reflexivity).
    rewrite As in *. apply (k_step s s' d y z (more ++ [EvSwitch t c d k]) HK Hd E2); auto.
    - intros e Ne. apply (stack_objs_oev d); auto. apply Forall_app. split; [exact O|]. repeat constructor.
    - intros e Ne (t' & f & Hi). rewrite <- As in Hi. apply in_app_or in Hi. destruct Hi as [Hi|[Hi|Hi]].
      + rewrite forallb_forall in N. apply N in Hi. discriminate.
      + injection Hi. intros. congruence.
      + exists t', f. exact Hi.
    - constructor; auto.
      + rewrite E5, E6. intros (t' & f & Hi) Ht Ha Hf. rewrite <- As in Hi. apply in_app_or in Hi. destruct Hi as [Hi|[Hi|Hi]].
        * rewrite forallb_forall in N. apply N in Hi. discriminate.
        * injection Hi. intros. apply E8. congruence.
        * eapply Nat.lt_le_trans; [|exact E7]. apply L3; auto. exists t', f. exact Hi.
      + intros p Hp. rewrite Hp in E9. discriminate. }
  destruct (r_frames y) as [|[f| | |e| | | | | | |] rest] eqn:Hfy; try discriminate.
  - (* FStart *)
    injection Hsw as <-. erewrite put_frames_eq in * by (cbn; eapply nth_upd_eq; eauto).
    eapply (Hq [EvCtor (OnCtx d) (OFib (length (s_vars s))); EvEnter d (r_from y2)]
              (set_frames y2 (FU (mk_uf KCtx [OFib (length (s_vars s))] MRun None) :: FRun :: rest))).
    + reflexivity.
    + cbn [s_rec emit add_var]. unfold s1; cbn [s_rec]. apply upd_upd.
    + repeat constructor.
    + reflexivity.
    + cbn. rewrite Nat.eqb_refl, L1. unfold objs. cbn. rewrite Yc. reflexivity.
    + cbn [set_frames r_frames]. constructor; [intros e []|]. constructor; [intros e []|]. inversion L2; subst. apply (fok_app [_; _; _]). assumption.
    + cbn [set_frames r_term r_alive r_frames]. rewrite Yt, Ya. repeat split; auto. intros ->. specialize (HO1 eq_refl). discriminate.
    + cbn [s_vars s_nusr emit add_var s1]. apply vi_new; [discriminate|]. apply (vi_noob _ _ [_]); [reflexivity|exact Vsw].
    + cbn [app]. rewrite always_cons. split.
      * eapply kr_ctor_fib; [exact I|]. apply (vi_noob _ _ [_]); [reflexivity|exact Vsw].
      * rewrite always_cons. split; [apply kr_dull; [reflexivity|exact I]|exact Asw].
    + exact I.
  - (* FRes *)
    destruct (r_force y2) eqn:Hf2.
    + assert (Ek : k = SwUnwind).
      { destruct k; auto; exfalso; (eapply HO2; [discriminate|reflexivity|exact Hf2|reflexivity]) || idtac;
          rewrite Yfo in Hf2; eapply HO2; eauto; discriminate. }
      unfold raise_to in Hsw. destruct rest as [|[f| | |e| | | | | | |] rest]; try discriminate. injection Hsw as <-.
      erewrite put_frames_eq in * by (cbn; eapply nth_upd_eq; eapply nth_upd_eq; eauto).
      eapply (Hq [EvRaised d (XForced (r_from y2))] (set_frames (set_from y2 None) (FU (set_mode f (MLand (XForced (r_from y2)))) :: rest))).
      * reflexivity.
      * cbn [s_rec emit put_rec]. unfold s1; cbn [s_rec]. rewrite !upd_upd. reflexivity.
      * repeat constructor.
      * reflexivity.
      * cbn. rewrite L1. unfold objs. cbn. rewrite Yc. reflexivity.
      * cbn [set_frames r_frames set_from]. inversion L2 as [|? ? _ L2']; subst. inversion L2' as [|? ? L2a L2b]; subst. constructor; [|apply (fok_app [_; _]); assumption].
        intros e He. unfold fexn, uexn, set_mode in He. cbn [uf_mode uf_caught] in He. apply in_app_or in He. destruct He as [[<-|[]]|He].
        -- cbn. rewrite Yr. exists t, c. split; auto.
        -- apply (origin_app [_; _]). apply L2a. unfold fexn, uexn. apply in_or_app. auto.
      * cbn [set_frames set_from r_term r_alive r_frames]. rewrite Yt, Ya. cbn. unfold wtks. cbn. repeat split; auto; try lia.
        destruct (uf_mode f) as [|[]| |[]]; cbn; lia.
      * apply (vi_noob _ _ [_]); [reflexivity|exact Vsw].
      * cbn [app]. rewrite always_cons. split; [|exact Asw]. subst k. rewrite Yr. split; [exact I|]. split.
        -- split; [|exact I]. left. exists t, c. auto.
        -- cbn. exists t, c. auto.
      * exact I.
    + destruct (r_ontop y2) as [g|] eqn:Ho2.
      * injection Hsw as <-. erewrite put_frames_eq in * by (cbn; eapply nth_upd_eq; eapply nth_upd_eq; eauto).
        eapply (Hq [EvCtor (OnCtx d) (OFib (length (s_vars s))); EvOntop d g (r_from y2)]
                   (set_frames (set_from y2 None) (FU (mk_uf (KOntop g) [OFib (length (s_vars s))] MRun None) :: FOnt :: rest))).
        -- reflexivity.
        -- cbn [s_rec emit put_rec add_var]. unfold s1; cbn [s_rec]. rewrite !upd_upd. reflexivity.
        -- repeat constructor.
        -- reflexivity.
        -- cbn. rewrite Nat.eqb_refl, L1. unfold objs. cbn. rewrite Yc. reflexivity.
        -- cbn [set_frames r_frames set_from]. constructor; [intros e []|]. constructor; [intros e []|]. inversion L2; subst. apply (fok_app [_; _; _]). assumption.
        -- cbn [set_frames set_from r_term r_alive r_frames]. rewrite Yt, Ya. repeat split; auto. intros ->. congruence.
        -- cbn [s_vars s_nusr emit add_var put_rec s1]. apply vi_new; [discriminate|]. apply (vi_noob _ _ [_]); [reflexivity|exact Vsw].
        -- cbn [app]. rewrite always_cons. split.
           ++ eapply kr_ctor_fib; [exact I|]. apply (vi_noob _ _ [_]); [reflexivity|exact Vsw].
           ++ rewrite always_cons. split; [apply kr_dull; [reflexivity|exact I]|exact Asw].
        -- exact I.
      * assert (Ek : k = SwJump \/ k = SwExit) by (destruct k; auto; congruence).
        assert (Rr : krule (EvResumed d (r_from y2)) (EvSwitch t c d k :: s_tr s)).
        { split; [exact I|]. split; [|exact I]. split; [|exact I]. left. exists t, c, k. auto. }
        unfold ret_to in Hsw. destruct rest as [|[f| | |e| | | | | | |] rest]; try discriminate; injection Hsw as <-;
          (erewrite put_frames_eq in * by (cbn; eapply nth_upd_eq; eapply nth_upd_eq; eauto)).
        -- eapply (Hq [EvCtor (OnCtx d) (OFib (length (s_vars s))); EvResumed d (r_from y2)]
                   (set_frames (set_from y2 None) (FU (set_objs f (OFib (length (s_vars s)) :: uf_objs f)) :: rest))).
           ++ reflexivity.
           ++ cbn [s_rec emit put_rec add_var]. unfold s1; cbn [s_rec]. rewrite !upd_upd. reflexivity.
           ++ repeat constructor.
           ++ reflexivity.
           ++ cbn. rewrite Nat.eqb_refl, L1. unfold objs. cbn. rewrite Yc. reflexivity.
           ++ cbn [set_frames r_frames set_from]. inversion L2 as [|? ? _ L2']; subst. apply (fok_app [_; _; _]). inversion L2'; subst. constructor; auto.
           ++ cbn [set_frames set_from r_term r_alive r_frames]. rewrite Yt, Ya. repeat split; auto. intros ->. destruct Ek; discriminate.
           ++ cbn [s_vars s_nusr emit add_var put_rec s1]. apply vi_new; [discriminate|]. apply (vi_noob _ _ [_]); [reflexivity|exact Vsw].
           ++ cbn [app]. rewrite always_cons. split.
              ** eapply kr_ctor_fib; [exact I|]. apply (vi_noob _ _ [_]); [reflexivity|exact Vsw].
              ** rewrite always_cons. split; [exact Rr|exact Asw].
           ++ exact I.
        -- eapply (Hq [EvResumed d (r_from y2)] (set_frames (set_from y2 None) (FTmp (r_from y2) :: FAssert :: rest))).
           ++ reflexivity.
           ++ cbn [s_rec emit put_rec add_var]. unfold s1; cbn [s_rec]. rewrite !upd_upd. reflexivity.
           ++ repeat constructor.
           ++ reflexivity.
           ++ cbn. rewrite L1. unfold objs. cbn. rewrite Yc. reflexivity.
           ++ cbn [set_frames r_frames set_from]. inversion L2 as [|? ? _ L2']; subst. apply (fok_app [_; _]). inversion L2'; subst. constructor; [intros ? []|]. constructor; [intros ? []|]. auto.
           ++ cbn [set_frames set_from r_term r_alive r_frames]. rewrite Yt, Ya. repeat split; auto. intros ->. destruct Ek; discriminate.
           ++ apply (vi_noob _ _ [_]); [reflexivity|exact Vsw].
           ++ cbn [app]. rewrite always_cons. split; [exact Rr|exact Asw].
           ++ exact I.
  - (* FDt *)
    destruct (HO3 e eq_refl) as (-> & t' & Hi).
    destruct (nth_error (s_rec s1) e) as [z|]; [|discriminate]. destruct (r_alive z); [|discriminate]. destruct (r_term z); [|discriminate].
    injection Hsw as <-. erewrite put_frames_eq in * by (cbn; eapply nth_upd_eq; eapply nth_upd_eq; eauto).
    eapply (Hq [EvDestroyed d] (set_frames (set_from y2 None) (FRel e false :: rest))).
    + reflexivity.
    + cbn [s_rec emit put_rec add_var]. unfold s1; cbn [s_rec]. rewrite !upd_upd. reflexivity.
    + repeat constructor.
    + reflexivity.
    + cbn. rewrite L1. unfold objs. cbn. rewrite Yc. reflexivity.
    + cbn [set_frames r_frames set_from]. inversion L2; subst. apply (fok_app [_; _]). constructor; [intros ? []|]. auto.
    + cbn [set_frames set_from r_term r_alive r_frames]. rewrite Yt, Ya. repeat split; auto. discriminate.
    + apply (vi_noob _ _ [_]); [reflexivity|exact Vsw].
    + cbn [app]. rewrite always_cons. split; [|exact Asw]. split; [exact I|]. split; [|exact I]. split; [|exact I].
      exists t, c. split; [reflexivity|]. exists t'. right. exact Hi.
    + exact I.
Qed.

(* ------------------------------------------------------------------ the other steps *)

Lemma k_push s c x f fs : nth_error (s_rec s) c = Some x -> K (put_frames s c fs) -> fobjs f = [] -> fexn f = [] ->
  is_fin (Some f) = false -> is_fin (hd_error fs) = false -> K (put_frames s c (f :: fs)).
Proof.
  intros Hc HK H1 H2 H3 H4.
  assert (Hc1 : nth_error (s_rec (put_frames s c fs)) c = Some (set_frames x fs)) by (rewrite (put_frames_rec _ _ _ x Hc); eapply nth_upd_eq; eauto).
  rewrite <- (put_put s c x fs (f :: fs) Hc).
  pose proof (k_loc _ HK c _ Hc1) as [L1 L2 L3 L4]. cbn [set_frames r_frames] in *.
  eapply (k_pf _ _ c (set_frames x fs) (f :: fs) [] HK Hc1); try reflexivity.
  - constructor.
  - cbn [app]. rewrite L1. unfold objs. cbn [set_frames r_frames r_caps]. rewrite fsobjs_cons, H1. reflexivity.
  - cbn [app]. constructor; [|exact L2]. intros e. rewrite H2. intros [].
  - cbn [set_frames r_frames]. split; [exact H4|]. unfold wtks. cbn. lia.
  - cbn. intros p E. injection E as ->. discriminate.
  - exact (k_v _ HK).
  - exact (k_rule _ HK).
  - exact (k_hd _ HK).
Qed.

Lemma top_put s c x fs d : nth_error (s_rec s) c = Some x -> d <> c -> top (put_frames s c fs) d = top s d.
Proof. intros Hc N. unfold top. rewrite (put_frames_rec _ _ _ x Hc), nth_upd_ne; auto. Qed.

Lemma drop_k n s t c x fs h : nth_error (s_rec s) c = Some x -> K (put_frames s c fs) ->
  (forall d, h = Some d -> d <> c /\ (entered (s_tr s) d -> top s d = Some FRes)) ->
  is_fin (hd_error fs) = false -> kgood n (drop s t c fs h).
Proof.
  intros Hc HK Hd Hf. unfold drop. destruct h as [d|]; [|intros _; exact HK].
  destruct (nth_error (s_rec s) d) as [y|] eqn:Hy; [|exact I]. destruct (r_alive y); [|exact I].
  destruct (r_main y); [intros _; exact HK|]. destruct (r_term y).
  - intros _. eapply k_push; eauto.
  - destruct (Hd d eq_refl) as [N Ht]. apply switch_k; [eapply k_push; eauto|].
    rewrite put_frames_tr. intros He. cbn in He. specialize (Ht He). unfold sw_ok.
    rewrite (top_put s c x) by auto. split; [auto|]. split; [congruence|]. intros e. rewrite Ht. discriminate.
Qed.

Definition dstate (s : state) (p : place) (o : obj) : state :=
  match o with OFib v => put_var (emit s (EvDtor p o)) v VDead | OUsr _ => emit s (EvDtor p o) end.

Lemma destroy_k n s t c x fs p o : nth_error (s_rec s) c = Some x -> K (put_frames (dstate s p o) c fs) ->
  (forall v b d, o = OFib v -> nth_error (s_vars s) v = Some (VLive b (Some d)) -> d <> c /\ (entered (s_tr s) d -> top s d = Some FRes)) ->
  is_fin (hd_error fs) = false -> kgood n (destroy s t c fs p o).
Proof.
  intros Hc HK Hd Hf. unfold destroy. destruct o as [v|u].
  - destruct (nth_error (s_vars s) v) as [[|b h]|] eqn:Hv; try exact I. eapply drop_k; eauto.
    intros d ->. destruct (Hd v b d eq_refl Hv) as [N Ht]. split; [exact N|]. cbn [put_var emit s_tr].
    intros He. apply Ht. apply entered_cons in He. destruct He as [(r & E)|He]; [discriminate|exact He].
  - intros _. eapply (k_push (emit s (EvDtor p (OUsr u)))); eauto.
Qed.

Lemma var_fact n s t c v b d : SInv n s -> nth_error (s_thr s) t = Some c -> nth_error (s_vars s) v = Some (VLive b (Some d)) ->
  d <> c /\ idle s d /\ (entered (s_tr s) d -> top s d = Some FRes).
Proof.
  intros HI Ht Hv.
  assert (Hcv : 0 < cv d s).
  { unfold cv. pose proof (sumf_le (wvar d) _ _ _ Hv) as L. cbn [wvar] in L. rewrite wh_self in L. lia. }
  pose proof (cv_le d s) as Hle. destruct (inv_runs_false _ _ _ _ d HI) as (y & Hy & _ & Hr); [lia|].
  assert (Hi : idle s d) by (apply (i_idle _ _ _ _ HI); lia).
  split; [intros ->; rewrite runs_false in Hr; exact (Hr t Ht)|]. split; [exact Hi|]. intros He. destruct Hi as [Hi|Hi]; [|exact Hi]. exfalso.
  unfold top in Hi. rewrite Hy in Hi. apply (proj1 (i_ent _ _ _ _ HI d y Hy) Hi). exact He.
Qed.

(** the user frame on top changes *)
Lemma k_fu s s1 c x f f' rest new :
  K s -> nth_error (s_rec s) c = Some x -> r_frames x = FU f :: rest -> s_rec s1 = s_rec s -> s_tr s1 = new ++ s_tr s ->
  forallb nosw new = true -> Forall (oev c) new ->
  stack_objs (new ++ s_tr s) c = uf_objs f' ++ fsobjs rest ++ r_caps x ->
  (forall e, In e (uexn f') -> In e (uexn f) \/ origin (new ++ s_tr s) c e) -> wtk (FU f) <= wtk (FU f') ->
  VI (s_vars s1) (s_nusr s1) (new ++ s_tr s) -> always krule (new ++ s_tr s) -> ready (new ++ s_tr s) ->
  K (put_frames s1 c (FU f' :: rest)).
Proof.
  intros HK Hc Hfs R1 R2 N O E1 E2 E3 V A Rd. pose proof (k_loc _ HK c x Hc) as [L1 L2 L3 L4]. rewrite Hfs in *.
  eapply (k_pf s s1 c x _ new HK Hc); eauto.
  - rewrite E1, fsobjs_cons. cbn [fobjs]. now rewrite app_assoc.
  - inversion L2 as [|? ? L2a L2b]; subst. constructor; [|apply fok_app; auto]. intros e He. apply E2 in He. destruct He as [He|He]; [|exact He].
    apply origin_app. apply L2a. exact He.
  - rewrite Hfs. split; [reflexivity|]. unfold wtks. cbn [sumf]. lia.
  - discriminate.
Qed.
(** without events *)
Lemma k_fu0 s s1 c x f f' rest :
  K s -> nth_error (s_rec s) c = Some x -> r_frames x = FU f :: rest -> s_rec s1 = s_rec s -> s_tr s1 = s_tr s ->
  uf_objs f' = uf_objs f -> (forall e, In e (uexn f') -> In e (uexn f)) -> wtk (FU f) <= wtk (FU f') ->
  VI (s_vars s1) (s_nusr s1) (s_tr s) -> K (put_frames s1 c (FU f' :: rest)).
Proof.
  intros HK Hc Hfs R1 R2 E1 E2 E3 V. pose proof (k_loc _ HK c x Hc) as [L1 L2 L3 L4].
  eapply (k_fu s s1 c x f f' rest []); eauto using k_rule, k_hd.
  cbn [app]. rewrite L1. unfold objs. rewrite Hfs, fsobjs_cons, E1. cbn [fobjs]. now rewrite app_assoc.
Qed.

(** the objects of a running context *)
Lemma k_objs s c x f rest : K s -> nth_error (s_rec s) c = Some x -> r_frames x = FU f :: rest ->
  stack_objs (s_tr s) c = uf_objs f ++ fsobjs rest ++ r_caps x.
Proof.
  intros HK Hc Hfs. rewrite (kl_objs _ _ _ (k_loc _ HK c x Hc)). unfold objs. rewrite Hfs, fsobjs_cons. cbn [fobjs]. now rewrite app_assoc.
Qed.

(** destroying the last local object *)
Lemma local_dstate s c x f rest o l :
  K s -> nth_error (s_rec s) c = Some x -> r_frames x = FU f :: rest -> uf_objs f = o :: l ->
  (forall v, o = OFib v -> exists b h, nth_error (s_vars s) v = Some (VLive b h)) ->
  K (put_frames (dstate s (OnCtx c) o) c (FU (set_objs f l) :: rest)).
Proof.
  intros HK Hc Hfs Ho Hv. pose proof (k_objs _ _ _ _ _ HK Hc Hfs) as Hob. rewrite Ho in Hob.
  assert (R : forall s1, s_rec s1 = s_rec s -> s_tr s1 = EvDtor (OnCtx c) o :: s_tr s -> VI (s_vars s1) (s_nusr s1) (EvDtor (OnCtx c) o :: s_tr s) ->
     match o with OFib v => forall p, ~ In (EvDtor p o) (s_tr s) | OUsr _ => True end ->
     K (put_frames s1 c (FU (set_objs f l) :: rest))).
  { intros s1 R1 R2 V Hn. eapply (k_fu s s1 c x f _ rest [_]); eauto.
    - repeat constructor.
    - cbn. rewrite Nat.eqb_refl, Hob. reflexivity.
    - cbn [app]. rewrite always_cons. split; [|exact (k_rule _ HK)]. split; [|split; [apply res_ok; [apply ready_after, k_hd; auto|exact I]|exact I]].
      cbn. rewrite Hob. split; [reflexivity|]. destruct o; auto.
    - exact I. }
  unfold dstate. destruct o as [v|u].
  - destruct (Hv v eq_refl) as (b & h & E). apply R; try reflexivity.
    + cbn. eapply vi_dtor; eauto. exact (k_v _ HK).
    + pose proof (proj2 (k_v _ HK) v) as A. rewrite E in A. exact (proj2 A).
  - apply R; try reflexivity; auto. cbn. apply vi_dtor_usr. exact (k_v _ HK).
Qed.

Lemma destroy_live n s t c fs p o :
  ((forall v, o = OFib v -> exists b h, nth_error (s_vars s) v = Some (VLive b h)) -> kgood n (destroy s t c fs p o)) ->
  kgood n (destroy s t c fs p o).
Proof.
  intros H. destruct o as [v|u]; [|apply H; discriminate]. cbn [destroy] in *.
  destruct (nth_error (s_vars s) v) as [[|b h]|] eqn:Hv; try exact I. apply H. intros w E. injection E as <-. eauto.
Qed.

Section Ctx.
  Variables (n t c : nat).

  Lemma local_destroy s x f rest o l :
    SInv n s -> K s -> nth_error (s_rec s) c = Some x -> nth_error (s_thr s) t = Some c -> r_frames x = FU f :: rest -> uf_objs f = o :: l ->
    kgood n (destroy s t c (FU (set_objs f l) :: rest) (OnCtx c) o).
  Proof.
    intros HI HK Hc Ht Hfs Ho. apply destroy_live. intros Hv. eapply destroy_k; eauto.
    - eapply local_dstate; eauto.
    - intros v b d -> E. destruct (var_fact n s t c v b d HI Ht E) as (A & _ & B). auto.
  Qed.

  Lemma ret_k s s1 x fs new p :
    K s -> nth_error (s_rec s) c = Some x -> s_rec s1 = upd (s_rec s) c (set_ontop x None) -> s_vars s1 = s_vars s -> s_nusr s1 = s_nusr s ->
    s_tr s1 = new ++ s_tr s -> forallb nosw new = true -> Forall (oev c) new -> forallb noob new = true ->
    stack_objs (s_tr s) c = fsobjs fs ++ r_caps x -> Forall (fok_exn (s_tr s) c) fs -> is_fin (hd_error (r_frames x)) = false -> wtks (r_frames x) <= wtks fs ->
    always krule (new ++ s_tr s) -> (exists g, hd_error (new ++ s_tr s) = Some (EvOntopRet c g p)) -> kgood n (ret_to s1 c fs p).
  Proof.
    intros HK Hc R1 R2 R3 R4 N O NB E1 E2 E3 E4 A (g & Hg).
    assert (Hc1 : nth_error (s_rec s1) c = Some (set_ontop x None)) by (rewrite R1; eapply nth_upd_eq; eauto).
    assert (Rr : krule (EvResumed c p) (new ++ s_tr s)).
    { split; [exact I|]. split; [|exact I]. split; [right; exists g; exact Hg|]. rewrite Hg. reflexivity. }
    assert (St : forall e, stack_objs (new ++ s_tr s) e = stack_objs (s_tr s) e).
    { intros e. clear -NB. induction new as [|a new IH]; [reflexivity|]. cbn in NB. apply andb_prop in NB. destruct NB as [N1 N2].
      cbn [app]. destruct a; try discriminate; cbn [stack_objs]; auto. }
    pose proof (vi_noob _ _ _ _ NB (k_v _ HK)) as V1.
    pose proof (k_loc _ HK c x Hc) as [L1 L2 L3 L4].
    assert (G : forall more s2 fs', s_rec s2 = s_rec s1 -> s_tr s2 = more ++ s_tr s1 -> forallb nosw more = true -> Forall (oev c) more ->
       stack_objs (more ++ new ++ s_tr s) c = fsobjs fs' ++ r_caps x -> Forall (fok_exn (s_tr s) c) fs' -> is_fin (hd_error fs') = false -> wtks fs <= wtks fs' ->
       VI (s_vars s2) (s_nusr s2) (more ++ new ++ s_tr s) -> always krule (more ++ new ++ s_tr s) -> ready (more ++ new ++ s_tr s) -> K (put_frames s2 c fs')).
    { intros more s2 fs' Q1 Q2 Q3 Q4 Q5 Q6 Q7 Q8 Q9 Q10 Q11.
      assert (Hc2 : nth_error (s_rec s2) c = Some (set_ontop x None)) by (rewrite Q1; exact Hc1).
      eapply (k_step s _ c x (set_frames (set_ontop x None) fs') (more ++ new) HK Hc).
      - rewrite (put_frames_rec _ _ _ _ Hc2), Q1, R1, upd_upd. reflexivity.
      - rewrite put_frames_tr, Q2, R4, app_assoc. reflexivity.
      - intros e Ne. apply (stack_objs_oev c); auto. apply Forall_app. auto.
      - intros e _. apply unwound_nosw. rewrite forallb_app, Q3, N. reflexivity.
      - rewrite <- app_assoc. constructor.
        + rewrite Q5. reflexivity.
        + cbn [set_frames r_frames]. rewrite app_assoc. apply fok_app. exact Q6.
        + cbn [set_frames set_ontop r_frames r_term r_alive]. intros Hu Ht Ha _. rewrite app_assoc in Hu. apply unwound_nosw in Hu; [|rewrite forallb_app, Q3, N; reflexivity].
          specialize (L3 Hu Ht Ha E3). lia.
        + cbn [set_frames r_frames]. intros q Hq. rewrite Hq in Q7. discriminate.
      - rewrite put_frames_vars. unfold put_frames. rewrite Hc2. cbn. rewrite <- app_assoc. exact Q9.
      - rewrite <- app_assoc. exact Q10.
      - rewrite <- app_assoc. exact Q11. }
    unfold ret_to. destruct fs as [|[f| | |e| | | | | | |] rest]; try exact I; intros _.
    - apply (G [EvCtor (OnCtx c) (OFib (length (s_vars s1))); EvResumed c p]); try reflexivity.
      + repeat constructor.
      + cbn. rewrite Nat.eqb_refl, St, E1. reflexivity.
      + inversion E2; subst. constructor; auto.
      + cbn [s_vars s_nusr emit add_var app]. apply vi_new; [discriminate|]. apply (vi_noob _ _ [_]); [reflexivity|]. rewrite R2, R3. exact V1.
      + cbn [app]. rewrite always_cons. split.
        * eapply kr_ctor_fib; [exact I|]. apply (vi_noob _ _ [_]); [reflexivity|]. rewrite R2. exact V1.
        * rewrite always_cons. auto.
    - apply (G [EvResumed c p]); try reflexivity.
      + repeat constructor.
      + cbn. rewrite St, E1. reflexivity.
      + inversion E2; subst. constructor; [intros ? []|]. constructor; [intros ? []|]. auto.
      + cbn [s_vars s_nusr emit app]. apply (vi_noob _ _ [_]); [reflexivity|]. rewrite R2, R3. exact V1.
      + cbn [app]. rewrite always_cons. auto.
  Qed.

  Lemma leave_ret_k s x f rest r :
    K s -> nth_error (s_rec s) c = Some x -> r_frames x = FU f :: rest -> r_term x = false -> r_alive x = true ->
    wfs (r_main x) (FU f :: rest) -> uf_mode f = MRet r -> uf_objs f = [] -> kgood n (leave_ret s c f rest r).
  Proof.
    intros HK Hc Hfs Htm Hal Hwf Hm Ho. pose proof (wfs_fok _ _ _ Hwf) as Hfok. unfold fok in Hfok. rewrite Hm in Hfok. destruct Hfok as [Hca _].
    pose proof (k_loc _ HK c x Hc) as [L1 L2 L3 L4]. pose proof (k_objs _ _ _ _ _ HK Hc Hfs) as Hob. rewrite Ho in Hob. cbn [app] in Hob.
    rewrite Hfs in L2, L3. inversion L2 as [|? ? _ L2']; subst.
    assert (W : wtks (FU f :: rest) = wtks rest) by (unfold wtks; cbn; rewrite Hm, Hca; reflexivity).
    assert (Pop : forall fs, hd_error fs = hd_error rest -> wtks fs = wtks rest -> fsobjs fs = fsobjs rest -> Forall (fok_exn (s_tr s) c) fs -> is_fin (hd_error rest) = false -> K (put_frames s c fs)).
    { intros fs H1 H2 H3 H4 H5. eapply (k_pf s s c x fs [] HK Hc); try reflexivity.
      - constructor.
      - cbn [app]. rewrite Hob, H3. reflexivity.
      - exact H4.
      - rewrite Hfs. split; [reflexivity|]. rewrite W, H2. auto.
      - intros p Hp. rewrite <- H1, Hp in H5. discriminate.
      - exact (k_v _ HK).
      - exact (k_rule _ HK).
      - exact (k_hd _ HK). }
    unfold leave_ret. destruct (uf_kind f) eqn:Hk.
    - exact I.
    - destruct rest as [|[g| | |e| | | | | | |] rest]; try exact I. intros _.
      assert (rest = []) as ->.
      { destruct rest; auto. apply wfs_cons in Hwf. destruct Hwf as [_ Hwf]. apply wfs_cons in Hwf. destruct Hwf as [[] _]. }
      assert (Hnu : ~ unwound (s_tr s) c).
      { intros Hu. specialize (L3 Hu Htm Hal eq_refl). rewrite W in L3. cbn in L3. lia. }
      eapply (k_pf s _ c x _ [_] HK Hc); try reflexivity.
      + repeat constructor.
      + cbn. rewrite Hob. reflexivity.
      + constructor; [intros ? []|constructor].
      + rewrite Hfs. split; [reflexivity|]. discriminate.
      + intros p _ Hu. contradiction.
      + cbn [s_vars s_nusr emit]. apply (vi_noob _ _ [_]); [reflexivity|exact (k_v _ HK)].
      + cbn [app]. rewrite always_cons. split; [|exact (k_rule _ HK)]. split; [exact I|]. split; [apply res_ok; [apply ready_after, k_hd; auto|exact I]|].
        cbn. intros Hu. contradiction.
    - destruct rest as [|[f0| | |e| | | | | | |] rest]; try exact I. unfold clear_ontop. cbn [emit s_rec]. rewrite Hc.
      eapply (ret_k s _ x rest [EvOntopRet c g r] r HK Hc); try reflexivity.
      + repeat constructor.
      + rewrite Hob. reflexivity.
      + inversion L2'; subst; auto.
      + rewrite Hfs. reflexivity.
      + rewrite Hfs, W. unfold wtks. cbn. lia.
      + cbn [app]. rewrite always_cons. split; [|exact (k_rule _ HK)]. split; [exact I|]. split; [apply res_ok; [apply ready_after, k_hd; auto|exact I]|exact I].
      + exists g. reflexivity.
    - destruct rest as [|[g| | |e| | | | | | |] rest]; try exact I. intros _. apply Pop; auto.
    - assert (Hnf : is_fin (hd_error rest) = false).
      { destruct rest as [|g rest]; [reflexivity|]. apply wfs_cons in Hwf. destruct Hwf as [[_ Hb] _]. rewrite Hk in Hb. destruct g; try contradiction; reflexivity. }
      assert (G : K (put_frames s c rest)) by (apply Pop; auto). destruct rest; intros _; exact G.
  Qed.

  Lemma leave_exn_k s x f rest e :
    K s -> nth_error (s_rec s) c = Some x -> r_frames x = FU f :: rest ->
    wfs (r_main x) (FU f :: rest) -> uf_mode f = MUnw e -> uf_objs f = [] -> kgood n (leave_exn s c f rest e).
  Proof.
    intros HK Hc Hfs Hwf Hm Ho. pose proof (wfs_fok _ _ _ Hwf) as Hfok. unfold fok in Hfok. rewrite Hm in Hfok.
    pose proof (k_loc _ HK c x Hc) as [L1 L2 L3 L4]. pose proof (k_objs _ _ _ _ _ HK Hc Hfs) as Hob. rewrite Ho in Hob. cbn [app] in Hob.
    rewrite Hfs in L2. inversion L2 as [|? ? L2a L2']; subst.
    assert (Hor : origin (s_tr s) c e) by (apply L2a; unfold fexn, uexn; rewrite Hm; left; reflexivity).
    assert (W : wtks (FU f :: rest) = tx e + wtks rest) by (unfold wtks; cbn; rewrite Hm, Hfok; lia).
    unfold leave_exn. destruct (uf_kind f) eqn:Hk.
    - exact I.
    - destruct rest as [|[g| | |e0| | | | | | |] rest]; try exact I. destruct e as [e|p]; [exact I|]. intros _.
      eapply (k_pf s _ c x _ [_] HK Hc); try reflexivity.
      + repeat constructor.
      + cbn. rewrite Hob. reflexivity.
      + inversion L2'; subst. constructor; [intros ? []|]. apply fok_app; auto.
      + rewrite Hfs. split; [reflexivity|]. discriminate.
      + intros q E _. injection E as <-. apply (unw_by_app [_]). exact Hor.
      + cbn [s_vars s_nusr emit]. apply (vi_noob _ _ [_]); [reflexivity|exact (k_v _ HK)].
      + cbn [app]. rewrite always_cons. split; [|exact (k_rule _ HK)]. split; [exact I|]. split; [apply res_ok; [apply ready_after, k_hd; auto|exact I]|].
        cbn. intros _. exact Hor.
    - destruct rest as [|[f0| | |e0| | | | | | |] rest]; try exact I. unfold raise_to. destruct rest as [|[g0| | |e0| | | | | | |] rest]; try exact I.
      intros _. eapply (k_pf s _ c x _ [EvRaised c e; EvOntopExn c g e] HK Hc); try reflexivity.
      + repeat constructor.
      + cbn. rewrite Hob. reflexivity.
      + inversion L2' as [|? ? _ L2'']; subst. inversion L2'' as [|? ? L3a L3b]; subst. constructor; [|apply fok_app; auto].
        intros e1 He1. apply origin_app. unfold fexn, uexn, set_mode in He1. cbn [uf_mode uf_caught] in He1. apply in_app_or in He1. destruct He1 as [[<-|[]]|He1]; [exact Hor|].
        apply L3a. unfold fexn, uexn. apply in_or_app. auto.
      + rewrite Hfs. split; [reflexivity|]. rewrite W. unfold wtks. cbn.
        apply wfs_cons in Hwf. destruct Hwf as [_ Hwf]. apply wfs_cons in Hwf. destruct Hwf as [Hb _]. cbn in Hb. rewrite Hb. lia.
      + discriminate.
      + cbn [s_vars s_nusr emit]. apply (vi_noob _ _ [_; _]); [reflexivity|exact (k_v _ HK)].
      + assert (A1 : krule (EvOntopExn c g e) (s_tr s)) by (split; [exact I|]; split; [apply res_ok; [apply ready_after, k_hd; auto|exact I]|exact Hor]).
        cbn [app]. rewrite always_cons. split.
        * split; [exact I|]. split; [split; [right; exists g; reflexivity|reflexivity]|]. cbn. apply (origin_app [_]). exact Hor.
        * rewrite always_cons. split; [exact A1|exact (k_rule _ HK)].
    - destruct rest as [|[g| | |e0| | | | | | |] rest]; try exact I. intros _.
      eapply (k_pf s s c x _ [] HK Hc); try reflexivity.
      + constructor.
      + cbn. rewrite Hob. reflexivity.
      + inversion L2' as [|? ? L3a L3b]; subst. constructor; [|exact L3b].
        intros e1 He1. unfold fexn, uexn, set_mode in He1. cbn [uf_mode uf_caught] in He1. apply in_app_or in He1. destruct He1 as [[<-|[]]|He1]; [exact Hor|].
        apply L3a. unfold fexn, uexn. apply in_or_app. auto.
      + rewrite Hfs. split; [reflexivity|]. rewrite W. unfold wtks. cbn.
        apply wfs_cons in Hwf. destruct Hwf as [[_ Hb] _]. rewrite Hk in Hb. cbn in Hb. rewrite Hb. lia.
      + discriminate.
      + exact (k_v _ HK).
      + exact (k_rule _ HK).
      + exact (k_hd _ HK).
    - destruct rest; exact I.
  Qed.
End Ctx.
