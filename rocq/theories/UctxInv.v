(** Invariant of the ucontext machine for calm histories: handles, objects, records, history. *)
From Coq Require Import List Arith Bool Lia.
From Verif Require Import ListUtil Uctx UctxSpec.
Import ListNotations.

(* ------------------------------------------------------------------ counting *)

Definition b2n (b : bool) : nat := if b then 1 else 0.
Definition wh (e : nat) (p : hopt) : nat := match p with Some d => b2n (Nat.eqb d e) | None => 0 end.
Definition wx (e : nat) (x : exn) : nat := match x with XForced p => wh e p | XUser _ => 0 end.
Definition wox (e : nat) (x : option exn) : nat := match x with Some x => wx e x | None => 0 end.

(** handles to record e in a frame *)
Definition wfr (e : nat) (f : frame) : nat :=
  match f with
  | FU u => match uf_mode u with MRet r => wh e r | MLand x | MUnw x => wx e x | MRun => 0 end + wox e (uf_caught u)
  | FFin r | FTmp r => wh e r
  | FRel d _ => b2n (Nat.eqb d e)
  | _ => 0
  end.
(** those among them that are values of fibers on their way out of a function *)
Definition wvr (e : nat) (f : frame) : nat :=
  match f with FU u => match uf_mode u with MRet r => wh e r | _ => 0 end | _ => 0 end.
Definition wvar (e : nat) (v : var) : nat := match v with VLive _ h => wh e h | VDead => 0 end.
Definition wfs_ (e : nat) (fs : list frame) : nat := sumf (wfr e) fs.
Definition wvs_ (e : nat) (fs : list frame) : nat := sumf (wvr e) fs.
Definition wrec (e : nat) (x : rcd) : nat := wfs_ e (r_frames x).
Definition wvrec (e : nat) (x : rcd) : nat := wvs_ e (r_frames x).
Definition cnt (e : nat) (s : state) : nat := sumf (wrec e) (s_rec s) + sumf (wvar e) (s_vars s).
Definition cv (e : nat) (s : state) : nat := sumf (wvrec e) (s_rec s) + sumf (wvar e) (s_vars s).

Definition rest_ (s : state) (e : nat) : nat :=
  match nth_error (s_rec s) e with
  | Some x => b2n (r_alive x && negb (existsb (Nat.eqb e) (s_thr s)))
  | None => 0
  end.
Definition is_main (s : state) (e : nat) : bool :=
  match nth_error (s_rec s) e with Some x => r_main x | None => false end.

(** suspended destructors of handles to e *)
Definition wpd (e : nat) (f : frame) : nat := match f with FDt d => b2n (Nat.eqb d e) | _ => 0 end.
Definition wpds (e : nat) (fs : list frame) : nat := sumf (wpd e) fs.
Definition wprec (e : nat) (x : rcd) : nat := wpds e (r_frames x).
Definition pend (e : nat) (s : state) : nat := sumf (wprec e) (s_rec s).

(** unwind requests in a frame *)
Definition tx (x : exn) : nat := match x with XForced _ => 1 | XUser _ => 0 end.
Definition wtk (f : frame) : nat :=
  match f with
  | FU u => match uf_mode u with MLand x | MUnw x => tx x | _ => 0 end
            + match uf_caught u with Some x => tx x | None => 0 end
  | _ => 0
  end.
Definition wtks (fs : list frame) : nat := sumf wtk fs.

Definition top (s : state) (e : nat) : option frame :=
  match nth_error (s_rec s) e with Some x => hd_error (r_frames x) | None => None end.
Definition idle (s : state) (e : nat) : Prop := top s e = Some FStart \/ top s e = Some FRes.

(** objects *)
Definition wob (v : nat) (o : obj) : nat := match o with OFib v' => b2n (Nat.eqb v' v) | OUsr _ => 0 end.
Definition wobs (v : nat) (l : list obj) : nat := sumf (wob v) l.
Definition wof (v : nat) (f : frame) : nat := match f with FU u => wobs v (uf_objs u) | _ => 0 end.
Definition wofs (v : nat) (fs : list frame) : nat := sumf (wof v) fs.
Definition worec (v : nat) (x : rcd) : nat := wofs v (r_frames x) + wobs v (r_caps x).
Definition own (v : nat) (s : state) : nat := sumf (worec v) (s_rec s).
Definition auto_live (x : option var) : nat := match x with Some (VLive false _) => 1 | _ => 0 end.
Definition wids (v : nat) (l : list nat) : nat := sumf (fun v' => b2n (Nat.eqb v' v)) l.

(* ------------------------------------------------------------------ shape of a stack *)

Definition fok (f : uframe) : Prop :=
  match uf_mode f with
  | MRet r => uf_caught f = None /\
              match uf_kind f with KMain => False | KPlain | KDtor _ => r = None | _ => True end
  | MUnw _ => uf_caught f = None
  | _ => True
  end.
Definition run_below (l : frame) : Prop := match l with FU g => uf_mode g = MRun | _ => False end.
Definition dtor_below (l : frame) : Prop :=
  match l with
  | FU g => match uf_mode g with MLand _ => False | _ => True end
  | FRel _ _ => True
  | _ => False
  end.

Definition below (u l : frame) : Prop :=
  match u with
  | FU f => fok f /\
      match uf_kind f with
      | KMain => False
      | KCtx => l = FRun
      | KOntop _ => l = FOnt
      | KPlain => run_below l
      | KDtor _ => dtor_below l
      end
  | FRes | FOnt => run_below l
  | FDt _ => dtor_below l
  | FRel _ false => dtor_below l
  | FRel _ true => run_below l
  | _ => False
  end.
Definition bottom (main : bool) (f : frame) : Prop :=
  match f with
  | FU u => fok u /\ main = true /\ uf_kind u = KMain
  | FStart | FRun | FFin _ => main = false
  | _ => False
  end.
Fixpoint wfs (main : bool) (fs : list frame) : Prop :=
  match fs with
  | [] => False
  | f :: r => match r with [] => bottom main f | g :: _ => below f g /\ wfs main r end
  end.

Definition waiting (f : frame) : bool := match f with FStart | FRes | FDt _ => true | _ => false end.
Definition active (f : frame) : bool := match f with FU _ | FFin _ | FRel _ _ => true | _ => false end.
Definition top_ok (p : frame -> bool) (fs : list frame) : Prop :=
  match fs with f :: _ => p f = true | [] => False end.

Definition runs (s : state) (c : nat) : bool := existsb (Nat.eqb c) (s_thr s).

Definition shape (run : bool) (x : rcd) : Prop :=
  (r_main x = false -> r_alloc x <> None) /\
  if r_alive x then
    if r_term x then r_frames x = [FRes; FRunEnd] /\ run = false /\ r_main x = false
    else wfs (r_main x) (r_frames x) /\ top_ok (if run then active else waiting) (r_frames x)
  else r_frames x = [] /\ r_caps x = [] /\ run = false /\ r_main x = false.

Definition term (s : state) (d : nat) : bool :=
  match nth_error (s_rec s) d with Some y => r_term y | None => false end.
Definition alive (s : state) (d : nat) : bool :=
  match nth_error (s_rec s) d with Some y => r_alive y | None => false end.

Definition exn_ok (s : state) (c : nat) (x : exn) : Prop :=
  match x with XForced p => exists b, p = Some b /\ top s b = Some (FDt c) | XUser _ => True end.
Definition frame_ok (s : state) (c : nat) (f : frame) : Prop :=
  match f with
  | FU u => match uf_mode u with MLand x | MUnw x => exn_ok s c x | _ => True end
            /\ match uf_caught u with Some x => exn_ok s c x | None => True end
  | FFin (Some p) => (pend c s = 1 /\ top s p = Some (FDt c)) \/ (pend c s = 0 /\ idle s p)
  | FFin None => pend c s = 0
  | FRel d false => term s d = true /\ is_main s d = false
  | FRel d true => In (EvFail d) (s_tr s) /\ is_main s d = false /\ top s d = Some FStart
  | FDt d => term s d = false /\ alive s d = true /\ is_main s d = false
  | _ => True
  end.

Definition is_fin (f : option frame) : bool := match f with Some (FFin _) => true | _ => false end.

(* ------------------------------------------------------------------ history *)

Definition no_switch (tr : list event) : Prop :=
  match hd_error tr with Some (EvSwitch _ _ _ _) => False | _ => True end.
(** the part of next_rule that does not depend on how injected functions behave *)
Definition next_rule0 (e : event) (old : list event) : Prop :=
  match hd_error old with
  | Some (EvSwitch _ from to SwUnwind) => e = EvRaised to (XForced (Some from))
  | Some (EvSwitch _ from to SwExit) =>
      e = EvResumed to (Some from) \/ e = EvEnter to (Some from) \/ (exists g, e = EvOntop to g (Some from))
      \/ (e = EvDestroyed to /\ unwound old from)
  | Some (EvSwitch _ from to _) =>
      e = EvResumed to (Some from) \/ e = EvEnter to (Some from) \/ (exists g, e = EvOntop to g (Some from))
  | _ => True
  end.
Definition rule (n : nat) (e : event) (old : list event) : Prop :=
  release_rule e old /\ thread_rule n e old /\ next_rule0 e old /\ life_rule e old.

Record Inv (n : nat) (s : state) (fl : option nat) (ol : list nat) : Prop := mk_inv {
  i_cnt : forall e, cnt e s + wh e fl <= rest_ s e /\ (is_main s e = false -> cnt e s + wh e fl = rest_ s e);
  i_idle : forall e, 0 < cv e s + wh e fl -> idle s e;
  i_frm : forall c x f, nth_error (s_rec s) c = Some x -> In f (r_frames x) -> frame_ok s c f;
  i_tok : forall c x, nth_error (s_rec s) c = Some x ->
            if r_term x then pend c s = 0
            else if is_fin (hd_error (r_frames x)) then True
            else pend c s = wtks (r_frames x);
  i_own : forall v, own v s + wids v ol = auto_live (nth_error (s_vars s) v);
  i_thr : length (s_thr s) = n /\ forall t c, nth_error (s_thr s) t = Some c -> running (s_tr s) t = c;
  i_nodup : forall t t' c, nth_error (s_thr s) t = Some c -> nth_error (s_thr s) t' = Some c -> t = t';
  i_runs : forall t c, nth_error (s_thr s) t = Some c -> alive s c = true;
  i_shape : forall c x, nth_error (s_rec s) c = Some x -> shape (runs s c) x;
  i_unw : forall c x, nth_error (s_rec s) c = Some x -> unwound (s_tr s) c -> r_term x = false ->
            hd_error (r_frames x) <> Some FRes /\ hd_error (r_frames x) <> Some FStart;
  i_unw2 : forall c x, nth_error (s_rec s) c = Some x -> 0 < pend c s \/ r_force x = true -> unwound (s_tr s) c;
  i_done : forall c x, nth_error (s_rec s) c = Some x ->
            (done (s_tr s) c <-> r_term x = true \/ is_fin (hd_error (r_frames x)) = true);
  i_ent : forall c x, nth_error (s_rec s) c = Some x ->
            (hd_error (r_frames x) = Some FStart -> ~ entered (s_tr s) c) /\
            (In FRun (r_frames x) -> entered (s_tr s) c) /\
            (entered (s_tr s) c \/ r_main x = true \/ In (EvFail c) (s_tr s) \/ hd_error (r_frames x) = Some FStart);
  i_freed : forall c x, nth_error (s_rec s) c = Some x -> (freed (s_tr s) c <-> r_alive x = false);
  i_alloc : forall c x a, nth_error (s_rec s) c = Some x -> r_alloc x = Some a -> In (EvAlloc c a) (s_tr s);
  i_len : forall c, length (s_rec s) <= c ->
            ~ entered (s_tr s) c /\ ~ done (s_tr s) c /\ ~ freed (s_tr s) c /\ ~ unwound (s_tr s) c;
  i_hd : no_switch (s_tr s);
  i_tr : always (rule n) (s_tr s);
  i_fin : forall c x p, nth_error (s_rec s) c = Some x -> hd_error (r_frames x) = Some (FFin p) -> In (EvDone c p) (s_tr s) }.

Definition SInv (n : nat) (s : state) : Prop := Inv n s None [].

(* ------------------------------------------------------------------ histories *)

Lemma always_nil P : always P [].
Proof. intros new e old H. destruct new; discriminate. Qed.
Lemma always_cons P e tr : always P (e :: tr) <-> P e tr /\ always P tr.
Proof.
  split.
  - intros H. split.
    + exact (H [] e tr eq_refl).
    + intros new e' old E. apply (H (e :: new) e' old). cbn. now rewrite E.
  - intros [H1 H2] new e' old E. destruct new as [|x new]; cbn in E; injection E as <- E.
    + rewrite <- E. exact H1.
    + exact (H2 new e' old E).
Qed.
Lemma always_app P new tr : always P (new ++ tr) -> always P tr.
Proof. induction new as [|e new IH]; cbn; [auto|]. rewrite always_cons. tauto. Qed.

(** events that change none of the notions used by the invariant *)
Definition plain (e : event) : bool :=
  match e with EvSwitch _ _ _ _ | EvEnter _ _ | EvDone _ _ | EvFree _ _ _ => false | _ => true end.

Lemma entered_cons e tr c : entered (e :: tr) c <-> (exists r, e = EvEnter c r) \/ entered tr c.
Proof. unfold entered. cbn. firstorder; subst; eauto. Qed.
Lemma done_cons e tr c : done (e :: tr) c <-> (exists r, e = EvDone c r) \/ done tr c.
Proof. unfold done. cbn. firstorder; subst; eauto. Qed.
Lemma unwound_cons e tr c : unwound (e :: tr) c <-> (exists t f, e = EvSwitch t f c SwUnwind) \/ unwound tr c.
Proof. unfold unwound. cbn. firstorder; subst; eauto. Qed.
Lemma freed_cons e tr c : freed (e :: tr) c <-> (exists a o, e = EvFree c a o) \/ freed tr c.
Proof. unfold freed. cbn. firstorder; subst; eauto. Qed.

Lemma entered_plain new tr c : forallb plain new = true -> (entered (new ++ tr) c <-> entered tr c).
Proof.
  induction new as [|e new IH]; cbn; [tauto|]. intros H. apply andb_prop in H. destruct H as [H1 H2].
  rewrite entered_cons, IH by exact H2. split; [intros [[r ->]|H]; [discriminate|exact H]|auto].
Qed.
Lemma done_plain new tr c : forallb plain new = true -> (done (new ++ tr) c <-> done tr c).
Proof.
  induction new as [|e new IH]; cbn; [tauto|]. intros H. apply andb_prop in H. destruct H as [H1 H2].
  rewrite done_cons, IH by exact H2. split; [intros [[r ->]|H]; [discriminate|exact H]|auto].
Qed.
Lemma unwound_plain new tr c : forallb plain new = true -> (unwound (new ++ tr) c <-> unwound tr c).
Proof.
  induction new as [|e new IH]; cbn; [tauto|]. intros H. apply andb_prop in H. destruct H as [H1 H2].
  rewrite unwound_cons, IH by exact H2. split; [intros [[r [f ->]]|H]; [discriminate|exact H]|auto].
Qed.
Lemma freed_plain new tr c : forallb plain new = true -> (freed (new ++ tr) c <-> freed tr c).
Proof.
  induction new as [|e new IH]; cbn; [tauto|]. intros H. apply andb_prop in H. destruct H as [H1 H2].
  rewrite freed_cons, IH by exact H2. split; [intros [[r [f ->]]|H]; [discriminate|exact H]|auto].
Qed.
Lemma running_plain new tr t : forallb plain new = true -> running (new ++ tr) t = running tr t.
Proof.
  induction new as [|e new IH]; cbn; [auto|]. intros H. apply andb_prop in H. destruct H as [H1 H2].
  destruct e; try discriminate; auto.
Qed.
Lemma no_switch_plain new tr : forallb plain new = true -> no_switch tr -> no_switch (new ++ tr).
Proof.
  destruct new as [|e new]; cbn; [auto|]. intros H _. apply andb_prop in H. destruct H as [H1 H2].
  unfold no_switch. cbn. destruct e; try discriminate; exact I.
Qed.

(** plain events executed on contexts that are not freed satisfy the rules *)
Definition calls (n : nat) (tr : list event) (e : event) : Prop :=
  (forall c, executes e c -> ~ freed tr c) /\
  (forall c, actor e = Some c -> exists t, t < n /\ running tr t = c).

Lemma rule_plain n e tr : plain e = true -> calls n tr e -> no_switch tr -> rule n e tr.
Proof.
  intros Hp [H1 H2] H3. unfold rule, release_rule, thread_rule, next_rule0, life_rule.
  unfold no_switch in H3. destruct (hd_error tr) as [[]|]; try contradiction; destruct e; try discriminate Hp; auto;
  repeat split; auto; intros ? Hf Hx; exact (H1 _ Hx Hf).
Qed.

Lemma always_plain n new tr :
  forallb plain new = true -> (forall e, In e new -> calls n tr e) -> no_switch tr ->
  always (rule n) tr -> always (rule n) (new ++ tr).
Proof.
  induction new as [|e new IH]; cbn; [auto|]. intros H Hc H3 Ha. apply andb_prop in H. destruct H as [H1 H2].
  rewrite always_cons. split; [|apply IH; auto].
  apply rule_plain; auto.
  - destruct (Hc e (or_introl eq_refl)) as [C1 C2]. split.
    + intros c Hx Hf. apply (freed_plain new tr c H2) in Hf. exact (C1 c Hx Hf).
    + intros c Hx. destruct (C2 c Hx) as [t [Ht Hr]]. exists t. rewrite running_plain; auto.
  - apply no_switch_plain; auto.
Qed.

(* ------------------------------------------------------------------ basic consequences *)

Lemma existsb_eqb e l : existsb (Nat.eqb e) l = true <-> In e l.
Proof.
  rewrite existsb_exists. split.
  - intros (x & H & E). apply Nat.eqb_eq in E. now subst.
  - intros H. exists e. rewrite Nat.eqb_refl. auto.
Qed.
Lemma runs_nth s c : runs s c = true <-> exists t, nth_error (s_thr s) t = Some c.
Proof. unfold runs. rewrite existsb_eqb. split; [apply In_nth_error|]. intros [t H]. eapply nth_error_In; eauto. Qed.
Lemma runs_false s c : runs s c = false <-> forall t, nth_error (s_thr s) t <> Some c.
Proof.
  rewrite <- not_true_iff_false, runs_nth. split.
  - intros H t E. apply H. eauto.
  - intros H [t E]. exact (H t E).
Qed.

Lemma wh_self e : wh e (Some e) = 1.
Proof. cbn. now rewrite Nat.eqb_refl. Qed.
Lemma wh_ne e d : d <> e -> wh e (Some d) = 0.
Proof. cbn. intros H. destruct (Nat.eqb_spec d e); [congruence|reflexivity]. Qed.
Lemma rest_le s e : rest_ s e <= 1.
Proof. unfold rest_. destruct (nth_error (s_rec s) e); [destruct (_ && _); cbn; lia|lia]. Qed.
Lemma rest_pos s e : 0 < rest_ s e ->
  exists x, nth_error (s_rec s) e = Some x /\ r_alive x = true /\ runs s e = false.
Proof.
  unfold rest_, runs. destruct (nth_error (s_rec s) e) as [x|]; [|lia].
  destruct (r_alive x) eqn:Ea, (existsb (Nat.eqb e) (s_thr s)) eqn:Er; cbn; try lia. intros _. exists x. auto.
Qed.
Lemma rest_run s t c : nth_error (s_thr s) t = Some c -> rest_ s c = 0.
Proof.
  intros H. unfold rest_. assert (E : existsb (Nat.eqb c) (s_thr s) = true) by (apply (runs_nth s c); eauto).
  rewrite E. destruct (nth_error (s_rec s) c); [|reflexivity]. rewrite andb_false_r. reflexivity.
Qed.

Lemma in_wfs e f fs : In f fs -> wfr e f <= wfs_ e fs.
Proof. intros H. apply In_nth_error in H. destruct H as [k H]. exact (sumf_le (wfr e) fs k f H). Qed.
Lemma rec_cnt e s c x : nth_error (s_rec s) c = Some x -> wfs_ e (r_frames x) <= cnt e s.
Proof. intros H. pose proof (sumf_le (wrec e) _ _ _ H). unfold cnt. unfold wrec in H0 at 1. lia. Qed.
Lemma frame_cnt e s c x f : nth_error (s_rec s) c = Some x -> In f (r_frames x) -> wfr e f <= cnt e s.
Proof. intros H1 H2. pose proof (in_wfs e f _ H2). pose proof (rec_cnt e s c x H1). lia. Qed.
Lemma cv_le e s : cv e s <= cnt e s.
Proof.
  unfold cv, cnt. assert (sumf (wvrec e) (s_rec s) <= sumf (wrec e) (s_rec s)); [|lia].
  induction (s_rec s) as [|x l IH]; cbn; [lia|].
  assert (wvrec e x <= wrec e x); [|lia]. unfold wvrec, wrec, wvs_, wfs_.
  induction (r_frames x) as [|f r IHf]; cbn; [lia|].
  assert (wvr e f <= wfr e f); [|lia]. destruct f; cbn; try lia. destruct (uf_mode f); lia.
Qed.

(** the parts of frame_ok that depend on other records refer to handles in the frame *)
Lemma exn_ok_ext s s' c x :
  (forall b, 0 < wx b x -> top s' b = top s b) -> exn_ok s c x -> exn_ok s' c x.
Proof.
  intros H. destruct x as [|p]; cbn; [auto|]. intros (b & -> & Ht). exists b. split; [reflexivity|].
  rewrite H; [exact Ht|]. cbn. rewrite Nat.eqb_refl. cbn. lia.
Qed.
Lemma frame_ok_ext s s' c f :
  (forall b, 0 < wfr b f -> top s' b = top s b) ->
  (is_fin (Some f) = true -> pend c s' = pend c s) ->
  (forall d, (0 < wfr d f \/ f = FDt d) -> term s' d = term s d /\ is_main s' d = is_main s d /\ alive s' d = alive s d) ->
  incl (s_tr s) (s_tr s') ->
  frame_ok s c f -> frame_ok s' c f.
Proof.
  intros H1 H2 H3 H4. destruct f as [u| | |d| | |[p|]| |q| |d [|]]; cbn [frame_ok]; auto.
  - intros [A B]. split.
    + destruct (uf_mode u) eqn:E; auto; (eapply exn_ok_ext; [|exact A]); intros b Hb; apply H1; cbn [wfr]; rewrite E; lia.
    + destruct (uf_caught u) eqn:E; auto; (eapply exn_ok_ext; [|exact B]); intros b Hb; apply H1; cbn [wfr]; rewrite E; cbn [wox]; lia.
  - intros A. destruct (H3 d (or_intror eq_refl)) as (E1 & E2 & E3). rewrite E1, E2, E3. exact A.
  - assert (Hp : 0 < wfr p (FFin (Some p))) by (cbn; rewrite Nat.eqb_refl; cbn; lia).
    unfold idle. rewrite (H1 p Hp), H2 by reflexivity. auto.
  - rewrite H2 by reflexivity. auto.
  - assert (Hp : 0 < wfr d (FRel d true)) by (cbn; rewrite Nat.eqb_refl; cbn; lia).
    destruct (H3 d (or_introl Hp)) as (E1 & E2 & _). rewrite E2, (H1 d Hp). intros (A & B & C). auto.
  - assert (Hp : 0 < wfr d (FRel d false)) by (cbn; rewrite Nat.eqb_refl; cbn; lia).
    destruct (H3 d (or_introl Hp)) as (E1 & E2 & _). rewrite E1, E2. auto.
Qed.

(** history extended by events that do not enter, free or unwind *)
Record tr_ext (n : nat) (tr tr' : list event) : Prop := mk_te {
  te_incl : incl tr tr';
  te_ent : forall c, entered tr' c <-> entered tr c;
  te_freed : forall c, freed tr' c <-> freed tr c;
  te_unw : forall c, unwound tr' c <-> unwound tr c;
  te_run : forall t, running tr' t = running tr t;
  te_hd : no_switch tr';
  te_rule : always (rule n) tr' }.

Lemma te_plain n tr new :
  forallb plain new = true -> (forall e, In e new -> calls n tr e) -> no_switch tr -> always (rule n) tr ->
  tr_ext n tr (new ++ tr).
Proof.
  intros H1 H2 H3 H4. constructor.
  - intros e He. apply in_or_app; auto.
  - intros c; apply entered_plain; auto.
  - intros c; apply freed_plain; auto.
  - intros c; apply unwound_plain; auto.
  - intros c; apply running_plain; auto.
  - apply no_switch_plain; auto.
  - apply always_plain; auto.
Qed.

(* ------------------------------------------------------------------ local steps *)

(** A step of the context c running on thread t that changes only its frames, variables and the history. *)
Lemma inv_local n s s' t c x x' fl ol fl' ol' :
  Inv n s fl ol ->
  nth_error (s_rec s) c = Some x -> nth_error (s_thr s) t = Some c ->
  s_rec s' = upd (s_rec s) c x' -> s_thr s' = s_thr s ->
  r_main x' = r_main x -> r_term x' = r_term x -> r_force x' = r_force x -> r_alive x' = r_alive x ->
  r_alloc x' = r_alloc x -> r_caps x' = r_caps x ->
  tr_ext n (s_tr s) (s_tr s') ->
  (forall e, e <> c -> (done (s_tr s') e <-> done (s_tr s) e)) ->
  (done (s_tr s') c <-> is_fin (hd_error (r_frames x')) = true) ->
  (forall e, wfs_ e (r_frames x') + sumf (wvar e) (s_vars s') + wh e fl'
          <= wfs_ e (r_frames x) + sumf (wvar e) (s_vars s) + wh e fl /\
     (is_main s e = false -> wfs_ e (r_frames x') + sumf (wvar e) (s_vars s') + wh e fl'
           = wfs_ e (r_frames x) + sumf (wvar e) (s_vars s) + wh e fl)) ->
  (forall e, wvs_ e (r_frames x') + sumf (wvar e) (s_vars s') + wh e fl'
          <= wvs_ e (r_frames x) + sumf (wvar e) (s_vars s) + wh e fl \/ idle s e) ->
  (forall e, wpds e (r_frames x') = wpds e (r_frames x)) ->
  (is_fin (hd_error (r_frames x')) = false ->
     is_fin (hd_error (r_frames x)) = false /\ wtks (r_frames x') = wtks (r_frames x)) ->
  (forall v, wofs v (r_frames x') + wids v ol' + auto_live (nth_error (s_vars s) v)
           = wofs v (r_frames x) + wids v ol + auto_live (nth_error (s_vars s') v)) ->
  (forall f, In f (r_frames x') -> In f (r_frames x) \/ frame_ok s c f) ->
  (In FRun (r_frames x') -> In FRun (r_frames x)) ->
  (forall p, hd_error (r_frames x') = Some (FFin p) -> In (EvDone c p) (s_tr s')) ->
  shape true x' ->
  Inv n s' fl' ol'.
Proof.
  intros I Hc Ht Hrec Hthr Em Et Ef Ea El Ek TE Hd1 Hd2 Hcnt0 Hcv0 Hpd Htk Hown Hfr Hrun Hfin Hsh.
  pose proof (nth_some_lt _ _ _ Hc) as Hlt.
  assert (Hnth : forall e, nth_error (s_rec s') e = if Nat.eqb c e then Some x' else nth_error (s_rec s) e).
  { intros e. rewrite Hrec, nth_upd. destruct (Nat.eqb_spec c e) as [<-|E]; [|reflexivity].
    apply Nat.ltb_lt in Hlt. now rewrite Hlt. }
  assert (Hsum : forall f : rcd -> nat, sumf f (s_rec s') + f x = sumf f (s_rec s) + f x').
  { intros f. rewrite Hrec. apply sumf_upd. exact Hc. }
  destruct I as [I1 I2 I3 I4 I5 I6 I7 I8 I9 I10 I11 I12 I13 I14 I15 I16 I17 I18 I19].
  assert (Hmain : forall e, is_main s' e = is_main s e).
  { intros e. unfold is_main. rewrite Hnth. destruct (Nat.eqb_spec c e) as [<-|E]; [|reflexivity]. now rewrite Hc. }
  assert (Hterm : forall e, term s' e = term s e).
  { intros e. unfold term. rewrite Hnth. destruct (Nat.eqb_spec c e) as [<-|E]; [|reflexivity]. now rewrite Hc. }
  assert (Haliv : forall e, alive s' e = alive s e).
  { intros e. unfold alive. rewrite Hnth. destruct (Nat.eqb_spec c e) as [<-|E]; [|reflexivity]. now rewrite Hc. }
  assert (Hruns : forall e, runs s' e = runs s e) by (intros e; unfold runs; now rewrite Hthr).
  assert (Hrest : forall e, rest_ s' e = rest_ s e).
  { intros e. unfold rest_. rewrite Hnth, Hthr. destruct (Nat.eqb_spec c e) as [<-|E]; [|reflexivity]. now rewrite Hc, Ea. }
  assert (Hpend : forall e, pend e s' = pend e s).
  { intros e. unfold pend. pose proof (Hsum (wprec e)) as E. unfold wprec in E at 2 4. rewrite Hpd in E. lia. }
  assert (Hcnt : forall e, cnt e s' + wh e fl' <= rest_ s' e /\ (is_main s' e = false -> cnt e s' + wh e fl' = rest_ s' e)).
  { intros e. rewrite Hmain, Hrest. unfold cnt. pose proof (Hsum (wrec e)) as E. unfold wrec in E at 2 4.
    destruct (Hcnt0 e) as [A1 A2]. destruct (I1 e) as [B1 B2]. unfold cnt in B1, B2.
    split; [lia|]. intros Hm. specialize (A2 Hm). specialize (B2 Hm). lia. }
  assert (Hc0 : cnt c s' = 0).
  { destruct (Hcnt c) as [A _]. rewrite Hrest, (rest_run s t c Ht) in A. lia. }
  assert (Htop : forall e, e <> c -> top s' e = top s e).
  { intros e He. unfold top. rewrite Hnth. destruct (Nat.eqb_spec c e); [congruence|reflexivity]. }
  assert (Hok : forall d f, (exists y, nth_error (s_rec s') d = Some y /\ In f (r_frames y)) -> frame_ok s d f -> frame_ok s' d f).
  { intros d f (y & Hy & Hin). apply frame_ok_ext; auto.
    - intros b Hb. apply Htop. intros ->. pose proof (frame_cnt c s' d y f Hy Hin). lia.
    - apply te_incl with n. exact TE. }
  constructor.
  - exact Hcnt.
  - intros e He. assert (Hne : e <> c).
    { intros ->. destruct (Hcnt c) as [A _]. rewrite Hrest, (rest_run s t c Ht) in A. pose proof (cv_le c s'). lia. }
    unfold idle. rewrite !Htop by exact Hne. destruct (Hcv0 e) as [Hle|Hid]; [|exact Hid]. apply I2.
    unfold cv in *. pose proof (Hsum (wvrec e)) as E. unfold wvrec in E at 2 4. lia.
  - intros d y f Hy Hin. apply Hok; [eauto|]. rewrite Hnth in Hy. destruct (Nat.eqb_spec c d) as [<-|E].
    + injection Hy as <-. destruct (Hfr f Hin) as [H|H]; [|exact H]. exact (I3 c x f Hc H).
    + exact (I3 d y f Hy Hin).
  - intros d y Hy. rewrite Hpend. rewrite Hnth in Hy. destruct (Nat.eqb_spec c d) as [<-|E]; [|exact (I4 d y Hy)].
    injection Hy as <-. pose proof (I4 c x Hc) as H. rewrite Et. destruct (r_term x); [exact H|].
    destruct (is_fin (hd_error (r_frames x'))) eqn:Ex; [exact Logic.I|].
    destruct (Htk eq_refl) as [A1 A2]. rewrite A1 in H. lia.
  - intros v. unfold own in *. pose proof (Hsum (worec v)) as E. unfold worec in E at 2 4. rewrite Ek in E.
    specialize (Hown v). specialize (I5 v). lia.
  - rewrite Hthr. split; [apply I6|]. intros t' c' H'. rewrite (te_run _ _ _ TE). now apply I6.
  - rewrite Hthr. exact I7.
  - intros t' c' H'. rewrite Hthr in H'. rewrite Haliv. eauto.
  - intros d y Hy. rewrite Hruns. rewrite Hnth in Hy. destruct (Nat.eqb_spec c d) as [<-|E]; [|exact (I9 d y Hy)].
    injection Hy as <-. replace (runs s c) with true; [exact Hsh|]. symmetry. apply runs_nth. eauto.
  - intros d y Hy Hu. rewrite (te_unw _ _ _ TE) in Hu. rewrite Hnth in Hy. destruct (Nat.eqb_spec c d) as [<-|E]; [|exact (I10 d y Hy Hu)].
    injection Hy as <-. intros Htf. unfold shape in Hsh. rewrite Htf, Ea in Hsh.
    assert (Hal : r_alive x = true) by (pose proof (I8 t c Ht) as A; unfold alive in A; rewrite Hc in A; exact A).
    rewrite Hal in Hsh. destruct Hsh as (_ & _ & Hto). destruct (r_frames x') as [|f0 r]; [destruct Hto|].
    cbn in *. split; intros E; injection E as ->; discriminate.
  - intros d y Hy. rewrite Hpend, (te_unw _ _ _ TE). rewrite Hnth in Hy. destruct (Nat.eqb_spec c d) as [<-|E]; [|exact (I11 d y Hy)].
    injection Hy as <-. rewrite Ef. exact (I11 c x Hc).
  - intros d y Hy. rewrite Hnth in Hy. destruct (Nat.eqb_spec c d) as [<-|E].
    + injection Hy as <-. rewrite Hd2, Et.
      assert (Htf : r_term x = false).
      { pose proof (I9 c x Hc) as A. unfold shape in A. pose proof (I8 t c Ht) as B. unfold alive in B. rewrite Hc in B.
        rewrite B in A. destruct (r_term x); [|reflexivity]. destruct A as (_ & _ & A & _).
        assert (runs s c = true) by (apply runs_nth; eauto). congruence. }
      rewrite Htf. intuition discriminate.
    + rewrite Hd1 by congruence. exact (I12 d y Hy).
  - intros d y Hy. rewrite !(te_ent _ _ _ TE). rewrite Hnth in Hy.
    assert (Hinc : In (EvFail d) (s_tr s) -> In (EvFail d) (s_tr s')) by (intros; apply (te_incl _ _ _ TE); auto).
    destruct (Nat.eqb_spec c d) as [<-|E].
    + injection Hy as <-. destruct (I13 c x Hc) as (A1 & A2 & A3). rewrite Em.
      assert (Hns : forall z, shape true z -> r_alive z = true -> r_term z = r_term x -> hd_error (r_frames z) <> Some FStart).
      { intros z Hz Hza Hzt. unfold shape in Hz. rewrite Hza in Hz. destruct (r_term z).
        - destruct Hz as (_ & _ & Hz & _). discriminate.
        - destruct Hz as (_ & _ & Hto). destruct (r_frames z) as [|f0 r]; [destruct Hto|]. cbn in *. intros E; injection E as ->. discriminate. }
      assert (Hal : r_alive x = true) by (pose proof (I8 t c Ht) as A; unfold alive in A; rewrite Hc in A; exact A).
      assert (Hsx : shape true x).
      { pose proof (I9 c x Hc) as A. replace (runs s c) with true in A; [exact A|]. symmetry. apply runs_nth. eauto. }
      pose proof (Hns x Hsx Hal eq_refl). pose proof (Hns x' Hsh ltac:(congruence) Et).
      repeat split; try tauto.
    + destruct (I13 d y Hy) as (A1 & A2 & A3). repeat split; tauto.
  - intros d y Hy. rewrite (te_freed _ _ _ TE). rewrite Hnth in Hy. destruct (Nat.eqb_spec c d) as [<-|E]; [|exact (I14 d y Hy)].
    injection Hy as <-. rewrite Ea. exact (I14 c x Hc).
  - intros d y a Hy Hya. apply (te_incl _ _ _ TE). rewrite Hnth in Hy. destruct (Nat.eqb_spec c d) as [<-|E]; [|exact (I15 d y a Hy Hya)].
    injection Hy as <-. rewrite El in Hya. exact (I15 c x a Hc Hya).
  - intros d Hd. rewrite Hrec, upd_length in Hd. rewrite (te_ent _ _ _ TE), (te_freed _ _ _ TE), (te_unw _ _ _ TE).
    rewrite Hd1 by lia. exact (I16 d Hd).
  - exact (te_hd _ _ _ TE).
  - exact (te_rule _ _ _ TE).
  - intros d y p Hy. rewrite Hnth in Hy. destruct (Nat.eqb_spec c d) as [<-|E].
    + injection Hy as <-. apply Hfin.
    + intros Hh. apply (te_incl _ _ _ TE). exact (I19 d y p Hy Hh).
Qed.
