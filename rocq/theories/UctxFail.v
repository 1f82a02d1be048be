(** * Which contexts a history may switch to (every step of the ucontext machine), and that a context whose
    construction failed is never switched to (calm histories).  Used by P_Hooks.v. *)
From Coq Require Import List Arith Bool Lia.
From Verif Require Import ListUtil Uctx UctxSpec UctxInv UctxInv2 UctxInv3 UctxInv4 UctxInv5 UctxInv6 UctxInv7 UctxInj UctxObj UctxObj2 UctxObj3 P_Uctx P_Uctx2.
Import ListNotations.

(** events of a step that constructs no context, with L records *)
Definition ok_ev (L : nat) (e : event) : Prop :=
  match e with EvAlloc _ _ | EvFail _ | EvFree _ _ _ => False | EvSwitch _ _ to _ => to < L | _ => True end.
Definition R (s s' : state) : Prop :=
  exists new, s_tr s' = new ++ s_tr s /\ length (s_rec s') = length (s_rec s) /\ Forall (ok_ev (length (s_rec s))) new.
Definition rel_in (l l' : list frame) : Prop := forall d b, In (FRel d b) l -> In (FRel d b) l'.
Definition keep (c : nat) (fs : list frame) (s' : state) : Prop :=
  exists x', nth_error (s_rec s') c = Some x' /\ rel_in fs (r_frames x').
Definition fx (c : nat) (fs : list frame) (s s' : state) : Prop := R s s' /\ keep c fs s'.

Lemma R_trans s s1 s2 : R s s1 -> R s1 s2 -> R s s2.
Proof.
  intros (n1 & E1 & L1 & F1) (n2 & E2 & L2 & F2). exists (n2 ++ n1). rewrite E2, E1, app_assoc. split; [reflexivity|]. split; [congruence|].
  apply Forall_app. rewrite L1 in F2. auto.
Qed.
Lemma put_frames_len s c fs : length (s_rec (put_frames s c fs)) = length (s_rec s).
Proof. unfold put_frames. destruct (nth_error (s_rec s) c); cbn; [apply upd_length|reflexivity]. Qed.
Lemma R_same s s' new : s_tr s' = new ++ s_tr s -> length (s_rec s') = length (s_rec s) -> Forall (ok_ev (length (s_rec s))) new -> R s s'.
Proof. exists new. auto. Qed.
Lemma R_put s s1 c fs : R s s1 -> R s (put_frames s1 c fs).
Proof. intros (n & E & L & F). exists n. rewrite put_frames_tr, put_frames_len. auto. Qed.
Lemma fx_put s s1 c fs fs' : R s s1 -> c < length (s_rec s) -> rel_in fs fs' -> fx c fs s (put_frames s1 c fs').
Proof.
  intros HR Hc Hi. split; [apply R_put; exact HR|]. destruct HR as (n & E & L & F). rewrite <- L in Hc.
  destruct (nth_error (s_rec s1) c) as [x|] eqn:Ex; [|apply nth_error_None in Ex; lia].
  exists (set_frames x fs'). split; [apply put_frames_nth; exact Ex|exact Hi].
Qed.
Lemma fx_then c fs s s1 s' : R s s1 -> fx c fs s1 s' -> fx c fs s s'.
Proof. intros H1 [H2 H3]. split; [eapply R_trans; eauto|exact H3]. Qed.
Lemma fx_weak c fs fs' s s' : rel_in fs fs' -> fx c fs' s s' -> fx c fs s s'.
Proof. intros H [H1 (x & H2 & H3)]. split; [exact H1|]. exists x. split; [exact H2|]. intros d b Hi. apply H3, H, Hi. Qed.
Lemma rel_refl l : rel_in l l. Proof. intros d b H; exact H. Qed.
Lemma rel_cons f l l' : rel_in l l' -> rel_in l (f :: l'). Proof. intros H d b Hi. right. apply H, Hi. Qed.
Lemma rel_drop f l l' : (forall d b, f <> FRel d b) -> rel_in l l' -> rel_in (f :: l) l'.
Proof. intros N H d b [E|Hi]; [destruct (N _ _ E)|apply H, Hi]. Qed.
Lemma rel_swap f g l l' : (forall d b, f <> FRel d b) -> rel_in l l' -> rel_in (f :: l) (g :: l').
Proof. intros N H. apply rel_drop; [exact N|]. apply rel_cons, H. Qed.
Ltac rl := repeat first [ apply rel_refl | apply rel_drop; [intros ? ?; discriminate|] | apply rel_cons ].

Lemma arrive_R s d s' : arrive s d = Next s' -> R s s'.
Proof.
  unfold arrive. destruct (nth_error (s_rec s) d) as [y|] eqn:Hd; [|discriminate].
  assert (P : R s (put_rec s d (set_from y None))) by (apply (R_same _ _ []); cbn; [reflexivity|apply upd_length|constructor]).
  assert (L : length (upd (s_rec s) d (set_from y None)) = length (s_rec s)) by apply upd_length.
  destruct (r_frames y) as [|[] rest]; try discriminate.
  - injection 1 as <-. apply R_put. eapply (R_same _ _ [_; _]); [reflexivity|reflexivity|repeat constructor].
  - destruct (r_force y).
    + unfold raise_to. destruct rest as [|[] rest]; try discriminate. injection 1 as <-. apply R_put. eapply (R_same _ _ [_]); [reflexivity|exact L|repeat constructor].
    + destruct (r_ontop y).
      * injection 1 as <-. apply R_put. eapply (R_same _ _ [_; _]); [reflexivity|exact L|repeat constructor].
      * unfold ret_to. destruct rest as [|[] rest]; try discriminate; injection 1 as <-; apply R_put; [eapply (R_same _ _ [_; _])|eapply (R_same _ _ [_])]; try reflexivity; try exact L; repeat constructor.
  - destruct (nth_error (s_rec s) d0) as [z|]; [|discriminate]. destruct (r_alive z); [|discriminate]. destruct (r_term z); [|discriminate].
    injection 1 as <-. apply R_put. eapply (R_same _ _ [_]); [reflexivity|exact L|repeat constructor].
Qed.
Lemma switch_fx s t c d k s' x : nth_error (s_thr s) t = Some c -> nth_error (s_rec s) c = Some x -> switch s t c d k = Next s' ->
  fx c (r_frames x) s s'.
Proof.
  intros Ht Hc H. unfold switch in H. destruct (nth_error (s_rec s) d) as [y|] eqn:Hd; [|discriminate].
  destruct (r_alive y && negb (existsb (Nat.eqb d) (s_thr s))) eqn:E; [|discriminate]. cbv zeta in H.
  apply andb_prop in E. destruct E as [_ E]. apply negb_true_iff in E.
  assert (Ne : c <> d).
  { intros ->. apply nth_error_In in Ht. assert (T : existsb (Nat.eqb d) (s_thr s) = true) by (apply existsb_exists; exists d; split; [exact Ht|apply Nat.eqb_refl]).
    rewrite T in E. discriminate. }
  split.
  - apply arrive_R in H as (n & En & L & F). cbn [s_tr s_rec] in *. rewrite upd_length in *.
    exists (n ++ [EvSwitch t c d k]). rewrite En, <- app_assoc. split; [reflexivity|]. split; [exact L|]. apply Forall_app. split; [exact F|].
    constructor; [|constructor]. cbn. eapply nth_some_lt; eauto.
  - apply arrive_cont in H as (_ & Ho & _). exists x. split; [|apply rel_refl]. rewrite Ho by exact Ne. cbn [s_rec]. rewrite nth_upd_ne by auto. exact Hc.
Qed.

Section Fx.
  Variables (t c : nat).
  Definition pre (s : state) : Prop := nth_error (s_thr s) t = Some c /\ c < length (s_rec s).

  Lemma pre_put s fs : pre s -> pre (put_frames s c fs).
  Proof. intros [A B]. split; [rewrite put_frames_thr'; exact A|rewrite put_frames_len; exact B]. Qed.
  Lemma switch_put s d k fs s' : pre s -> switch (put_frames s c fs) t c d k = Next s' -> fx c fs s s'.
  Proof.
    intros P H. pose proof (pre_put s fs P) as [P1 P2]. destruct P as [A B].
    destruct (nth_error (s_rec s) c) as [x|] eqn:Ex; [|apply nth_error_None in Ex; lia].
    pose proof (put_frames_nth s c fs x Ex) as N. apply (switch_fx _ _ _ _ _ _ _ P1 N) in H. cbn [set_frames r_frames] in H.
    eapply fx_then; [|exact H]. apply R_put. apply (R_same _ _ []); [reflexivity|reflexivity|constructor].
  Qed.
  Lemma drop_fx s fs h s' : pre s -> drop s t c fs h = Next s' -> fx c fs s s'.
  Proof.
    assert (R0 : R s s) by (apply (R_same _ _ []); [reflexivity|reflexivity|constructor]).
    intros P. unfold drop. destruct h as [d|]; [|injection 1 as <-; apply fx_put; [exact R0|apply P|apply rel_refl]].
    destruct (nth_error (s_rec s) d) as [y|]; [|discriminate].
    destruct (r_alive y); [|discriminate]. destruct (r_main y); [injection 1 as <-; apply fx_put; [exact R0|apply P|apply rel_refl]|].
    destruct (r_term y); [injection 1 as <-; apply fx_put; [exact R0|apply P|rl]|]. intros H. apply switch_put in H; [|exact P].
    eapply fx_weak; [|exact H]. rl.
  Qed.
  Lemma destroy_fx s fs p o s' : pre s -> destroy s t c fs p o = Next s' -> fx c fs s s'.
  Proof.
    intros P. unfold destroy. destruct o as [v|u].
    - destruct (nth_error (s_vars s) v) as [[|b h]|]; try discriminate. intros H. apply drop_fx in H; [|exact P]. eapply fx_then; [|exact H].
      eapply (R_same _ _ [_]); [reflexivity|reflexivity|repeat constructor].
    - injection 1 as <-. apply fx_put; [|apply P|rl]. eapply (R_same _ _ [_]); [reflexivity|reflexivity|repeat constructor].
  Qed.
  Lemma ret_fx s fs p s' : c < length (s_rec s) -> ret_to s c fs p = Next s' -> fx c fs s s'.
  Proof.
    intros P. unfold ret_to. destruct fs as [|[] rest]; try discriminate; injection 1 as <-; (apply fx_put; [|exact P|rl]);
      [eapply (R_same _ _ [_; _])|eapply (R_same _ _ [_])]; try reflexivity; repeat constructor.
  Qed.
  Lemma raise_fx s fs p s' : c < length (s_rec s) -> raise_to s c fs p = Next s' -> fx c fs s s'.
  Proof.
    intros P. unfold raise_to. destruct fs as [|[] rest]; try discriminate; injection 1 as <-; (apply fx_put; [|exact P|rl]);
      eapply (R_same _ _ [_]); try reflexivity; repeat constructor.
  Qed.
  Lemma new_fx s f rest b h s' : c < length (s_rec s) -> new_fib s c f rest b h = Next s' -> fx c rest s s'.
  Proof.
    intros P. unfold new_fib. destruct b; injection 1 as <-; (apply fx_put; [|exact P|rl]); eapply (R_same _ _ [_]); try reflexivity; repeat constructor.
  Qed.

  (** a step that constructs a context: one more record, no switch *)
  Definition creates (s s' : state) : Prop :=
    exists m1 m2 a, s_tr s' = m1 ++ m2 ++ EvAlloc (length (s_rec s)) a :: s_tr s /\ length (s_rec s') = S (length (s_rec s)) /\
      Forall (fun e => match e with EvCtor _ _ => True | _ => False end) m2 /\
      ((m1 = [EvFail (length (s_rec s))] /\ exists x, nth_error (s_rec s') c = Some x /\ In (FRel (length (s_rec s)) true) (r_frames x)) \/
       (exists p o, m1 = [EvCtor p o])).
  Lemma create_fx s f rest a l ok s' : c < length (s_rec s) -> do_create s c f rest a l ok = Next s' -> creates s s' /\ keep c rest s'.
  Proof.
    intros P. unfold do_create. cbv zeta. destruct (do_caps _ _ _ _) as [[s1 caps]|] eqn:Hd; [|discriminate]. apply do_caps_eff in Hd.
    destruct Hd as (R1 & R2 & _ & os & _ & E2 & _). set (s2 := mk_s _ _ _ _ _).
    assert (L2 : length (s_rec s2) = S (length (s_rec s))) by (unfold s2; cbn; rewrite app_length, R1; cbn; lia).
    assert (T2 : s_tr s2 = map (EvCtor (OnCtx (length (s_rec s)))) (rev os) ++ EvAlloc (length (s_rec s)) a :: s_tr s) by (unfold s2; cbn; rewrite E2; reflexivity).
    assert (F2 : Forall (fun e => match e with EvCtor _ _ => True | _ => False end) (map (EvCtor (OnCtx (length (s_rec s)))) (rev os))).
    { apply Forall_forall. intros e He. apply in_map_iff in He as (o & <- & _). exact Logic.I. }
    destruct ok; intros H.
    - pose proof H as H'. apply new_fx in H'; [|lia]. destruct H' as [_ K]. split; [|exact K].
      unfold new_fib in H. exists [EvCtor (OnCtx c) (OFib (length (s_vars s2)))], (map (EvCtor (OnCtx (length (s_rec s)))) (rev os)), a.
      injection H as <-. rewrite put_frames_tr, put_frames_len. cbn [emit add_var s_tr s_rec]. rewrite T2. split; [reflexivity|]. split; [exact L2|]. split; [exact F2|]. right. eauto.
    - assert (K : fx c rest (emit s2 (EvFail (length (s_rec s)))) s').
      { injection H as <-. apply fx_put; [|cbn [emit s_rec]; lia|rl]. apply (R_same _ _ []); [reflexivity|reflexivity|constructor]. }
      destruct K as [_ K]. split; [|exact K]. injection H as <-.
      exists [EvFail (length (s_rec s))], (map (EvCtor (OnCtx (length (s_rec s)))) (rev os)), a.
      rewrite put_frames_tr, put_frames_len. cbn [emit s_tr]. rewrite T2. split; [reflexivity|]. split; [exact L2|]. split; [exact F2|]. left. split; [reflexivity|].
      destruct (nth_error (s_rec (emit s2 (EvFail (length (s_rec s))))) c) as [x|] eqn:Ex; [|apply nth_error_None in Ex; cbn [emit s_rec] in Ex; lia].
      eexists. split; [apply put_frames_nth; exact Ex|]. left. reflexivity.
  Qed.

  Definition done_by (s s' : state) (fs : list frame) : Prop := fx c fs s s' \/ (creates s s' /\ keep c fs s').

  Lemma user_fx s f rest o s' x : pre s -> nth_error (s_rec s) c = Some x -> r_frames x = FU f :: rest -> user_step s t c f rest o = Next s' -> done_by s s' (FU f :: rest).
  Proof.
    intros P Hx Hf. destruct P as [P1 P2]. pose proof (conj P1 P2 : pre s) as P.
    assert (R0 : R s s) by (apply (R_same _ _ []); [reflexivity|reflexivity|constructor]).
    assert (Pv : forall v y, R s (put_var s v y)) by (intros; apply (R_same _ _ []); [reflexivity|reflexivity|constructor]).
    assert (Pe : forall e, R s (emit s (EvThrow c e))) by (intros; eapply (R_same _ _ [_]); [reflexivity|reflexivity|repeat constructor]).
    assert (W : fx c rest s s' -> done_by s s' (FU f :: rest)) by (intros; left; eapply fx_weak; [|eassumption]; rl).
    assert (Wc : creates s s' /\ keep c rest s' -> done_by s s' (FU f :: rest)).
    { intros [A (z & Hz & K)]. right. split; [exact A|]. exists z. split; [exact Hz|]. apply rel_drop; [intros ? ?; discriminate|exact K]. }
    assert (Pp : forall fs, rel_in rest fs -> fx c rest s (put_frames s c fs)) by (intros; apply fx_put; auto).
    unfold user_step. destruct (uf_mode f); try discriminate.
    - destruct o as [heap| |a l r|src heap|dst src|va vb|v| |src|src g| |v|e| | | |]; try discriminate.
      + intros H. apply W. eapply new_fx; eauto.
      + injection 1 as <-. apply W. apply fx_put; [eapply (R_same _ _ [_]); [reflexivity|reflexivity|repeat constructor]|exact P2|rl].
      + destruct r; intros H.
        * apply Wc. eapply create_fx; eauto.
        * injection H as <-. apply W. apply fx_put; [apply Pe|exact P2|rl].
        * apply Wc. eapply create_fx; eauto.
      + destruct (get_var s src) as [[b h]|]; [|discriminate]. intros H. apply W. eapply fx_then; [apply Pv|]. eapply new_fx; eauto.
      + destruct (get_var s dst) as [[bd hd]|]; [|discriminate]. destruct (get_var s src) as [[bs hs]|]; [|discriminate].
        destruct (Nat.eqb dst src).
        * injection 1 as <-. left. split; [exact R0|]. exists x. split; [exact Hx|]. rewrite Hf. apply rel_refl.
        * intros H. apply drop_fx in H; [|exact P]. left. eapply fx_then; [|exact H]. apply (R_same _ _ []); [reflexivity|reflexivity|constructor].
      + destruct (get_var s va) as [[bd hd]|]; [|discriminate]. destruct (get_var s vb) as [[bs hs]|]; [|discriminate]. injection 1 as <-.
        left. split; [apply (R_same _ _ []); [reflexivity|reflexivity|constructor]|]. exists x. split; [exact Hx|]. rewrite Hf. apply rel_refl.
      + destruct (get_var s v) as [[[] h]|]; try discriminate. intros H. left. eapply destroy_fx; eauto.
      + destruct (uf_objs f) as [|o l]; [discriminate|]. intros H. apply W. apply destroy_fx in H; [|exact P]. eapply fx_weak; [|exact H]. rl.
      + destruct (get_var s src) as [[b [d|]]|]; try discriminate. intros H. apply W. apply switch_put in H; [|exact P]. eapply fx_then; [apply (Pv src (VLive b None))|]. eapply fx_weak; [|exact H]. rl.
      + destruct (get_var s src) as [[b [d|]]|]; try discriminate. intros H. apply W. apply switch_put in H; [|exact P]. eapply fx_then; [apply (Pv src (VLive b None))|]. eapply fx_weak; [|exact H]. rl.
      + injection 1 as <-. apply W, Pp. rl.
      + destruct (uf_kind f); try discriminate; destruct (forced_caught f); try discriminate; destruct v as [v|]; try discriminate;
          try (injection 1 as <-; apply W, Pp; rl);
          (destruct (get_var s v) as [[b h]|]; [|discriminate]; injection 1 as <-; apply W; apply fx_put; [apply Pv|exact P2|rl]).
      + destruct (forced_caught f); [discriminate|]. injection 1 as <-. apply W. apply fx_put; [apply Pe|exact P2|rl].
      + destruct (uf_caught f) as [[]|]; try discriminate. injection 1 as <-. apply W, Pp. rl.
      + destruct (uf_caught f); try discriminate. injection 1 as <-. apply W, Pp. rl.
    - destruct o; try discriminate.
      + destruct (uf_caught f); try discriminate. injection 1 as <-. apply W, Pp. rl.
      + destruct (forced_caught f); try discriminate. injection 1 as <-. apply W, Pp. rl.
  Qed.
End Fx.

(** a step that frees a record *)
Definition frees (c : nat) (x : rcd) (s s' : state) : Prop :=
  exists d b al new, hd_error (r_frames x) = Some (FRel d b) /\ s_tr s' = new ++ EvFree d al c :: s_tr s /\
    length (s_rec s') = length (s_rec s) /\ Forall (ok_ev (length (s_rec s))) new /\ s_thr s' = s_thr s.

(** Every step constructs no context, and switches to existing ones only; or it constructs one and does not
    switch.  The frames of the executing context that release a record stay, unless the record was freed. *)
Lemma step_fx s t a s' c x : nth_error (s_thr s) t = Some c -> nth_error (s_rec s) c = Some x -> step s t a = Next s' ->
  (R s s' \/ frees c x s s' \/ creates c s s') /\
  forall d b, In (FRel d b) (r_frames x) -> freed (s_tr s') d \/ exists x', nth_error (s_rec s') c = Some x' /\ In (FRel d b) (r_frames x').
Proof.
  intros Ht Hc. pose proof (nth_some_lt _ _ _ Hc) as Lc.
  assert (P : pre t c s) by (split; auto).
  assert (D : done_by c s s' (r_frames x) -> (R s s' \/ frees c x s s' \/ creates c s s') /\
    forall d b, In (FRel d b) (r_frames x) -> freed (s_tr s') d \/ exists x', nth_error (s_rec s') c = Some x' /\ In (FRel d b) (r_frames x')).
  { intros [[A (z & Hz & K)]|[A (z & Hz & K)]]; (split; [auto|]); intros d b Hi; right; exists z; split; auto. }
  unfold step. rewrite Ht, Hc. destruct a as [|o].
  2:{ destruct (r_frames x) as [|[] rest] eqn:Hf; try discriminate. intros H. eapply D, user_fx; eauto. }
  assert (R0 : R s s) by (apply (R_same _ _ []); [reflexivity|reflexivity|constructor]).
  assert (Pp : forall fs fs', rel_in fs fs' -> fx c fs s (put_frames s c fs')) by (intros; apply fx_put; auto).
  assert (Pe : forall e fs fs', ok_ev (length (s_rec s)) e -> rel_in fs fs' -> fx c fs s (put_frames (emit s e) c fs')).
  { intros. apply fx_put; auto. apply (R_same _ _ [e]); [reflexivity|reflexivity|repeat constructor; auto]. }
  unfold tau_step. destruct (r_frames x) as [|[f| | |e| | |p| |p| |d b] rest] eqn:Hf; try discriminate.
  - intros H. apply D. left. revert H.
    destruct (uf_mode f); try discriminate; (destruct (uf_objs f); [|intros H; apply destroy_fx in H; [|exact P]; eapply fx_weak; [|exact H]; rl]).
    + unfold leave_ret. destruct (uf_kind f); try discriminate; destruct rest as [|[] rest]; try discriminate;
        try (injection 1 as <-; first [apply Pp; rl | apply Pe; [exact Logic.I|rl]]).
      intros H. apply ret_fx in H.
      * eapply fx_then; [|eapply fx_weak; [|exact H]; rl]. unfold clear_ontop. cbn [emit s_rec]. rewrite Hc.
        eapply (R_same _ _ [_]); [reflexivity|cbn; apply upd_length|repeat constructor].
      * unfold clear_ontop. cbn [emit s_rec]. rewrite Hc. cbn. rewrite upd_length. exact Lc.
    + unfold leave_exn. destruct (uf_kind f); try discriminate; destruct rest as [|[] rest]; try discriminate;
        try (injection 1 as <-; apply Pp; rl).
      * destruct e; try discriminate. injection 1 as <-. apply Pe; [exact Logic.I|rl].
      * intros H. apply raise_fx in H; [|exact Lc]. eapply fx_then; [|eapply fx_weak; [|exact H]; rl]. eapply (R_same _ _ [_]); [reflexivity|reflexivity|repeat constructor].
  - destruct p as [d|]; [|discriminate]. rewrite Hc. intros H. apply D. left.
    match type of H with switch ?z _ _ _ _ = _ => assert (N : nth_error (s_rec z) c = Some (set_done x (FRes :: FRunEnd :: rest))) by (cbn; apply nth_upd_lt; exact Lc) end.
    match type of H with switch ?z _ _ _ _ = _ => eapply (switch_fx z _ _ _ _ _ _ Ht N) in H end. eapply fx_then; [|eapply fx_weak; [|exact H]].
    + apply (R_same _ _ []); [reflexivity|cbn; apply upd_length|constructor].
    + cbn. rl.
  - intros H. apply D. left. apply drop_fx in H; [|exact P]. eapply fx_weak; [|exact H]. rl.
  - unfold rel_step. destruct (nth_error (s_rec s) d) as [y|] eqn:Hd; [|discriminate]. destruct (r_alive y); [|discriminate].
    destruct (r_caps y) as [|o l].
    + destruct (r_alloc y) as [al|]; [|discriminate].
      assert (G : forall s1 fs new, s' = put_frames s1 c fs -> s_rec s1 = upd (s_rec s) d (set_dead y) -> s_tr s1 = new ++ EvFree d al c :: s_tr s -> Forall (ok_ev (length (s_rec s))) new ->
        s_thr s1 = s_thr s -> rel_in rest fs -> (R s s' \/ frees c x s s' \/ creates c s s') /\
    forall d' b', In (FRel d' b') (FRel d b :: rest) -> freed (s_tr s') d' \/ exists x', nth_error (s_rec s') c = Some x' /\ In (FRel d' b') (r_frames x')).
      { intros s1 fs new -> E1 E2 F Th Hi.
        assert (Lc1 : c < length (s_rec s1)) by (rewrite E1, upd_length; exact Lc).
        split; [right; left|].
        - exists d, b, al, new. rewrite Hf, put_frames_tr, put_frames_len, E1, upd_length, put_frames_thr'. auto.
        - intros d' b' [E|Hi'].
          + injection E as <- <-. left. exists al, c. rewrite put_frames_tr, E2. apply in_or_app. right. left. reflexivity.
          + right. destruct (fx_put s1 s1 c rest fs) as [_ (z & Hz & K)]; [apply (R_same _ _ []); [reflexivity|reflexivity|constructor]|exact Lc1|exact Hi|].
            exists z. split; [exact Hz|]. apply K, Hi'. }
      destruct b.
      * destruct rest as [|[] rest]; try discriminate. injection 1 as <-. eapply (G _ _ [EvThrow c 1]); [reflexivity|reflexivity|reflexivity|repeat constructor|reflexivity|rl].
      * injection 1 as <-. eapply (G _ _ []); [reflexivity|reflexivity|reflexivity|repeat constructor|reflexivity|rl].
    + intros H. apply D. left. apply destroy_fx in H.
      * eapply fx_then; [|exact H]. apply (R_same _ _ []); [reflexivity|cbn; apply upd_length|constructor].
      * split; cbn; [exact Ht|rewrite upd_length; exact Lc].
Qed.

(* ------------------------------------------------------------------ all runs: which contexts exist *)

(** [EvAlloc] introduces contexts in order; switches go to main contexts or to introduced ones *)
Definition target_rule (n : nat) (e : event) (old : list event) : Prop :=
  match e with
  | EvSwitch _ _ to _ => to < n \/ exists a, In (EvAlloc to a) old
  | EvAlloc c _ => n <= c /\ forall a, ~ In (EvAlloc c a) old
  | EvFail c => exists a, In (EvAlloc c a) old
  | _ => True
  end.
Definition T (n : nat) (s : state) : Prop :=
  always (target_rule n) (s_tr s) /\ n <= length (s_rec s) /\ length (s_thr s) = n /\
  (forall c a, In (EvAlloc c a) (s_tr s) -> n <= c < length (s_rec s)) /\
  (forall c, n <= c < length (s_rec s) -> exists a, In (EvAlloc c a) (s_tr s)).

Lemma always_app P new old : always P old -> (forall m e k, new = m ++ e :: k -> P e (k ++ old)) -> always P (new ++ old).
Proof.
  revert old. induction new as [|e new IH]; intros old A B; [exact A|].
  assert (G : always P (new ++ old)) by (apply IH; [exact A|]; intros m x k ->; apply (B (e :: m)); reflexivity).
  intros m x k E. destruct m as [|y m]; cbn in E; injection E as -> E.
  - rewrite <- E. apply (B [] x new). reflexivity.
  - eapply G. exact E.
Qed.
Lemma step_T n s t a s' : T n s -> step s t a = Next s' -> T n s'.
Proof.
  intros (A & L & Lt & H1 & H2) H.
  destruct (nth_error (s_thr s) t) as [c|] eqn:Ht; [|unfold step in H; rewrite Ht in H; discriminate].
  assert (Lt' : length (s_thr s') = n).
  { destruct (C47_step s t a s' c Ht H) as (new & _ & [[_ ->]|(d & k & m1 & m2 & _ & _ & _ & ->)] & _); [exact Lt|rewrite upd_length; exact Lt]. }
  destruct (nth_error (s_rec s) c) as [x|] eqn:Hc; [|unfold step in H; rewrite Ht, Hc in H; discriminate].
  destruct (step_fx s t a s' c x Ht Hc H) as [HH _].
  assert (HH' : (exists new, s_tr s' = new ++ s_tr s /\ length (s_rec s') = length (s_rec s) /\ Forall (fun e => ok_ev (length (s_rec s)) e \/ exists d a o, e = EvFree d a o) new) \/ creates c s s').
  { destruct HH as [(new & E & Le & F)|[(d & b & al & new & _ & E & Le & F & _)|HH]]; [left|left|right; exact HH].
    - exists new. split; [exact E|]. split; [exact Le|]. eapply Forall_impl; [|exact F]. auto.
    - exists (new ++ [EvFree d al c]). rewrite <- app_assoc. split; [exact E|]. split; [exact Le|]. apply Forall_app. split; [eapply Forall_impl; [|exact F]; auto|].
      constructor; [right; eauto|constructor]. }
  clear HH. destruct HH' as [(new & E & Le & F)|(m1 & m2 & al & E & Le & F & G)].
  - assert (Na : forall c a, ~ In (EvAlloc c a) new) by (intros c' a' Hi; rewrite Forall_forall in F; destruct (F _ Hi) as [[]|(d & a0 & o & E0)]; discriminate).
    split; [|split; [lia|split; [exact Lt'|split]]].
    + rewrite E. apply always_app; [exact A|]. intros m e k ->. apply Forall_app in F. destruct F as [_ F]. pose proof (Forall_inv F) as He. cbn beta in He.
      destruct He as [He|(d & a0 & o & ->)]; [|exact Logic.I]. destruct e as [| | |? ? to ?| | | | | | | | | | |]; try exact Logic.I; try contradiction He. cbn in He |- *. destruct (Nat.lt_ge_cases to n) as [Hl|Hl]; [auto|right].
      destruct (H2 to (conj Hl He)) as [a' Ha]. exists a'. apply in_or_app; auto.
    + intros c' a' Hi. rewrite E in Hi. apply in_app_or in Hi. destruct Hi as [Hi|Hi]; [destruct (Na _ _ Hi)|]. rewrite Le. eauto.
    + intros c' Hi. rewrite Le in Hi. destruct (H2 c' Hi) as [a' Ha]. exists a'. rewrite E. apply in_or_app; auto.
  - assert (Nm : forall c a, ~ In (EvAlloc c a) (m1 ++ m2)).
    { intros c' a' Hi. apply in_app_or in Hi. destruct Hi as [Hi|Hi].
      - destruct G as [[-> _]|(p & o & ->)]; destruct Hi as [Hi|[]]; discriminate.
      - rewrite Forall_forall in F. apply (F _ Hi). }
    split; [|split; [lia|split; [exact Lt'|split]]].
    + rewrite E, app_assoc. change (EvAlloc (length (s_rec s)) al :: s_tr s) with ([EvAlloc (length (s_rec s)) al] ++ s_tr s).
      apply always_app; [apply always_app; [exact A|]|].
      * intros m e k E'. destruct m as [|? [|? ?]]; try discriminate. injection E' as <- <-. cbn. split; [exact L|]. intros a' Hi. apply H1 in Hi. lia.
      * intros m e k E'. assert (Hi : In e (m1 ++ m2)) by (rewrite E'; apply in_or_app; right; left; reflexivity). apply in_app_or in Hi.
        destruct Hi as [Hi|Hi].
        -- destruct G as [[-> _]|(p & o & ->)]; destruct Hi as [<-|[]]; cbn; [|exact Logic.I]. exists al. apply in_or_app. right. left. reflexivity.
        -- rewrite Forall_forall in F. specialize (F _ Hi). destruct e; try contradiction. exact Logic.I.
    + intros c' a' Hi. rewrite E, app_assoc in Hi. apply in_app_or in Hi. destruct Hi as [Hi|[Hi|Hi]]; [destruct (Nm _ _ Hi)| |].
      * injection Hi as <- <-. lia.
      * apply H1 in Hi. lia.
    + intros c' Hi. rewrite E, app_assoc. destruct (Nat.eq_dec c' (length (s_rec s))) as [->|Ne].
      * exists al. apply in_or_app. right. left. reflexivity.
      * destruct (H2 c' ltac:(lia)) as [a' Ha]. exists a'. apply in_or_app. right. right. exact Ha.
Qed.
Lemma init_T n : T n (init n).
Proof.
  split; [intros new e old E; destruct new; discriminate|]. cbn. rewrite map_length, seq_length. split; [lia|]. split; [reflexivity|]. split; [intros c a []|intros c H; lia].
Qed.
Lemma run_T n l : forall s s', T n s -> run s l = Next s' -> T n s'.
Proof.
  induction l as [|[t a] l IH]; intros s s' H; cbn [run]; [injection 1 as <-; exact H|].
  destruct (step s t a) as [s1| | | | |] eqn:E; try discriminate. apply IH. eapply step_T; eauto.
Qed.
Lemma targets n l s : run (init n) l = Next s -> always (target_rule n) (s_tr s).
Proof. intros H. apply (run_T n l _ _ (init_T n) H). Qed.

(* ------------------------------------------------------------------ calm runs: failed contexts *)

(** a context whose construction failed is never switched to *)
Definition fail_rule (e : event) (old : list event) : Prop :=
  match e with EvSwitch _ _ to _ => ~ In (EvFail to) old | _ => True end.
Definition FI (s : state) : Prop :=
  always fail_rule (s_tr s) /\
  forall d, In (EvFail d) (s_tr s) -> freed (s_tr s) d \/ exists c x, nth_error (s_rec s) c = Some x /\ In (FRel d true) (r_frames x).

Lemma always_suffix P new old : always P (new ++ old) -> always P old.
Proof. intros H m e k ->. apply (H (new ++ m)). rewrite app_assoc. reflexivity. Qed.
Lemma freed_app new old d : freed old d -> freed (new ++ old) d.
Proof. intros (a & o & H). exists a, o. apply in_or_app; auto. Qed.
Lemma start_only main fs rest : fs = FStart :: rest -> wfs main fs -> rest = [].
Proof. intros -> H. destruct rest; [reflexivity|]. cbn in H. destruct H as [[] _]. Qed.
Lemma fin_only main fs p rest : fs = FFin p :: rest -> wfs main fs -> rest = [].
Proof. intros -> H. destruct rest; [reflexivity|]. cbn in H. destruct H as [[] _]. Qed.

(** the frames of a record that may be released contain no release *)
Lemma released_no_rel n s d b c x y d' b' : SInv n s -> nth_error (s_rec s) c = Some x -> In (FRel d b) (r_frames x) ->
  nth_error (s_rec s) d = Some y -> ~ In (FRel d' b') (r_frames y).
Proof.
  intros HI Hc Hi Hd Hi'. pose proof (i_frm _ _ _ _ HI c x _ Hc Hi) as F. pose proof (i_shape _ _ _ _ HI d y Hd) as Sh. unfold shape in Sh.
  destruct Sh as [_ Sh]. destruct b; cbn in F.
  - destruct F as (_ & _ & F). unfold top in F. rewrite Hd in F. destruct (r_alive y); [|destruct Sh as [E _]; rewrite E in F; discriminate].
    destruct (r_term y); [destruct Sh as [E _]; rewrite E in F; discriminate|]. destruct Sh as [W _].
    destruct (r_frames y) as [|f rest]; [discriminate|]. cbn in F. injection F as ->. rewrite (start_only _ _ rest eq_refl W) in Hi'. destruct Hi' as [E|[]]. discriminate.
  - destruct F as [F _]. unfold term in F. rewrite Hd in F. rewrite F in Sh. destruct (r_alive y); destruct Sh as [E _]; rewrite E in Hi'; [|destruct Hi'].
    destruct Hi' as [E'|[E'|[]]]; discriminate.
Qed.
Lemma running_no_rel n s t d b c x : SInv n s -> nth_error (s_thr s) t = Some d -> nth_error (s_rec s) c = Some x -> ~ In (FRel d b) (r_frames x).
Proof.
  intros HI Ht Hc Hi. destruct (i_cnt _ _ _ _ HI d) as [C _]. cbn [wh] in C.
  assert (Rd : rest_ s d = 0).
  { unfold rest_. destruct (nth_error (s_rec s) d); [|reflexivity]. replace (existsb (Nat.eqb d) (s_thr s)) with true; [rewrite andb_false_r; reflexivity|].
    symmetry. apply existsb_exists. exists d. split; [eapply nth_error_In; eauto|apply Nat.eqb_refl]. }
  rewrite Rd in C. unfold cnt in C.
  assert (P : 0 < wrec d x).
  { unfold wrec, wfs_. clear -Hi. induction (r_frames x) as [|f l IH]; [destruct Hi|]. destruct Hi as [->|Hi]; cbn; [rewrite Nat.eqb_refl; cbn; lia|].
    specialize (IH Hi). lia. }
  assert (Q : wrec d x <= sumf (wrec d) (s_rec s)).
  { apply nth_error_In in Hc. clear -Hc. induction (s_rec s) as [|y l IH]; [destruct Hc|]. destruct Hc as [->|Hc]; cbn; [lia|]. specialize (IH Hc). lia. }
  lia.
Qed.
Lemma continued_rel fs fs' d b : continued fs fs' -> In (FRel d b) fs -> In (FRel d b) fs'.
Proof. intros H Hi. destruct H; cbn in *; intuition discriminate. Qed.

Lemma step_FI n s t a s' : SInv n s -> SInv n s' -> FI s -> step s t a = Next s' -> FI s'.
Proof.
  intros HI HI' [A F] H.
  destruct (nth_error (s_thr s) t) as [c|] eqn:Ht; [|unfold step in H; rewrite Ht in H; discriminate].
  destruct (nth_error (s_rec s) c) as [x|] eqn:Hc; [|unfold step in H; rewrite Ht, Hc in H; discriminate].
  destruct (C47_step s t a s' c Ht H) as (new & En & Th & K). destruct (step_fx s t a s' c x Ht Hc H) as [Cs Kc].
  (* failed contexts of s are still freed or about to be *)
  assert (G : forall d, In (EvFail d) (s_tr s) -> freed (s_tr s') d \/ exists c x, nth_error (s_rec s') c = Some x /\ In (FRel d true) (r_frames x)).
  { intros d Hd. destruct (F d Hd) as [Hf|(c0 & y & Hy & Hi)]; [left; rewrite En; apply freed_app; exact Hf|].
    destruct (Nat.eq_dec c0 c) as [->|Ne].
    - rewrite Hc in Hy. injection Hy as <-. destruct (Kc d true Hi) as [Hf|(x' & Hx' & Hi')]; [left; exact Hf|right; eauto].
    - destruct (K c0 (r_frames y) Ne) as [B|[(k & fs' & _ & B & Ct)|(al & B)]]; [unfold stack_of; rewrite Hy; reflexivity| | |].
      + unfold stack_of in B. destruct (nth_error (s_rec s') c0) as [y'|] eqn:Hy'; [|discriminate]. injection B as B. right. exists c0, y'. split; [exact Hy'|]. rewrite B. exact Hi.
      + unfold stack_of in B. destruct (nth_error (s_rec s') c0) as [y'|] eqn:Hy'; [|discriminate]. injection B as B. right. exists c0, y'. split; [exact Hy'|]. rewrite B.
        eapply continued_rel; eauto.
      + exfalso. destruct Cs as [(n1 & E1 & _ & F1)|[(d1 & b1 & al1 & n1 & Hd1 & E1 & _ & F1 & _)|(m1 & m2 & al1 & E1 & _ & F1 & G1)]].
        * rewrite E1 in En. apply app_inv_tail in En. subst n1. rewrite Forall_forall in F1. apply (F1 _ B).
        * change (EvFree d1 al1 c :: s_tr s) with ([EvFree d1 al1 c] ++ s_tr s) in E1. rewrite app_assoc in E1. rewrite E1 in En. apply app_inv_tail in En. subst new.
          apply in_app_or in B. destruct B as [B|[B|[]]]; [rewrite Forall_forall in F1; apply (F1 _ B)|]. injection B as -> ->.
          eapply (released_no_rel n s c0 b1 c x y d true HI Hc); eauto. destruct (r_frames x); [discriminate|]. injection Hd1 as ->. left. reflexivity.
        * change (EvAlloc (length (s_rec s)) al1 :: s_tr s) with ([EvAlloc (length (s_rec s)) al1] ++ s_tr s) in E1. rewrite !app_assoc in E1. rewrite E1 in En. apply app_inv_tail in En. subst new.
          apply in_app_or in B. destruct B as [B|[B|[]]]; [|discriminate]. apply in_app_or in B. destruct B as [B|B].
          -- destruct G1 as [[-> _]|(p & o & ->)]; destruct B as [B|[]]; discriminate.
          -- rewrite Forall_forall in F1. apply (F1 _ B). }
  assert (NF : forall d, In (EvFail d) (s_tr s') -> In (EvFail d) (s_tr s) \/ (creates c s s' /\ d = length (s_rec s))).
  { intros d Hd. destruct Cs as [(n1 & E1 & _ & F1)|[(d1 & b1 & al1 & n1 & Hd1 & E1 & _ & F1 & _)|Cr]].
    - rewrite E1 in Hd. apply in_app_or in Hd. destruct Hd as [Hd|Hd]; [|auto]. rewrite Forall_forall in F1. destruct (F1 _ Hd).
    - rewrite E1 in Hd. apply in_app_or in Hd. destruct Hd as [Hd|[Hd|Hd]]; [|discriminate|auto]. rewrite Forall_forall in F1. destruct (F1 _ Hd).
    - pose proof Cr as (m1 & m2 & al1 & E1 & _ & F1 & G1). rewrite E1 in Hd. apply in_app_or in Hd. destruct Hd as [Hd|Hd].
      + destruct G1 as [[-> _]|(p & o & ->)]; destruct Hd as [Hd|[]]; [|discriminate]. injection Hd as <-. auto.
      + apply in_app_or in Hd. destruct Hd as [Hd|[Hd|Hd]]; [|discriminate|auto]. rewrite Forall_forall in F1. destruct (F1 _ Hd). }
  split.
  - rewrite En. apply always_app; [exact A|]. intros m e k ->. destruct e as [| | |t' from to sk| | | | | | | | | | |]; try exact Logic.I. cbn. intros Hd.
    (* the switch went to [to], which now runs *)
    assert (Rt : nth_error (s_thr s') t = Some to).
    { destruct Th as [[N _]|(d & k' & m1 & m2 & E & N1 & N2 & Th)].
      - unfold no_sw in N. rewrite forallb_app in N. apply andb_prop in N. destruct N as [_ N]. discriminate.
      - rewrite Th. assert (d = to) as ->; [|apply nth_upd_lt; eapply nth_some_lt; eauto].
        assert (Hin : In (EvSwitch t' from to sk) (m1 ++ EvSwitch t c d k' :: m2)) by (rewrite <- E; apply in_or_app; right; left; reflexivity).
        assert (Nn : forall l, no_sw l -> ~ In (EvSwitch t' from to sk) l) by (intros l Nl Hl; unfold no_sw in Nl; rewrite forallb_forall in Nl; specialize (Nl _ Hl); discriminate).
        apply in_app_or in Hin. destruct Hin as [Hin|[Hin|Hin]]; [destruct (Nn _ N1 Hin)|congruence|destruct (Nn _ N2 Hin)]. }
    assert (Hd' : In (EvFail to) (s_tr s)).
    { destruct (NF to) as [Hd'|[(m1 & m2 & al1 & E1 & _ & F1 & G1) _]]; [|exact Hd'|].
      - rewrite En. rewrite <- app_assoc. apply in_or_app. right. right. exact Hd.
      - exfalso. rewrite E1 in En. assert (In (EvSwitch t' from to sk) (m1 ++ m2 ++ [EvAlloc (length (s_rec s)) al1])) as Hin.
        { change (EvAlloc (length (s_rec s)) al1 :: s_tr s) with ([EvAlloc (length (s_rec s)) al1] ++ s_tr s) in En. rewrite !app_assoc in En. apply app_inv_tail in En.
          rewrite app_assoc, En. apply in_or_app. right. left. reflexivity. }
        apply in_app_or in Hin. destruct Hin as [Hin|Hin]; [destruct G1 as [[-> _]|(p & o & ->)]; destruct Hin as [Hin|[]]; discriminate|].
        apply in_app_or in Hin. destruct Hin as [Hin|[Hin|[]]]; [|discriminate]. rewrite Forall_forall in F1. destruct (F1 _ Hin). }
    destruct (G to Hd') as [Hf|(c0 & y & Hy & Hi)].
    + pose proof (i_runs _ _ _ _ HI' t to Rt) as Al. unfold alive in Al. destruct (nth_error (s_rec s') to) as [z|] eqn:Hz; [|discriminate].
      pose proof (proj1 (i_freed _ _ _ _ HI' to z Hz) Hf). congruence.
    + eapply (running_no_rel n s' t to true c0 y HI' Rt Hy); eauto.
  - intros d Hd. destruct (NF d Hd) as [Hd'|[(m1 & m2 & al1 & E1 & _ & F1 & G1) ->]]; [auto|].
    destruct G1 as [[-> (z & Hz & Hi)]|(p & o & ->)]; [right; eauto|]. exfalso. rewrite E1 in Hd. cbn [app] in Hd. destruct Hd as [Hd|Hd]; [discriminate|].
    apply in_app_or in Hd. destruct Hd as [Hd|[Hd|Hd]]; [rewrite Forall_forall in F1; destruct (F1 _ Hd)|discriminate|].
    destruct (F _ Hd) as [Hf|(c0 & y & Hy & Hi)].
    + destruct (i_len _ _ _ _ HI (length (s_rec s)) (le_n _)) as (_ & _ & N & _). auto.
    + pose proof (i_frm _ _ _ _ HI c0 y _ Hy Hi) as (_ & _ & Tp). unfold top in Tp.
      destruct (nth_error (s_rec s) (length (s_rec s))) as [z|] eqn:Hz; [|discriminate]. apply nth_some_lt in Hz. lia.
Qed.

Lemma run_FI n l : forall l0 s s', run (init n) l0 = Next s -> FI s -> run s l = Next s' -> calm (s_tr s') -> FI s'.
Proof.
  induction l as [|[t a] l IH]; intros l0 s s' H0 HF; cbn [run]; [injection 1 as <-; auto|].
  destruct (step s t a) as [s1| | | | |] eqn:E; try discriminate. intros H Hc.
  assert (H1 : run (init n) (l0 ++ [(t, a)]) = Next s1) by (rewrite run_app, H0; cbn; rewrite E; reflexivity).
  assert (C1 : calm (s_tr s1)) by (destruct (run_grows _ _ _ H) as [m Em]; rewrite Em in Hc; eapply always_suffix; eauto).
  assert (C0 : calm (s_tr s)).
  { assert (E1 : run s [(t, a)] = Next s1) by (cbn; rewrite E; reflexivity). destruct (run_grows _ _ _ E1) as [m Em]; rewrite Em in C1; eapply always_suffix; eauto. }
  apply (IH _ _ _ H1); auto. apply (step_FI n s t a s1); auto; eapply calm_inv; eauto.
Qed.
Lemma failed_never_entered n l s : run (init n) l = Next s -> calm (s_tr s) -> always fail_rule (s_tr s).
Proof.
  intros H Hc. apply (run_FI n l [] (init n) s); auto. split; [intros new e old E; destruct new; discriminate|]. intros d [].
Qed.
