(** * What the ucontext implementation guarantees to well-behaved users

    Theorems about the machine of Uctx.v; hypotheses and conclusions are predicates on histories
    (UctxSpec.v).  [calm] and [calm_inject] say how well-behaved users act; the theorems of
    P_UctxRef.v show what happens otherwise. *)
From Coq Require Import List Arith Bool Lia.
From Verif Require Import ListUtil Uctx UctxSpec UctxInv UctxInv2 UctxInv3 UctxInv4 UctxInv5 UctxInv6 UctxInv7 UctxInj.
Import ListNotations.

Lemma always_impl (P Q : event -> list event -> Prop) tr : (forall e old, P e old -> Q e old) -> always P tr -> always Q tr.
Proof. intros H A new e old E. apply H. exact (A new e old E). Qed.
Lemma always_and P Q tr : always P tr -> always Q tr -> always (fun e old => P e old /\ Q e old) tr.
Proof. intros A B new e old E. split; [exact (A new e old E)|exact (B new e old E)]. Qed.

(** C34: a record and its stack are released at most once, with the allocator they came from, only
    after the context finished (or when its construction failed), by code running on another
    context, and nothing is executed on them afterwards. *)
Theorem C34_release_partial n l s :
  run (init n) l = Next s -> calm (s_tr s) -> always release_rule (s_tr s).
Proof.
  intros H Hc. pose proof (i_tr _ _ _ _ (calm_inv n l s H Hc)) as A. eapply always_impl; [|exact A]. intros e old (R & _). exact R.
Qed.

(** C34: no access to a released record, no continuation of a context that is not suspended. *)
Theorem C34_no_undefined_behaviour_partial n l tr : run (init n) l = UB tr -> ~ calm tr.
Proof. apply calm_no_ub. Qed.

(** Number of handles. *)
Lemma count_opt p e : count_occ Nat.eq_dec (opt_list p) e = wh e p.
Proof. destruct p as [d|]; cbn; [|reflexivity]. destruct (Nat.eq_dec d e), (Nat.eqb_spec d e); cbn; congruence. Qed.
Lemma count_exn x e : count_occ Nat.eq_dec (exn_handles x) e = wx e x.
Proof. destruct x; [reflexivity|]. apply count_opt. Qed.
Lemma count_frame f e : count_occ Nat.eq_dec (frame_handles f) e = wfr e f.
Proof.
  destruct f as [u| | | | | |r| |r| |d b]; cbn [frame_handles wfr]; try reflexivity; try apply count_opt.
  - rewrite count_occ_app. f_equal.
    + destruct (uf_mode u); try reflexivity; auto using count_opt, count_exn.
    + destruct (uf_caught u); [apply count_exn|reflexivity].
  - cbn. destruct (Nat.eq_dec d e), (Nat.eqb_spec d e); cbn; congruence.
Qed.
Lemma count_flat {A} (f : A -> list nat) (g : A -> nat) e l :
  (forall x, count_occ Nat.eq_dec (f x) e = g x) -> count_occ Nat.eq_dec (flat_map f l) e = sumf g l.
Proof. intros H. induction l as [|x l IH]; cbn; [reflexivity|]. rewrite count_occ_app, H, IH. reflexivity. Qed.
Lemma count_handles s e : count_occ Nat.eq_dec (handles s) e = cnt e s.
Proof.
  unfold handles, cnt. rewrite count_occ_app. f_equal.
  - apply count_flat. intros x. apply count_flat. intros f. apply count_frame.
  - apply count_flat. intros [|b [h|]]; cbn; try reflexivity. destruct (Nat.eq_dec h e), (Nat.eqb_spec h e); cbn; congruence.
Qed.

(** C34: a context that is not a main context and whose record has not been released is either
    executed by a thread, and then no handle refers to it, or exactly one handle does; a released
    context has none.  So records are neither leaked nor referred to twice. *)
Theorem C34_one_handle_partial n l s c x :
  run (init n) l = Next s -> calm (s_tr s) -> nth_error (s_rec s) c = Some x -> r_main x = false ->
  (freed (s_tr s) c \/ (exists t, t < n /\ running (s_tr s) t = c) -> count_occ Nat.eq_dec (handles s) c = 0) /\
  (~ freed (s_tr s) c -> (forall t, t < n -> running (s_tr s) t <> c) -> count_occ Nat.eq_dec (handles s) c = 1).
Proof.
  intros H Hcalm Hc Hm. pose proof (calm_inv n l s H Hcalm) as I. rewrite count_handles.
  destruct (i_cnt _ _ _ _ I c) as [_ A]. cbn [wh] in A. rewrite Nat.add_0_r in A.
  unfold is_main in A. rewrite Hc in A. rewrite (A Hm). unfold rest_. rewrite Hc.
  pose proof (i_freed _ _ _ _ I c x Hc) as F. destruct (i_thr _ _ _ _ I) as [T1 T2].
  split.
  - intros [Hf|(t & Ht & Hr)].
    + apply F in Hf. rewrite Hf. reflexivity.
    + assert (E : existsb (Nat.eqb c) (s_thr s) = true).
      { destruct (nth_error (s_thr s) t) as [d|] eqn:Hn; [|apply nth_error_None in Hn; lia].
        apply T2 in Hn as Hn'. apply existsb_eqb. rewrite <- Hr, Hn'. eapply nth_error_In; eauto. }
      rewrite E, andb_false_r. reflexivity.
  - intros Hf Hr. assert (Ha : r_alive x = true) by (destruct (r_alive x); [reflexivity|exfalso; apply Hf, F; reflexivity]).
    assert (E : existsb (Nat.eqb c) (s_thr s) = false).
    { apply not_true_iff_false. rewrite existsb_eqb. intros Hin. apply In_nth_error in Hin. destruct Hin as [t Ht].
      apply (Hr t); [|apply T2; exact Ht]. rewrite <- T1. eapply nth_some_lt; eauto. }
    rewrite Ha, E. reflexivity.
Qed.

(** C33: context-functions are entered and left at most once, and only by resume() or resume_with(). *)
Theorem C33_life_partial n l s :
  run (init n) l = Next s -> calm (s_tr s) -> always life_rule (s_tr s) /\ always (thread_rule n) (s_tr s).
Proof.
  intros H Hc. pose proof (i_tr _ _ _ _ (calm_inv n l s H Hc)) as A.
  split; (eapply always_impl; [|exact A]); intros e old (_ & R1 & _ & R2); assumption.
Qed.

Lemma rules_split n e old : rule n e old /\ inject_rule e old -> next_rule e old /\ ontop_rule e old.
Proof.
  intros [(_ & _ & N & _) [J1 J2]]. split.
  - unfold next_rule, next_rule0 in *. destruct (hd_error old) as [[]|]; auto. destruct k; auto.
    + destruct N as [N|[N|(g & N)]]; auto. subst e. contradiction.
    + destruct N as [N|[N|[(g & N)|N]]]; auto. subst e. contradiction.
  - unfold ontop_rule. destruct e; auto. destruct (hd_error old) as [[]|]; try contradiction. destruct k; try contradiction.
    injection J1 as -> -> ->. eauto.
Qed.

(** C33: what a switch leads to, as in the fcontext implementation. *)
Theorem C33_switch_partial n l s :
  run (init n) l = Next s -> calm (s_tr s) -> calm_inject (s_tr s) -> always next_rule (s_tr s).
Proof.
  intros H Hc Hi. destruct (calm_j n l s H Hc Hi) as [I [_ _ R _]].
  eapply always_impl; [|exact (always_and _ _ _ (i_tr _ _ _ _ I) R)]. intros e old A. apply (rules_split n). exact A.
Qed.

(** C35: an injected function is invoked directly after the switch of the resume_with it was passed
    to, with a handle to the caller, and as often as it was passed to resume_with. *)
Lemma once tr c g : always (fun e old => next_rule e old /\ ontop_rule e old) tr ->
  injections tr c g = invocations tr c g + match hd_error tr with Some e => if is_inject c g e then 1 else 0 | None => 0 end.
Proof.
  induction tr as [|e tr IH]; intros H; [reflexivity|]. apply always_cons in H. destruct H as [[N O] H]. specialize (IH H).
  unfold injections, invocations in *. cbn [filter hd_error].
  assert (A : is_ontop c g e = match hd_error tr with Some e => is_inject c g e | None => false end).
  { unfold next_rule in N. unfold ontop_rule in O. destruct e; cbn [is_ontop].
    all: try (destruct (hd_error tr) as [[]|]; cbn [is_inject]; try reflexivity; destruct k; try reflexivity; discriminate N).
    - destruct (hd_error tr) as [[]|]; cbn [is_inject]; try reflexivity. destruct k0; try reflexivity. discriminate N.
    - destruct O as (t & from & O & ->). rewrite O. reflexivity. }
  assert (B : is_ontop c g e = true -> is_inject c g e = false) by (destruct e; cbn; try discriminate; reflexivity).
  destruct (is_ontop c g e) eqn:E1; rewrite ?(B eq_refl); destruct (is_inject c g e) eqn:E2; cbn [length];
    rewrite IH; destruct (hd_error tr) as [e'|]; try discriminate; rewrite <- ?A; cbn; lia.
Qed.

Theorem C35_injected_once_partial n l s :
  run (init n) l = Next s -> calm (s_tr s) -> calm_inject (s_tr s) ->
  always ontop_rule (s_tr s) /\ forall c g, invocations (s_tr s) c g = injections (s_tr s) c g.
Proof.
  intros H Hc Hi. destruct (calm_j n l s H Hc Hi) as [I [_ _ R N]].
  assert (A : always (fun e old => next_rule e old /\ ontop_rule e old) (s_tr s)).
  { eapply always_impl; [|exact (always_and _ _ _ (i_tr _ _ _ _ I) R)]. apply (rules_split n). }
  split.
  - eapply always_impl; [|exact A]. intros e old [_ O]. exact O.
  - intros c g. rewrite (once _ c g A). unfold no_switch in N. destruct (hd_error (s_tr s)) as [[]|]; try contradiction; cbn; lia.
Qed.

(** C14: an assertion of the library fails only if an empty fiber is resumed, or if a context-function
    returned an empty fiber. *)
Lemma arrive_af s d tr : arrive s d = AssertFail tr -> grows (s_tr s) tr.
Proof. intros H. pose proof (arrive_ext s d) as E. rewrite H in E. exact E. Qed.
Lemma switch_af s t c d k tr : switch s t c d k = AssertFail tr -> length (s_tr s) < length tr.
Proof.
  unfold switch. destruct (nth_error (s_rec s) d); [|discriminate]. destruct (_ && _); [|discriminate]. cbv zeta. intros H.
  apply arrive_af in H. destruct H as [new ->]. cbn [s_tr]. rewrite app_length. cbn. lia.
Qed.
Lemma drop_af s t c fs h tr : drop s t c fs h = AssertFail tr -> length (s_tr s) < length tr.
Proof.
  unfold drop. destruct h as [d|]; [|discriminate]. destruct (nth_error (s_rec s) d) as [y|]; [|discriminate].
  destruct (r_alive y); [|discriminate]. destruct (r_main y); [discriminate|]. destruct (r_term y); [discriminate|].
  intros H. apply switch_af in H. rewrite put_frames_tr in H. exact H.
Qed.
Lemma destroy_af s t c fs p o tr : destroy s t c fs p o = AssertFail tr -> length (s_tr s) < length tr.
Proof.
  unfold destroy. destruct o as [v|]; [|discriminate]. destruct (nth_error (s_vars s) v) as [[|]|]; try discriminate.
  intros H. apply drop_af in H. cbn in H. lia.
Qed.

Theorem C14_ucontext_assertions n l tr :
  run (init n) l = AssertFail tr -> calm tr ->
  exists l1 t a l2 s, l = l1 ++ (t, a) :: l2 /\ run (init n) l1 = Next s /\ tr = s_tr s /\
    ((exists v b, (a = LUser (UResume v) \/ exists g, a = LUser (UResumeWith v g)) /\ nth_error (s_vars s) v = Some (VLive b None))
     \/ (a = LTau /\ In (EvDone (running tr t) None) tr)).
Proof.
  intros H Hcalm. pose proof (run_good n l _ (init_inv n)) as G. rewrite H in G.
  destruct (G Hcalm) as (l1 & t & a & l2 & s & E1 & E2 & E3 & I & E4).
  exists l1, t, a, l2, s. split; [exact E1|]. split; [exact E2|]. split; [exact E4|].
  unfold step in E3. destruct (nth_error (s_thr s) t) as [c|] eqn:Ht; [|discriminate].
  destruct (nth_error (s_rec s) c) as [x|] eqn:Hc; [|discriminate].
  destruct (i_thr _ _ _ _ I) as [_ Hr]. specialize (Hr t c Ht).
  destruct (inv_running _ _ _ _ _ _ _ I Ht Hc) as (Hal & Htf & Hwf & Htop & Hrc).
  destruct a as [|o].
  - right. split; [reflexivity|]. rewrite E4, Hr. unfold tau_step in E3.
    destruct (r_frames x) as [|[f| | |e| | |p| |p| |d b] rest] eqn:Hfs; try discriminate.
    + exfalso. assert (L : length (s_tr s) < length tr); [|rewrite E4 in L; lia].
      destruct (uf_mode f); try discriminate; (destruct (uf_objs f); [|eapply destroy_af; eauto]).
      * unfold leave_ret in E3. destruct (uf_kind f); destruct rest as [|[] rest]; try discriminate.
        unfold ret_to in E3. destruct rest as [|[] ?]; discriminate.
      * unfold leave_exn in E3. destruct (uf_kind f); destruct rest as [|[] rest]; try discriminate.
        -- destruct e; discriminate.
        -- unfold raise_to in E3. destruct rest as [|[] ?]; discriminate.
    + destruct p as [d|].
      * rewrite Hc in E3. apply switch_af in E3. rewrite E4 in E3. cbn in E3. lia.
      * apply (i_fin _ _ _ _ I c x None Hc). rewrite Hfs. reflexivity.
    + unfold rel_step in E3. destruct (nth_error (s_rec s) d) as [y|]; [|discriminate]. destruct (r_alive y); [|discriminate].
      destruct (r_caps y).
      * destruct (r_alloc y); [|discriminate]. destruct b; [|discriminate]. destruct rest as [|[] ?]; discriminate.
      * apply destroy_af in E3. rewrite E4 in E3. cbn in E3. lia.
  - left. destruct (r_frames x) as [|[f| | |e| | |p| |p| |d b] rest]; try discriminate.
    unfold user_step in E3. destruct (uf_mode f).
    + destruct o as [heap| |a l' r|src heap|dst src|va vb|v| |src|src g| |v|e| | | |]; try discriminate.
      * unfold new_fib in E3. destruct heap; discriminate.
      * destruct r; try discriminate; unfold do_create, new_fib in E3; destruct (do_caps _ _ _ _) as [[]|]; discriminate.
      * destruct (get_var s src) as [[]|]; [|discriminate]. unfold new_fib in E3. destruct heap; discriminate.
      * destruct (get_var s dst) as [[]|]; [|discriminate]. destruct (get_var s src) as [[]|]; [|discriminate].
        destruct (Nat.eqb dst src); [discriminate|]. apply drop_af in E3. rewrite E4 in E3. cbn in E3. lia.
      * destruct (get_var s va) as [[]|]; [|discriminate]. destruct (get_var s vb) as [[]|]; discriminate.
      * destruct (get_var s v) as [[[]]|]; try discriminate. apply destroy_af in E3. rewrite E4 in E3. lia.
      * destruct (uf_objs f); [discriminate|]. apply destroy_af in E3. rewrite E4 in E3. lia.
      * destruct (get_var s src) as [[b [d|]]|] eqn:Hv; try discriminate.
        -- apply switch_af in E3. rewrite E4, put_frames_tr in E3. cbn in E3. lia.
        -- exists src, b. split; [auto|]. apply get_var_some. exact Hv.
      * destruct (get_var s src) as [[b [d|]]|] eqn:Hv; try discriminate.
        -- apply switch_af in E3. rewrite E4, put_frames_tr in E3. cbn in E3. lia.
        -- exists src, b. split; [eauto|]. apply get_var_some. exact Hv.
      * destruct (uf_kind f); try discriminate; destruct (forced_caught f); try discriminate; destruct v as [v|]; try discriminate;
          destruct (get_var s v) as [[]|]; discriminate.
      * destruct (forced_caught f); discriminate.
      * destruct (uf_caught f) as [[]|]; discriminate.
      * destruct (uf_caught f); discriminate.
    + destruct o; try discriminate.
      * destruct (uf_caught f); discriminate.
      * destruct (forced_caught f); discriminate.
    + discriminate.
    + discriminate.
Qed.

(* ------------------------------------------------------------------ the hypotheses can be met *)

(** A run with a function injected into a suspended context, a switch to and fro, and a suspended
    context that is destroyed, unwinds and is released: calm, and well-behaved about injection. *)
Definition demo : list (nat * label) :=
  let us := map (fun o => (0, LUser o)) in let taus k := repeat (0, LTau) k in
  us [UCreate 3 [CapUsr] CrOk; UResume 0; UNewUsr; UResume 1; UResumeWith 2 7; UReturn (Some 3)] ++ taus 2
  ++ us [UResume 4; UScope; UPropagate] ++ taus 2 ++ us [UReturn None] ++ taus 5 ++ us [UReturn None] ++ taus 2.

Ltac no_ev := let H := fresh in intros H; unfold entered, done, unwound in H; firstorder discriminate.
Ltac some_ev := unfold entered, done, unwound; cbn; eauto 30.
Ltac calm_step := match goal with |- always _ (_ :: _) => rewrite always_cons; split; [|calm_step] | |- always _ [] => apply always_nil end.

Theorem uctx_hypotheses_met :
  exists s, run (init 1) demo = Next s /\ calm (s_tr s) /\ calm_inject (s_tr s) /\
    freed (s_tr s) 1 /\ injections (s_tr s) 1 7 = 1 /\ unwound (s_tr s) 1 /\ length (s_rec s) = 2.
Proof.
  eexists. split; [vm_compute; reflexivity|]. cbn [s_tr s_rec].
  split; [unfold calm; calm_step; cbn; auto; try split; try no_ev; some_ev|].
  split; [unfold calm_inject; calm_step; cbn; auto; split; auto; left; some_ev|].
  split; [unfold freed; cbn; eauto 30|]. split; [reflexivity|]. split; [some_ev|reflexivity].
Qed.

(** The assertion of C14 is reached by a calm run: a context-function returns an empty fiber. *)
Theorem C14_ucontext_assertion_met :
  exists l tr, run (init 1) l = AssertFail tr /\ calm tr /\ In (EvDone 1 None) tr.
Proof.
  exists ((0, LUser (UCreate 0 [] CrOk)) :: (0, LUser (UResume 0)) :: (0, LUser (UReturn None)) :: repeat (0, LTau) 3).
  eexists. split; [vm_compute; reflexivity|]. split; [|cbn; auto].
  unfold calm; calm_step; cbn; auto; try split; no_ev.
Qed.
