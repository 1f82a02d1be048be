(** Heap fibers: constructed on the heap, destroyed at most once. Together with ObjInv this gives the
    full [object_rule]. *)
From Coq Require Import List Arith Bool Lia.
From Verif Require Import ListUtil Fiber FiberInv FiberInv2 FiberInv3 Micro MicroInv FiberSpec TraceInv CallInv StackInv ObjInv ExnInv HistInv.
Import ListNotations.

Definition heap_rule (e : event) (old : list event) : Prop :=
  match e with EvDtor OnHeap o => In (EvCtor OnHeap o) old /\ ~ In (EvDtor OnHeap o) old | _ => True end.

Definition hfree (v : nat) (tr : list event) : Prop := ~ In (EvCtor OnHeap (OFib v)) tr /\ ~ In (EvDtor OnHeap (OFib v)) tr.
Definition hok (tr : list event) (v : nat) (x : option var) : Prop :=
  match x with
  | Some (VLive true _) => In (EvCtor OnHeap (OFib v)) tr /\ ~ In (EvDtor OnHeap (OFib v)) tr
  | Some (VLive false _) | None => hfree v tr
  | Some VDead => True
  end.
Definition HI (vars : list var) (tr : list event) : Prop :=
  (forall v, hok tr v (nth_error vars v)) /\ always heap_rule tr.
Definition HInv (s : state) : Prop := HI (s_vars s) (s_tr s).

Definition hev (e : event) : bool := match e with EvCtor OnHeap _ | EvDtor OnHeap _ => true | _ => false end.

Lemma hok_ev tr v x e : hev e = false -> hok tr v x -> hok (e :: tr) v x.
Proof.
  intros He. assert (A : forall o, In (EvCtor OnHeap o) (e :: tr) <-> In (EvCtor OnHeap o) tr).
  { intros o. cbn. split; [intros [->|H]; [discriminate|auto]|auto]. }
  assert (B : forall o, In (EvDtor OnHeap o) (e :: tr) <-> In (EvDtor OnHeap o) tr).
  { intros o. cbn. split; [intros [->|H]; [discriminate|auto]|auto]. }
  destruct x as [[|[] h]|]; unfold hok, hfree; rewrite ?A, ?B; auto.
Qed.
Lemma hi_ev vars tr e : hev e = false -> HI vars tr -> HI vars (e :: tr).
Proof.
  intros He [H1 H2]. split.
  - intros v. apply hok_ev; auto.
  - apply always_one; auto. destruct e; try exact I; try (destruct p; [exact I|discriminate]).
Qed.
Lemma hi_add vars tr h : HI vars tr -> HI (vars ++ [VLive false h]) tr.
Proof.
  intros [H1 H2]. split; auto. intros v. specialize (H1 v). destruct (nth_error (vars ++ _) v) as [x|] eqn:E.
  - apply nth_app_cases in E. destruct E as [[_ E]|[-> ->]]; [rewrite E in H1; auto|].
    replace (nth_error vars (length vars)) with (@None var) in H1 by (symmetry; apply nth_error_None; lia). exact H1.
  - apply nth_error_None in E. rewrite app_length in E. replace (nth_error vars v) with (@None var) in H1 by (symmetry; apply nth_error_None; cbn in E; lia). exact H1.
Qed.
Lemma hi_addh vars tr h : HI vars tr -> HI (vars ++ [VLive true h]) (EvCtor OnHeap (OFib (length vars)) :: tr).
Proof.
  intros [H1 H2]. split; [|apply always_one; auto; exact I]. intros v.
  destruct (Nat.eq_dec v (length vars)) as [->|N].
  - rewrite nth_error_app2, Nat.sub_diag by lia. cbn. specialize (H1 (length vars)).
    replace (nth_error vars (length vars)) with (@None var) in H1 by (symmetry; apply nth_error_None; lia).
    destruct H1 as [Ha Hb]. split; auto. intros [E|E]; [discriminate|auto].
  - assert (E : nth_error (vars ++ [VLive true h]) v = nth_error vars v).
    { destruct (Nat.lt_ge_cases v (length vars)); [rewrite nth_error_app1; auto|].
      rewrite (proj2 (nth_error_None vars v)) by lia. apply nth_error_None. rewrite app_length; cbn; lia. }
    rewrite E. specialize (H1 v).
    assert (A : In (EvCtor OnHeap (OFib v)) (EvCtor OnHeap (OFib (length vars)) :: tr) <-> In (EvCtor OnHeap (OFib v)) tr).
    { cbn. split; [intros [H|H]; [congruence|auto]|auto]. }
    assert (B : In (EvDtor OnHeap (OFib v)) (EvCtor OnHeap (OFib (length vars)) :: tr) <-> In (EvDtor OnHeap (OFib v)) tr).
    { cbn. split; [intros [H|H]; [congruence|auto]|auto]. }
    destruct (nth_error vars v) as [[|[] h']|]; unfold hok, hfree in *; rewrite ?A, ?B; auto.
Qed.
Lemma hi_put vars tr v b h h' : nth_error vars v = Some (VLive b h) -> HI vars tr -> HI (upd vars v (VLive b h')) tr.
Proof.
  intros E [H1 H2]. split; auto. intros v'. rewrite nth_upd. pose proof (nth_some_lt _ _ _ E) as Hl. specialize (H1 v').
  destruct (Nat.eqb_spec v v') as [<-|N]; auto. destruct (Nat.ltb_spec v (length vars)); [|lia]. rewrite E in H1. exact H1.
Qed.
Lemma hi_dead vars tr v : HI vars tr -> HI (upd vars v VDead) tr.
Proof.
  intros [H1 H2]. split; auto. intros v'. rewrite nth_upd. specialize (H1 v').
  destruct (Nat.eqb_spec v v') as [<-|N]; auto. destruct (Nat.ltb_spec v (length vars)); [exact I|].
  rewrite (proj2 (nth_error_None vars v)) in H1 by lia. exact H1.
Qed.
Lemma hi_deadh vars tr v h : nth_error vars v = Some (VLive true h) -> HI vars tr -> HI (upd vars v VDead) (EvDtor OnHeap (OFib v) :: tr).
Proof.
  intros E [H1 H2]. pose proof (nth_some_lt _ _ _ E) as Hl. split.
  - intros v'. rewrite nth_upd. destruct (Nat.eqb_spec v v') as [<-|N].
    + destruct (Nat.ltb_spec v (length vars)); [exact I|lia].
    + specialize (H1 v'). 
      assert (A : In (EvCtor OnHeap (OFib v')) (EvDtor OnHeap (OFib v) :: tr) <-> In (EvCtor OnHeap (OFib v')) tr).
      { cbn. split; [intros [H|H]; [congruence|auto]|auto]. }
      assert (B : In (EvDtor OnHeap (OFib v')) (EvDtor OnHeap (OFib v) :: tr) <-> In (EvDtor OnHeap (OFib v')) tr).
      { cbn. split; [intros [H|H]; [congruence|auto]|auto]. }
      destruct (nth_error vars v') as [[|[] h']|]; unfold hok, hfree in *; rewrite ?A, ?B; auto.
  - apply always_one; auto. specialize (H1 v). rewrite E in H1. exact H1.
Qed.

Lemma pf_h s c fs : HInv (put_frames s c fs) <-> HInv s.
Proof. unfold HInv. rewrite put_frames_vars, put_frames_tr. tauto. Qed.

Ltac hs := repeat (first [rewrite pf_h | progress (unfold HInv; cbn [s_vars s_tr emit add_var put_var put_ctx]) | apply hi_add | (apply hi_ev; [reflexivity|])]).

Lemma deliver_h s c fs r s' : deliver s c fs r = Next s' -> HInv s -> HInv s'.
Proof.
  unfold deliver. intros E H. destruct fs as [|[] rest]; try discriminate;
   try (injection E as <-; hs; exact H);
   destruct rest as [|[] rest]; try discriminate; injection E as <-; hs; exact H.
Qed.
Lemma raise_h s c fs e s' : raise s c fs e = Next s' -> HInv s -> HInv s'.
Proof.
  unfold raise. intros E H. destruct fs as [|[] rest]; try discriminate;
   try (destruct e; [discriminate|injection E as <-; hs; exact H]);
   destruct rest as [|[] rest]; try discriminate; injection E as <-; hs; exact H.
Qed.
Lemma switch_h s t c st h k s' me : switch s t c st h k = Some (s', me) -> HInv s -> HInv s'.
Proof.
  unfold switch. intros E H. destruct (nth_error (s_ctxs s) c); [|discriminate]. destruct (nth_error (s_ctxs s) (fc_ctx h)) as [tx|]; [|discriminate].
  destruct (cx_status tx); try discriminate. destruct (Nat.eqb _ _); [|discriminate]. injection E as <- _. hs. exact H.
Qed.
Lemma jump_h s t c fs h s' : do_jump s t c fs h = Next s' -> HInv s -> HInv s'.
Proof.
  unfold do_jump. intros E H. destruct (switch _ _ _ _ _ _) as [[s1 me]|] eqn:Es; [|discriminate].
  eapply deliver_h; eauto. eapply switch_h; eauto. hs. exact H.
Qed.
Lemma unwind_h s t c fs h s' : do_unwind s t c fs h = Next s' -> HInv s -> HInv s'.
Proof.
  unfold do_unwind. intros E H. destruct (switch _ _ _ _ _ _) as [[s1 me]|] eqn:Es; [|discriminate].
  eapply raise_h; eauto. eapply switch_h; eauto. hs. exact H.
Qed.
Lemma ontop_h s t c fs h g s' : do_ontop s t c fs h g = Next s' -> HInv s -> HInv s'.
Proof.
  unfold do_ontop. intros E H. destruct (switch _ _ _ _ _ _) as [[s1 me]|] eqn:Es; [|discriminate].
  injection E as <-. hs. eapply switch_h; eauto. hs. exact H.
Qed.
Lemma exit_h s t c h s' : do_exit s t c h = Next s' -> HInv s -> HInv s'.
Proof.
  unfold do_exit. intros E H. destruct (switch _ _ _ _ _ _) as [[s1 me]|] eqn:Es; [|discriminate].
  injection E as <-. hs. eapply switch_h; eauto. hs. exact H.
Qed.
Lemma destroy_h s t c fs p o s' : destroy s t c fs p o = Next s' ->
  (p = OnHeap -> exists v h, o = OFib v /\ nth_error (s_vars s) v = Some (VLive true h)) -> HInv s -> HInv s'.
Proof.
  unfold destroy. intros E Hp H. destruct o as [v|u].
  - destruct (nth_error (s_vars s) v) as [[|b h]|] eqn:Ev; try discriminate.
    assert (H1 : HInv (put_var (emit s (EvDtor p (OFib v))) v VDead)).
    { unfold HInv. cbn [s_vars s_tr emit put_var]. destruct p as [c'|].
      - apply hi_ev; [reflexivity|]. apply hi_dead. exact H.
      - destruct (Hp eq_refl) as [v' [h' [E1 E2]]]. injection E1 as <-. eapply hi_deadh; eauto. }
    destruct h as [h|]; [eapply unwind_h; eauto|injection E as <-; hs; exact H1].
  - injection E as <-. hs. destruct p; [hs; exact H|]. destruct (Hp eq_refl) as [v [h [E _]]]. discriminate.
Qed.
Lemma lret_h s c f rest r s' : leave_ret s c f rest r = Next s' -> HInv s -> HInv s'.
Proof.
  unfold leave_ret. intros E H. destruct (uf_kind f); try discriminate; try (injection E as <-; hs; exact H);
  destruct rest as [|[] rest]; try discriminate; try (injection E as <-; hs; exact H).
  eapply deliver_h; eauto. hs. exact H.
Qed.
Lemma lexn_h s c f rest e s' : leave_exn s c f rest e = Next s' -> HInv s -> HInv s'.
Proof.
  unfold leave_exn. intros E H. destruct (uf_kind f); try discriminate;
  destruct rest as [|[] rest]; try discriminate; try (injection E as <-; hs; exact H); eapply raise_h; eauto. hs. exact H.
Qed.
Lemma exit_step_h s t c d rest s' : exit_step s t c d rest = Next s' -> HInv s -> HInv s'.
Proof.
  unfold exit_step. intros E H. destruct (nth_error (s_ctxs s) d) as [dx|]; [|discriminate].
  destruct (cx_status dx); try discriminate. destruct (cx_caps dx) as [|o l].
  - destruct (cx_alloc dx); [|discriminate]. eapply deliver_h; eauto. hs. exact H.
  - eapply destroy_h; eauto. discriminate.
Qed.
Lemma tau_h s t c fs s' : tau_step s t c fs = Next s' -> HInv s -> HInv s'.
Proof.
  unfold tau_step. intros E H. destruct fs as [|[] rest]; try discriminate.
  - destruct (uf_mode f); try discriminate; (destruct (uf_objs f); [(eapply lret_h; eassumption) || (eapply lexn_h; eassumption)|eapply destroy_h; eauto; discriminate]).
  - eapply jump_h; eauto.
  - destruct t0; [|discriminate]. eapply exit_h; eauto.
  - eapply exit_step_h; eauto.
Qed.
Lemma caps_h l : forall s d acc s1 r, do_caps s d l acc = Some (s1, r) -> HInv s -> HInv s1.
Proof.
  induction l as [|[v|] l IH]; intros s d acc s1 r E H; cbn in E.
  - injection E as <- _. exact H.
  - destruct (get_var s v) as [[b h]|] eqn:Ev; [|discriminate]. apply get_var_some in Ev. eapply IH; eauto. hs. eapply hi_put; eauto.
  - eapply IH; eauto. hs. exact H.
Qed.
Lemma create_h s t c fs a l s' : do_create s t c fs a l = Next s' -> HInv s -> HInv s'.
Proof.
  unfold do_create. intros E H. destruct (do_caps _ _ _ _) as [[s1 r]|] eqn:Ec; [|discriminate].
  apply caps_h in Ec; [|hs; exact H]. destruct (nth_error _ _); [|discriminate]. injection E as <-. hs. exact Ec.
Qed.
Lemma new_h s c f rest b h s' : new_fib s c f rest b h = Next s' -> HInv s -> HInv s'.
Proof.
  unfold new_fib. intros E H. destruct b; injection E as <-; hs; [apply hi_addh|]; exact H.
Qed.
Lemma user_h s t c f rest o s' : user_step s t c f rest o = Next s' -> HInv s -> HInv s'.
Proof.
  unfold user_step. intros E H. destruct (uf_mode f); try discriminate.
  - destruct o; try discriminate.
    + eapply new_h; eauto.
    + injection E as <-. hs. exact H.
    + destruct ok; [eapply create_h; eauto|]. injection E as <-. hs. exact H.
    + destruct (get_var s src) as [[b h]|] eqn:Ev; [|discriminate]. apply get_var_some in Ev. eapply new_h; eauto. hs. eapply hi_put; eauto.
    + destruct (get_var s dst) as [[bd hd]|] eqn:Ed; [|discriminate]. destruct (get_var s src) as [[bs hs']|] eqn:Ev; [|discriminate].
      apply get_var_some in Ed, Ev. destruct (Nat.eqb_spec dst src) as [->|N]; [injection E as <-; exact H|].
      assert (H1 : HInv (put_var (put_var s src (VLive bs None)) dst (VLive bd hs'))).
      { hs. eapply (hi_put _ _ dst bd hd); [rewrite nth_upd_ne by auto; exact Ed|]. eapply hi_put; eauto. }
      destruct hd; [eapply unwind_h; eauto|injection E as <-; exact H1].
    + destruct (get_var s a) as [[ba ha]|] eqn:Ea; [|discriminate]. destruct (get_var s b) as [[bb hb]|] eqn:Eb; [|discriminate].
      apply get_var_some in Ea, Eb. injection E as <-. hs. destruct (Nat.eq_dec a b) as [->|N].
      * rewrite Ea in Eb. injection Eb as <- <-. eapply (hi_put _ _ b ba ha); [rewrite nth_upd_lt by (eapply nth_some_lt; eauto); reflexivity|]. eapply hi_put; eauto.
      * eapply (hi_put _ _ b bb hb); [rewrite nth_upd_ne by auto; exact Eb|]. eapply hi_put; eauto.
    + destruct (get_var s v) as [[[] h]|] eqn:Ev; try discriminate. apply get_var_some in Ev. eapply destroy_h; eauto.
    + destruct (uf_objs f); [discriminate|]. eapply destroy_h; eauto. discriminate.
    + destruct (get_var s src) as [[b [h|]]|] eqn:Ev; try discriminate. apply get_var_some in Ev. eapply jump_h; eauto. hs. eapply hi_put; eauto.
    + destruct (get_var s src) as [[b [h|]]|] eqn:Ev; try discriminate. apply get_var_some in Ev. eapply ontop_h; eauto. hs. eapply hi_put; eauto.
    + injection E as <-. hs. exact H.
    + destruct (uf_kind f); try discriminate; destruct (forced_caught f); try discriminate; destruct v as [v|]; try discriminate;
        try (injection E as <-; hs; exact H);
        (destruct (get_var s v) as [[b h]|] eqn:Ev; [|discriminate]; apply get_var_some in Ev; injection E as <-; hs; eapply hi_put; eauto).
    + destruct (forced_caught f); [discriminate|]. injection E as <-. hs. exact H.
    + destruct (uf_caught f) as [[]|]; try discriminate. injection E as <-. hs. exact H.
    + destruct (uf_caught f); try discriminate. injection E as <-. hs. exact H.
  - destruct o; try discriminate.
    + destruct (uf_caught f); try discriminate. injection E as <-. hs. exact H.
    + destruct (forced_caught f); [discriminate|]. injection E as <-. hs. exact H.
Qed.
Lemma step_h s t l s' : step s t l = Next s' -> HInv s -> HInv s'.
Proof.
  unfold step. intros E H. destruct (nth_error (s_thr s) t); [|discriminate]. destruct (nth_error (s_ctxs s) n) as [cx|]; [|discriminate].
  destruct l; [eapply tau_h; eauto|]. destruct (cx_frames cx) as [|[]]; try discriminate. eapply user_h; eauto.
Qed.
Lemma reach_h n s : reachable n s -> HInv s.
Proof.
  apply reachable_ind'.
  - split; [|apply always_nil]. intros v. cbn. destruct v; split; intros [].
  - intros; eapply step_h; eauto.
Qed.

(** objects: the full rule *)
Lemma reach_object n s : reachable n s -> always object_rule (s_tr s).
Proof.
  intros Hr. pose proof (reach_h _ _ Hr) as [_ Hh]. pose proof (m_obj _ _ (reach_mreach _ _ Hr)) as [_ Hb].
  intros new e old E.
  assert (Hb' : always base_rule old).
  { intros n0 e0 o0 E0. apply (Hb (new ++ e :: n0) e0 o0). rewrite E, E0, <- app_assoc. reflexivity. }
  assert (Hh' : always heap_rule old).
  { intros n0 e0 o0 E0. apply (Hh (new ++ e :: n0) e0 o0). rewrite E, E0, <- app_assoc. reflexivity. }
  specialize (Hh _ _ _ E). specialize (Hb _ _ _ E). destruct (base_trace _ Hb') as [T0 [T1 [T2 [T3 T4]]]].
  assert (T5 : forall o, In (EvDtor OnHeap o) old -> In (EvCtor OnHeap o) old).
  { intros o Hi. apply in_split in Hi. destruct Hi as [a [b Hi]]. rewrite Hi. apply in_or_app. right. right. exact (proj1 (Hh' _ _ _ Hi)). }
  destruct e as [|c0 a0 on0| | | | | | | | | | | |p o|p o]; try exact I.
  - cbn in Hb. cbn. split; auto. intros o Hi. destruct (T4 _ _ Hi) as [H|H]; auto. rewrite Hb in H. destruct H.
  - exact Hb.
  - destruct p as [c|]; cbn in *.
    + assert (Hi : In o (stack_objs old c)) by (destruct (stack_objs old c); [discriminate|injection Hb as ->; left; reflexivity]).
      destruct (T2 _ _ Hi) as [H1 H2]. repeat split; auto. intros [c'|] Hd; [eapply H2; eauto|].
      apply T5 in Hd. pose proof (T0 _ _ _ H1 Hd). discriminate.
    + destruct Hh as [H1 H2]. split; auto. intros [c'|] Hd; auto. apply T3 in Hd. pose proof (T0 _ _ _ H1 Hd). discriminate.
Qed.
