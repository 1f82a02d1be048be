(** * Properties of the utilities *)
From Coq Require Import ZArith Znumtheory FinFun List Bool Arith Lia.
From Verif Require Import ListUtil Word Util.
Import ListNotations.
Open Scope nat_scope.

(* ------------------------------------------------------------------ C32 *)

(** Specification: the sequence of operations alone determines when an initializer exists. *)
Fixpoint depth (l : list sc_op) : Z :=          (* constructors minus destructors; newest operation first *)
  match l with
  | [] => 0
  | ScCtor :: r => depth r + 1
  | ScDtor :: r => depth r - 1
  | _ :: r => depth r
  end%Z.
(** each destructor call is preceded by a constructor call of its own; fewer than 2^b initializers at a time *)
Fixpoint balanced (b : Z) (l : list sc_op) : Prop :=
  match l with [] => True | o :: r => (0 <= depth (o :: r) < 2 ^ b)%Z /\ balanced b r end.
(** number of maximal periods in which an initializer exists *)
Fixpoint periods (l : list sc_op) : nat :=
  match l with
  | [] => 0
  | ScCtor :: r => periods r + (if Z.eqb (depth r) 0 then 1 else 0)
  | _ :: r => periods r
  end.

Definition is_main_rec (x : bool * bool) : bool := fst x.
Definition is_live_main (x : bool * bool) : bool := fst x && snd x.
Definition mains (s : sc) : nat := length (filter is_main_rec (sc_heap s)).
Definition live_mains (s : sc) : nat := length (filter is_live_main (sc_heap s)).

Definition sc_inv (l : list sc_op) (s : sc) : Prop :=
  sc_counter s = depth l /\
  mains s = periods l /\
  live_mains s = (if Z.ltb 0 (depth l) then 1 else 0) /\
  ((0 < depth l)%Z -> exists r m, sc_cur s = Some r /\ nth_error (sc_heap s) r = Some (m, true)).

Lemma filter_upd {A} (p : A -> bool) l : forall r x y, nth_error l r = Some x ->
  length (filter p (upd l r y)) + (if p x then 1 else 0) = length (filter p l) + (if p y then 1 else 0).
Proof.
  induction l as [|a l IH]; intros [|r] x y H; try discriminate; cbn in *.
  - injection H as <-. destruct (p a), (p y); cbn; lia.
  - specialize (IH r x y H). destruct (p a); cbn; lia.
Qed.

Lemma sc_step_inv b l s o s' : (0 < b)%Z -> sc_inv l s -> balanced b (o :: l) -> balanced b l -> sc_step b s o = ScNext s' -> sc_inv (o :: l) s'.
Proof.
  intros Hb (I1 & I2 & I3 & I4) Hbal Hbl. cbn [balanced] in Hbal. destruct Hbal as [Hd _].
  assert (H2 : (2 <= 2 ^ b)%Z) by (change 2%Z with (2 ^ 1)%Z at 1; apply Z.pow_le_mono_r; lia).
  assert (Hdl : (0 <= depth l < 2 ^ b)%Z) by (destruct l; [cbn; lia|apply Hbl]).
  destruct o as [| | |r]; cbn [sc_step depth periods] in *.
  - rewrite I1. destruct (Z.eqb_spec (depth l) 0) as [E|E]; intros H; injection H as <-; unfold sc_inv, mains, live_mains in *; cbn [sc_counter sc_cur sc_heap depth periods].
    + rewrite E in *. cbn in I3. rewrite !filter_app, !app_length, I2, I3. cbn.
      split; [rewrite wadd_small; lia|]. split; [reflexivity|]. split; [reflexivity|].
      intros _. exists (length (sc_heap s)), true. split; [reflexivity|]. rewrite nth_error_app2, Nat.sub_diag by lia. reflexivity.
    + split; [rewrite wadd_small; lia|]. destruct (Z.eqb_spec (depth l) 0); [contradiction|]. split; [lia|].
      assert (P : (0 < depth l)%Z) by lia. rewrite I3, (proj2 (Z.ltb_lt _ _) P).
      destruct (Z.ltb_spec 0 (depth l + 1)); [|lia]. split; [reflexivity|]. intros _. exact (I4 P).
  - rewrite I1. rewrite wsub_small by lia. destruct (Z.eqb_spec (depth l - 1) 0) as [E|E].
    + assert (P : (0 < depth l)%Z) by lia. destruct (I4 P) as (r & m & Hr & Hm). rewrite Hr, Hm.
      destruct m; [|discriminate]. intros H; injection H as <-. unfold sc_inv, mains, live_mains in *; cbn [sc_counter sc_cur sc_heap depth periods].
      rewrite (proj2 (Z.ltb_lt _ _) P) in I3.
      pose proof (filter_upd is_main_rec _ _ _ (true, false) Hm) as F1. pose proof (filter_upd is_live_main _ _ _ (true, false) Hm) as F2. cbn in F1, F2.
      split; [lia|]. split; [lia|]. destruct (Z.ltb_spec 0 (depth l - 1)); [lia|]. split; [lia|]. lia.
    + intros H; injection H as <-. unfold sc_inv, mains, live_mains in *; cbn [sc_counter sc_cur sc_heap depth periods].
      split; [lia|]. split; [exact I2|]. assert (P : (0 < depth l)%Z) by lia. rewrite (proj2 (Z.ltb_lt _ _) P) in I3.
      destruct (Z.ltb_spec 0 (depth l - 1)); [|lia]. split; [exact I3|]. intros _. exact (I4 P).
  - intros H; injection H as <-. unfold sc_inv, mains, live_mains in *; cbn [sc_counter sc_cur sc_heap depth periods].
    rewrite !filter_app, !app_length. cbn. split; [exact I1|]. split; [lia|]. split; [lia|].
    intros P. destruct (I4 P) as (r & m & Hr & Hm). exists r, m. split; [exact Hr|]. rewrite nth_error_app1; [exact Hm|]. eapply nth_some_lt; eauto.
  - destruct (nth_error (sc_heap s) r) as [[m [|]]|] eqn:Hr; try discriminate. intros H; injection H as <-.
    unfold sc_inv, mains, live_mains in *; cbn [sc_counter sc_cur sc_heap depth periods]. split; [exact I1|]. split; [exact I2|]. split; [exact I3|]. eauto.
Qed.

Lemma sc_run_app b l1 : forall s l2, sc_run b s (l1 ++ l2) = match sc_run b s l1 with ScNext s' => sc_run b s' l2 | x => x end.
Proof. induction l1 as [|o l1 IH]; intros s l2; cbn; [reflexivity|]. destruct (sc_step b s o); auto. Qed.

Lemma sc_run_inv b l : (0 < b)%Z -> balanced b l -> forall s, sc_run b sc_init (rev l) = ScNext s -> sc_inv l s.
Proof.
  intros Hb. induction l as [|o l IH]; intros Hbal s.
  - cbn. intros H; injection H as <-. repeat split; cbn; try reflexivity. lia.
  - cbn [rev]. rewrite sc_run_app. destruct (sc_run b sc_init (rev l)) as [s1| |] eqn:E; try discriminate.
    cbn [sc_run]. destruct (sc_step b s1 o) as [s2| |] eqn:E2; try discriminate. intros H; injection H as <-.
    eapply sc_step_inv; eauto. + apply IH; [apply Hbal|reflexivity]. + apply Hbal.
Qed.

(** C32: after any history (newest first) the counter is the number of existing initializers; while there
    is one, current() denotes a live record, and exactly one main-context record is live; without
    one there is none; one main-context record was created for each period, so each was deleted once. *)
Theorem C32_main_record_exists_while_initialized b l s :
  (0 < b)%Z -> balanced b l -> sc_run b sc_init (rev l) = ScNext s ->
  mains s = periods l /\
  live_mains s = (if Z.ltb 0 (depth l) then 1 else 0) /\
  ((0 < depth l)%Z -> exists r m, sc_cur s = Some r /\ nth_error (sc_heap s) r = Some (m, true)).
Proof. intros Hb Hbal H. destruct (sc_run_inv b l Hb Hbal s H) as (_ & A & B & C). auto. Qed.

(** without fibers, current() denotes the main-context record and nothing ever fails *)
Theorem C32_nested_initializers b l :
  (0 < b)%Z -> balanced b l -> (forall o, In o l -> o = ScCtor \/ o = ScDtor) ->
  exists s, sc_run b sc_init (rev l) = ScNext s /\
    ((0 < depth l)%Z -> exists r, sc_cur s = Some r /\ nth_error (sc_heap s) r = Some (true, true)).
Proof.
  intros Hb Hbal Hl.
  assert (A : exists s, sc_run b sc_init (rev l) = ScNext s /\ forall x, In x (sc_heap s) -> fst x = true).
  { induction l as [|o l IH].
    - exists sc_init. split; [reflexivity|]. intros x [].
    - destruct IH as (s & E & F); [apply Hbal|intros; apply Hl; right; assumption|].
      pose proof (sc_run_inv b l Hb (proj2 Hbal) s E) as (I1 & I2 & I3 & I4).
      cbn [rev]. rewrite sc_run_app, E. cbn [sc_run].
      assert (H2 : (2 <= 2 ^ b)%Z) by (change 2%Z with (2 ^ 1)%Z at 1; apply Z.pow_le_mono_r; lia).
      assert (Hdl : (0 <= depth l < 2 ^ b)%Z) by (destruct Hbal as [_ Hbl]; destruct l; [cbn; lia|apply Hbl]).
      destruct Hbal as [Hd _].
      destruct (Hl o (or_introl eq_refl)) as [-> | ->]; cbn [sc_step depth] in *.
      + destruct (Z.eqb (sc_counter s) 0); eexists; (split; [reflexivity|]); cbn; auto.
        intros x Hx. apply in_app_or in Hx. destruct Hx as [Hx|[<-|[]]]; auto.
      + rewrite I1, wsub_small by lia. destruct (Z.eqb_spec (depth l - 1) 0).
        * destruct I4 as (r & m & Hr & Hm); [lia|]. rewrite Hr, Hm.
          assert (m = true) as -> by (apply (F (m, true)); eapply nth_error_In; eauto).
          eexists. split; [reflexivity|]. cbn. intros x Hx. apply In_nth_error in Hx. destruct Hx as [k Hk]. rewrite nth_upd in Hk.
          destruct (Nat.eqb r k); [destruct (Nat.ltb r (length (sc_heap s))); [injection Hk as <-; reflexivity|discriminate]|].
          apply F; eapply nth_error_In; eauto.
        * eexists. split; [reflexivity|]. exact F. }
  destruct A as (s & E & F). exists s. split; [exact E|]. intros P.
  destruct (sc_run_inv b l Hb Hbal s E) as (_ & _ & _ & C). destruct (C P) as (r & m & Hr & Hm).
  exists r. split; [exact Hr|]. assert (m = true) as -> by (apply (F (m, true)); eapply nth_error_In; eauto). exact Hm.
Qed.

(** the last destructor succeeds exactly if the thread is back in its main context *)
Theorem C32_last_destructor b l s :
  (0 < b)%Z -> balanced b l -> sc_run b sc_init (rev l) = ScNext s -> depth l = 1%Z ->
  (exists r, sc_cur s = Some r /\ nth_error (sc_heap s) r = Some (true, true) /\ exists s', sc_step b s ScDtor = ScNext s') \/
  (exists r, sc_cur s = Some r /\ nth_error (sc_heap s) r = Some (false, true) /\ sc_step b s ScDtor = ScAssert).
Proof.
  intros Hb Hbal H Hd. destruct (sc_run_inv b l Hb Hbal s H) as (A & _ & _ & C). destruct C as (r & m & Hr & Hm); [lia|].
  assert (H2 : (2 <= 2 ^ b)%Z) by (change 2%Z with (2 ^ 1)%Z at 1; apply Z.pow_le_mono_r; lia).
  cbn [sc_step]. rewrite A, Hd, wsub_small by lia. cbn. rewrite Hr, Hm. destruct m; [left|right]; exists r; eauto.
Qed.

Example C32_met : exists s, sc_run 64 sc_init [ScCtor; ScCtor; ScNewFiber; ScSwitch 1; ScDtor; ScSwitch 0; ScDtor; ScCtor] = ScNext s
  /\ balanced 64 (rev [ScCtor; ScCtor; ScNewFiber; ScSwitch 1; ScDtor; ScSwitch 0; ScDtor; ScCtor]) /\ mains s = 2 /\ live_mains s = 1.
Proof. eexists. split; [vm_compute; reflexivity|]. split; [|split; reflexivity]. cbn. repeat split; try lia; reflexivity. Qed.

(* ------------------------------------------------------------------ C36 *)

Open Scope Z_scope.

(** the addresses that prefetch_range should touch: every stride from addr up to addr + len *)
Definition strides (addr : Z) (n : nat) : list Z := map (fun i => addr + 256 * Z.of_nat i) (seq 0 n).

Lemma prefetches_det b fin vp l : prefetches b fin vp l -> forall l', prefetches b fin vp l' -> l = l'.
Proof.
  induction 1 as [vp H|vp l H _ IH]; intros l' H'; inversion H' as [vp' H1|vp' l1 H1 H2]; subst; try contradiction; try reflexivity.
  f_equal. apply IH. exact H2.
Qed.

Lemma prefetches_run b fin : forall n vp, 0 <= vp -> fin < 2 ^ b ->
  (vp < fin -> vp + 256 * Z.of_nat n < 2 ^ b) ->
  fin <= vp + 256 * Z.of_nat n -> vp + 256 * Z.of_nat n < fin + 256 \/ n = 0%nat ->
  prefetches b fin vp (strides vp n).
Proof.
  induction n as [|n IH]; intros vp H0 Hf Hw H1 H2.
  - cbn. apply pf_stop. lia.
  - unfold strides. cbn [seq map]. replace (vp + 256 * Z.of_nat 0) with vp by lia.
    assert (Hlt : vp < fin) by (destruct H2; [lia|discriminate]). specialize (Hw Hlt).
    apply pf_more; [exact Hlt|]. change prefetch_stride with 256. rewrite wadd_small by lia.
    assert (E : map (fun i : nat => vp + 256 * Z.of_nat i) (seq 1 n) = strides (vp + 256) n).
    { unfold strides. rewrite <- seq_shift, map_map. apply map_ext. intros i. lia. }
    rewrite E. apply IH; try lia.
Qed.

(** a loop whose whole residue class lies below the end of the range never stops *)
Lemma prefetches_never b fin r : 8 <= b -> (forall vp, 0 <= vp < 2 ^ b -> vp mod 256 = r -> vp < fin) ->
  forall vp l, prefetches b fin vp l -> 0 <= vp < 2 ^ b -> vp mod 256 = r -> False.
Proof.
  intros Hb H vp l P. induction P as [vp Hs|vp l Hlt P IH]; intros Hvp Hr.
  - apply Hs, H; auto.
  - apply IH.
    + pose proof (wrap_word b (vp + prefetch_stride) ltac:(lia)) as W. exact W.
    + unfold wadd, wrap. change prefetch_stride with 256.
      replace (2 ^ b) with (256 * 2 ^ (b - 8)) by (change 256 with (2 ^ 8); rewrite <- Z.pow_add_r by lia; f_equal; lia).
      rewrite <- Hr.
      pose proof (Z.pow_pos_nonneg 2 (b - 8) ltac:(lia) ltac:(lia)) as Q.
      rewrite <- Znumtheory.Zmod_div_mod; [|lia|lia|exists (2 ^ (b - 8)); lia]. replace (vp + 256) with (vp + 1 * 256) by lia. apply Z_mod_plus_full.
Qed.

(** C36: the loop stops iff the range ends before the last multiple of the stride that can be addressed (or
    wraps around the end of the address space, in which case it does nothing). *)
Theorem C36_terminates_iff b addr len :
  8 <= b -> is_word b addr -> 0 <= len < 2 ^ b ->
  (exists l, prefetch_range b addr len l) <->
  2 ^ b <= addr + len \/ exists k, 0 <= k /\ len <= 256 * k /\ addr + 256 * k < 2 ^ b.
Proof.
  intros Hb Ha Hl. unfold is_word in Ha. split.
  - intros [l P]. destruct (Z.lt_ge_cases (addr + len) (2 ^ b)) as [L|L]; [right|auto].
    unfold prefetch_range in P. rewrite wadd_small in P by lia.
    (* the last address of the residue class *)
    set (k := (2 ^ b - 1 - addr) / 256). pose proof (Z.div_mod (2 ^ b - 1 - addr) 256 ltac:(lia)) as D.
    pose proof (Z.mod_pos_bound (2 ^ b - 1 - addr) 256 ltac:(lia)) as M. fold k in D.
    assert (Hk : 0 <= k) by (apply Z.div_pos; lia).
    destruct (Z.le_gt_cases len (256 * k)) as [C|C]; [exists k; lia|]. exfalso.
    apply (prefetches_never b (addr + len) (addr mod 256) Hb) with (vp := addr) (l := l); auto.
    intros vp Hvp Hr. destruct (Z.lt_ge_cases vp (addr + len)) as [|G]; [assumption|exfalso].
    pose proof (Z.div_mod vp 256 ltac:(lia)) as D1. pose proof (Z.div_mod addr 256 ltac:(lia)) as D2. rewrite Hr in D1.
    assert (vp = addr + 256 * (vp / 256 - addr / 256)) by lia.
    assert (k + 1 <= vp / 256 - addr / 256) by lia. lia.
  - intros [L|(k & Hk & H1 & H2)].
    + exists []. apply pf_stop. unfold wadd, wrap. intros C.
      rewrite <- (Z_mod_plus_full _ (-1)), Z.mod_small in C; lia.
    + destruct (Z.lt_ge_cases (addr + len) (2 ^ b)) as [L|L]; [|lia].
      set (n := Z.to_nat ((len + 255) / 256)). exists (strides addr n).
      assert (Hn : Z.of_nat n = (len + 255) / 256) by (unfold n; rewrite Z2Nat.id; [reflexivity|apply Z.div_pos; lia]).
      pose proof (Z.div_mod (len + 255) 256 ltac:(lia)) as D. pose proof (Z.mod_pos_bound (len + 255) 256 ltac:(lia)) as M.
      unfold prefetch_range. rewrite wadd_small by lia. apply prefetches_run; try lia.
Qed.

(** C36: what is touched: addr, addr+256, addr+512, ... as far as they are inside the range, each once;
    nothing if the range wraps around the end of the address space. *)
Theorem C36_touches_exactly b addr len l :
  8 <= b -> is_word b addr -> 0 <= len < 2 ^ b -> prefetch_range b addr len l ->
  NoDup l /\ forall a, In a l <-> addr + len < 2 ^ b /\ exists i, 0 <= i /\ a = addr + 256 * i /\ a < addr + len.
Proof.
  intros Hb Ha Hl P. pose proof (proj1 (C36_terminates_iff b addr len Hb Ha Hl) (ex_intro _ l P)) as T. unfold is_word in Ha.
  destruct (Z.lt_ge_cases (addr + len) (2 ^ b)) as [L|L].
  - destruct T as [T|(k & Hk & H1 & H2)]; [lia|].
    set (n := Z.to_nat ((len + 255) / 256)).
    assert (Hn : Z.of_nat n = (len + 255) / 256) by (unfold n; rewrite Z2Nat.id; [reflexivity|apply Z.div_pos; lia]).
    pose proof (Z.div_mod (len + 255) 256 ltac:(lia)) as D. pose proof (Z.mod_pos_bound (len + 255) 256 ltac:(lia)) as M.
    assert (P' : prefetch_range b addr len (strides addr n)).
    { unfold prefetch_range. rewrite wadd_small by lia. apply prefetches_run; try lia. }
    rewrite (prefetches_det _ _ _ _ P _ P'). split.
    + unfold strides. apply FinFun.Injective_map_NoDup; [|apply seq_NoDup]. intros i j E. lia.
    + intros a. unfold strides. rewrite in_map_iff. split.
      * intros (i & <- & Hi). apply in_seq in Hi. split; [lia|]. exists (Z.of_nat i). lia.
      * intros (_ & i & Hi & -> & Hlt). exists (Z.to_nat i). rewrite Z2Nat.id by lia. split; [reflexivity|]. apply in_seq. lia.
  - assert (l = []) as ->.
    { apply (prefetches_det _ _ _ _ P). apply pf_stop. unfold wadd, wrap. intros C.
      rewrite <- (Z_mod_plus_full _ (-1)), Z.mod_small in C; lia. }
    split; [constructor|]. intros a. split; [intros []|]. lia.
Qed.

(** every address of the range is less than one stride behind a touched one *)
Theorem C36_covers_strides_partial b addr len l x :
  8 <= b -> is_word b addr -> 0 <= len -> addr + len < 2 ^ b -> prefetch_range b addr len l ->
  addr <= x < addr + len -> exists a, In a l /\ a <= x < a + 4 * 64.
Proof.
  intros Hb Ha Hl Hw P Hx. unfold is_word in Ha. destruct (C36_touches_exactly b addr len l Hb Ha ltac:(lia) P) as [_ T].
  pose proof (Z.div_mod (x - addr) 256 ltac:(lia)) as D. pose proof (Z.mod_pos_bound (x - addr) 256 ltac:(lia)) as M.
  exists (addr + 256 * ((x - addr) / 256)). split; [|lia]. apply T. split; [exact Hw|]. exists ((x - addr) / 256).
  split; [apply Z.div_pos; lia|]. lia.
Qed.

(** C36 as stated does not hold: the stride is four cache lines, so three of four lines are not touched. *)
Theorem C36_every_line_refuted :
  exists addr len l line, prefetch_range 64 addr len l /\ addr + len < 2 ^ 64 /\
    line mod 64 = 0 /\ (addr <= line /\ line + 64 <= addr + len) /\ forall a, In a l -> ~ (line <= a < line + 64).
Proof.
  exists 4096, 256, [4096], 4160. split; [|split; [reflexivity|split; [reflexivity|split; [lia|]]]].
  - apply pf_more; [reflexivity|]. apply pf_stop. vm_compute. discriminate.
  - intros a [<-|[]]. lia.
Qed.

(** the loop can run forever although the range does not reach the end of the address space *)
Theorem C36_termination_refuted :
  exists addr len, is_word 64 addr /\ 0 <= len /\ addr + len < 2 ^ 64 /\ ~ exists l, prefetch_range 64 addr len l.
Proof.
  exists (2 ^ 64 - 256), 1. assert (W : is_word 64 (2 ^ 64 - 256)) by (unfold is_word; lia).
  split; [exact W|]. split; [lia|]. split; [lia|]. rewrite (C36_terminates_iff 64 _ 1 ltac:(lia) W ltac:(lia)).
  intros [H|(k & H1 & H2 & H3)]; lia.
Qed.

(* ------------------------------------------------------------------ C37 *)

Open Scope nat_scope.

(** exchange returns the old value of t and leaves the new one in it; an object passed as rvalue is moved
    from, nothing else changes (nv and t must not be the same object). *)
Theorem C37_exchange {V} (moved : V -> V) (s : store) t nv :
  (forall l, nv = ALval l \/ nv = ARval l -> l <> t) ->
  let v := match nv with ALval l | ARval l => s l | ATemp v => v end in
  let (r, s') := exchange moved s t nv in
  r = s t /\ s' t = v /\
  forall k, k <> t -> s' k = match nv with ARval l => if Nat.eqb k l then moved (s l) else s k | _ => s k end.
Proof.
  intros H. unfold exchange, st_set. destruct nv as [l|l|v]; cbn.
  - specialize (H l (or_introl eq_refl)). split; [reflexivity|]. rewrite Nat.eqb_refl. split.
    + destruct (Nat.eqb_spec l t); [contradiction|reflexivity].
    + intros k Hk. destruct (Nat.eqb_spec k t); [contradiction|reflexivity].
  - specialize (H l (or_intror eq_refl)). split; [reflexivity|]. rewrite Nat.eqb_refl. destruct (Nat.eqb_spec l t); [contradiction|]. split; [reflexivity|].
    intros k Hk. destruct (Nat.eqb_spec k t); [contradiction|]. reflexivity.
  - split; [reflexivity|]. rewrite Nat.eqb_refl. split; [reflexivity|]. intros k Hk. destruct (Nat.eqb_spec k t); [contradiction|reflexivity].
Qed.

Lemma all_map_get {V} (s : list V) idx : (forall i, In i idx -> i < length s) ->
  exists r, all (map (get s) idx) = Some r /\ map (@Some V) r = map (nth_error s) idx.
Proof.
  induction idx as [|i idx IH]; intros H; cbn.
  - exists []. auto.
  - destruct IH as (r & E & F); [intros; apply H; right; assumption|]. unfold get at 1.
    destruct (nth_error s i) as [v|] eqn:Hi; [|apply nth_error_None in Hi; specialize (H i (or_introl eq_refl)); lia].
    rewrite E. cbn. exists (v :: r). split; [reflexivity|]. cbn. rewrite F. reflexivity.
Qed.
Lemma map_Some_inj {V} (a b : list V) : map (@Some V) a = map (@Some V) b -> a = b.
Proof. revert b. induction a as [|x a IH]; intros [|y b] H; try discriminate; [reflexivity|]. injection H as -> H. f_equal. auto. Qed.
Lemma map_nth_seq {V} (s : list V) n k : k + n <= length s -> map (nth_error s) (map (fun i => k + i) (seq 0 n)) = map (@Some V) (firstn n (skipn k s)).
Proof.
  revert s k. induction n as [|n IH]; intros s k H; [reflexivity|].
  rewrite <- cons_seq. cbn [map]. rewrite Nat.add_0_r. destruct (skipn k s) as [|x r] eqn:E.
  - assert (length (skipn k s) = 0) by now rewrite E. rewrite skipn_length in *. lia.
  - cbn [firstn map]. f_equal.
    + rewrite <- (firstn_skipn k s), E. rewrite nth_error_app2 by (rewrite firstn_length; lia). rewrite firstn_length.
      replace (k - Nat.min k (length s)) with 0 by lia. reflexivity.
    + rewrite <- seq_shift, map_map. replace r with (skipn (S k) s).
      * rewrite <- IH by lia. rewrite !map_map. apply map_ext. intros i. f_equal. lia.
      * clear - E. revert s E. induction k as [|k IHk]; intros s E; [cbn in E; rewrite E; reflexivity|].
        destruct s as [|y s]; [discriminate|]. cbn [skipn] in E. exact (IHk s E).
Qed.

(** head( t) = s stores the first sizeof...(T) elements of s, tail( t) = s the last; together nothing is
    lost, duplicated or reordered; the && versions move each element at most once. *)
Theorem C37_tuple_head_tail {V} (s : list V) n :
  n <= length s ->
  head_assign n s = Some (firstn n s) /\
  tail_assign n s = Some (skipn (length s - n) s) /\
  (forall a b, head_assign n s = Some a -> tail_assign (length s - n) s = Some b -> a ++ b = s) /\
  NoDup (head_reads n) /\ NoDup (tail_reads (length s) n) /\
  (forall i, In i (head_reads n) -> ~ In i (tail_reads (length s) (length s - n))).
Proof.
  assert (Hh : forall m, m <= length s -> head_assign m s = Some (firstn m s)).
  { intros m Hm. unfold head_assign. apply Nat.leb_le in Hm as Hm'. rewrite Hm'. unfold head_impl, make_index_sequence.
    destruct (all_map_get s (seq 0 m)) as (r & E & F); [intros i Hi; apply in_seq in Hi; lia|]. rewrite E. f_equal. apply map_Some_inj.
    rewrite F. pose proof (map_nth_seq s m 0 ltac:(lia)) as G. rewrite map_id in G. exact G. }
  assert (Ht : forall m, m <= length s -> tail_assign m s = Some (skipn (length s - m) s)).
  { intros m Hm. unfold tail_assign. apply Nat.leb_le in Hm as Hm'. rewrite Hm'. unfold tail_impl, make_index_sequence. rewrite !seq_length.
    rewrite <- (map_map (fun i => length s - m + i) (get s)).
    destruct (all_map_get s (map (fun i => length s - m + i) (seq 0 m))) as (r & E & F).
    { intros i Hi. apply in_map_iff in Hi. destruct Hi as (j & <- & Hj). apply in_seq in Hj. lia. }
    cbv zeta. rewrite E. f_equal. apply map_Some_inj. rewrite F, map_nth_seq by lia.
    rewrite firstn_all2; [reflexivity|]. rewrite skipn_length. lia. }
  intros Hn. split; [auto|]. split; [auto|]. split; [|split; [|split]].
  - intros a b Ha Hb. rewrite Hh in Ha by lia. rewrite Ht in Hb by lia. injection Ha as <-. injection Hb as <-.
    replace (length s - (length s - n)) with n by lia. apply firstn_skipn.
  - apply seq_NoDup.
  - unfold tail_reads, make_index_sequence. apply FinFun.Injective_map_NoDup; [intros i j E; lia|apply seq_NoDup].
  - intros i Hi. unfold head_reads, tail_reads, make_index_sequence in *. apply in_seq in Hi. rewrite in_map_iff. intros (j & <- & Hj). apply in_seq in Hj. lia.
Qed.

(** too short a source is rejected *)
Theorem C37_tuple_size {V} (s : list V) n : length s < n -> head_assign n s = None /\ tail_assign n s = None.
Proof. intros H. unfold head_assign, tail_assign. apply Nat.leb_gt in H. rewrite H. auto. Qed.

(** apply and invoke call the function with exactly the elements of the tuple, in order; a pointer to a
    member is called on the first one with the others. *)
Theorem C37_apply {V R} (f : list V -> R) (g : V -> list V -> R) (tpl : list V) :
  apply (CFun f) tpl = Some (f tpl) /\ invoke (CFun f) tpl = Some (f tpl) /\
  (forall o r, tpl = o :: r -> apply (CMem g) tpl = Some (g o r) /\ invoke (CMem g) tpl = Some (g o r)).
Proof.
  assert (A : forall fn : @callable V R, apply fn tpl = invoke fn tpl).
  { intros fn. unfold apply, apply_impl, make_index_sequence.
    destruct (all_map_get tpl (seq 0 (length tpl))) as (r & E & F); [intros i Hi; apply in_seq in Hi; lia|]. rewrite E.
    replace r with tpl; [reflexivity|]. apply map_Some_inj. rewrite F.
    pose proof (map_nth_seq tpl (length tpl) 0 ltac:(lia)) as G. rewrite map_id in G. rewrite G. cbn. rewrite firstn_all. reflexivity. }
  rewrite !A. split; [reflexivity|]. split; [reflexivity|]. intros o r ->. split; reflexivity.
Qed.

(** derived classes *)
Inductive derived (bases : nat -> list nat) : nat -> nat -> Prop :=     (* derived x z: z is x or derives from x *)
| d_self x : derived bases x x
| d_base x y z : derived bases x y -> In y (bases z) -> derived bases x z.
(** Y is a class, up to references and cv-qualifiers *)
Inductive denotes : ty -> nat -> Prop :=
| den_class n : denotes (TClass n) n
| den_const t n : denotes t n -> (forall u, t <> TLref u) -> (forall u, t <> TRref u) -> denotes (TConst t) n
| den_volatile t n : denotes t n -> (forall u, t <> TLref u) -> (forall u, t <> TRref u) -> denotes (TVolatile t) n
| den_lref t n : denotes t n -> (forall u, t <> TLref u) -> (forall u, t <> TRref u) -> denotes (TLref t) n
| den_rref t n : denotes t n -> (forall u, t <> TLref u) -> (forall u, t <> TRref u) -> denotes (TRref t) n.
(** a type without qualified references and references to references (they do not exist) *)
Fixpoint no_ref (t : ty) : bool := match t with TLref _ | TRref _ => false | TConst t | TVolatile t => no_ref t | _ => true end.
Definition well_formed (t : ty) : bool := match t with TLref t | TRref t => no_ref t | t => no_ref t end.

Lemma no_ref_ne t : no_ref t = true -> (forall u, t <> TLref u) /\ (forall u, t <> TRref u).
Proof. intros H. split; intros u ->; discriminate. Qed.
Lemma cv_denotes t n : no_ref t = true -> (remove_cv t = TClass n <-> denotes t n).
Proof.
  induction t; cbn [no_ref remove_cv]; intros H; try discriminate; try (split; [discriminate|intros D; inversion D]).
  - split; [injection 1 as ->; constructor|]. intros D; inversion D; reflexivity.
  - destruct (no_ref_ne t H). rewrite IHt by exact H. split; [constructor; auto|]. intros D; inversion D; auto.
  - destruct (no_ref_ne t H). rewrite IHt by exact H. split; [constructor; auto|]. intros D; inversion D; auto.
Qed.
Lemma decay_denotes t n : well_formed t = true -> (decay t = TClass n <-> denotes t n).
Proof.
  intros W. unfold decay.
  assert (A : forall u, no_ref u = true -> (decay_nonref u = TClass n <-> denotes u n)).
  { intros u Hu. destruct u; try (apply cv_denotes; exact Hu); (split; [discriminate|intros D; inversion D]). }
  destruct t as [k|k|t|t|t|t|t|t k|r a]; cbn [remove_ref]; try (apply A; exact W).
  - cbn in W. destruct (no_ref_ne t W). rewrite (A t W). split; [constructor; auto|]. intros D; inversion D; auto.
  - cbn in W. destruct (no_ref_ne t W). rewrite (A t W). split; [constructor; auto|]. intros D; inversion D; auto.
Qed.

(** C37: the forwarding constructor of class X is disabled exactly for arguments that are X or derived from
    X, whatever references and cv-qualifiers are involved: it never replaces the copy or move
    constructor, and it accepts everything else. *)
Theorem C37_disable_overload bases x Y :
  well_formed Y = true -> (overload_enabled bases (TClass x) Y <-> ~ exists y, denotes Y y /\ derived bases x y).
Proof.
  intros W. unfold overload_enabled.
  assert (A : is_base_of bases (TClass x) (decay Y) <-> exists y, denotes Y y /\ derived bases x y).
  { assert (B : forall t, is_base_of bases (TClass x) t <-> exists y, t = TClass y /\ derived bases x y).
    { intros t. split.
      - intros H. remember (TClass x) as X eqn:EX. revert EX. induction H as [x'|x' y z Hin H IH]; intros EX; injection EX as ->.
        + exists x. split; [reflexivity|constructor].
        + destruct (IH eq_refl) as (y' & Ey & D). injection Ey as <-. exists z. split; [reflexivity|]. econstructor; eauto.
      - intros (y & -> & D). induction D; [constructor|]. econstructor; eauto. }
    rewrite B. split; intros (y & H1 & H2); exists y; (split; [|exact H2]); apply (decay_denotes Y y W); exact H1. }
  rewrite A. tauto.
Qed.

Example C37_met : let bases := fun n => match n with 2 => [1] | 3 => [2] | _ => [] end in
  well_formed (TRref (TClass 3)) = true /\ ~ overload_enabled bases (TClass 1) (TRref (TClass 3)) /\
  overload_enabled bases (TClass 1) (TLref (TConst (TClass 7))).
Proof.
  cbn. split; [reflexivity|]. split.
  - intros H. apply H. cbn. eapply ib_step with (y := 2); [cbn; auto|]. eapply ib_step with (y := 1); [cbn; auto|]. constructor.
  - intros H. cbn in H. inversion H; subst. cbn in *. contradiction.
Qed.

(* ------------------------------------------------------------------ C38 *)

Open Scope Z_scope.

Lemma lor_disjoint a k x : 0 <= k -> 0 <= x < 2 ^ k -> Z.lor (a * 2 ^ k) x = a * 2 ^ k + x.
Proof.
  intros Hk Hx.
  assert (X : Z.land (a * 2 ^ k) x = 0).
  { apply Z.bits_inj'. intros i Hi. rewrite Z.land_spec, Z.bits_0. destruct (Z.lt_ge_cases i k) as [L|L].
    - rewrite Z.mul_pow2_bits_low by lia. reflexivity.
    - replace x with (x mod 2 ^ k) by (apply Z.mod_small; exact Hx). rewrite Z.mod_pow2_bits_high by lia. apply andb_false_r. }
  rewrite (Z.add_nocarry_lxor _ _ X), (Z.lxor_lor _ _ X). reflexivity.
Qed.

(** C38: the entry function receives the pointer that create_fiber1 passed to makecontext. *)
Theorem C38_pointer_halves p : 0 <= p < 2 ^ 64 ->
  let (hi, lo) := split_ptr p in is_word 32 hi /\ is_word 32 lo /\ join_ptr hi lo = p.
Proof.
  intros Hp. unfold split_ptr.
  assert (H1 : wrap 32 (Z.land (Z.shiftr p 32) 4294967295) = p / 2 ^ 32).
  { change 4294967295 with (Z.ones 32). rewrite Z.land_ones, Z.shiftr_div_pow2 by lia. unfold wrap. rewrite Z.mod_mod by lia. apply Z.mod_small.
    split; [apply Z.div_pos; lia|]. apply Z.div_lt_upper_bound; lia. }
  rewrite H1.
  assert (W1 : 0 <= p / 2 ^ 32 < 2 ^ 32) by (split; [apply Z.div_pos; lia|apply Z.div_lt_upper_bound; lia]).
  assert (W2 : 0 <= wrap 32 p < 2 ^ 32) by (apply wrap_word; lia).
  split; [exact W1|]. split; [exact W2|].
  unfold join_ptr. rewrite (wrap_small 64 (p / 2 ^ 32)) by lia. rewrite Z.shiftl_mul_pow2 by lia. rewrite wrap_small by lia.
  rewrite lor_disjoint by lia. unfold wrap. rewrite (Z.mul_comm (p / 2 ^ 32)). symmetry. apply Z.div_mod. lia.
Qed.

(** C38: on x32 a transfer_t packed into one register by the assembler is unpacked to the same two
    32-bit pointers (their upper halves in the 64-bit registers are zero). *)
Theorem C38_ilp32_packing fctx data : is_word 32 fctx -> is_word 32 data -> unpack_ilp32 (pack_ilp32 fctx data) = (fctx, data).
Proof.
  unfold is_word. intros H1 H2. unfold pack_ilp32, unpack_ilp32. rewrite Z.shiftl_mul_pow2 by lia. rewrite (wrap_small 64) by lia.
  rewrite Z.lor_comm, lor_disjoint by lia. rewrite Z.shiftr_div_pow2 by lia. unfold wrap. f_equal.
  - rewrite Z.add_comm, Z_mod_plus_full. apply Z.mod_small. exact H1.
  - rewrite Z.div_add_l by lia. rewrite (Z.div_small fctx) by lia. rewrite Z.add_0_r. apply Z.mod_small. exact H2.
Qed.
Example C38_met : split_ptr 0x7fffdeadbeef1234 = (0x7fffdead, 0xbeef1234).
Proof. reflexivity. Qed.
