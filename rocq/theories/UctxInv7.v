(** Histories only grow; every calm history satisfies the invariant. *)
From Coq Require Import List Arith Bool Lia.
From Verif Require Import ListUtil Uctx UctxSpec UctxInv UctxInv2 UctxInv3 UctxInv4 UctxInv5 UctxInv6.
Import ListNotations.

Definition grows (a b : list event) : Prop := exists new, b = new ++ a.
Lemma grows_refl a : grows a a.
Proof. exists []. reflexivity. Qed.
Lemma grows_cons a b e : grows a b -> grows a (e :: b).
Proof. intros [new ->]. exists (e :: new). reflexivity. Qed.
Lemma grows_trans a b c : grows a b -> grows b c -> grows a c.
Proof. intros [n1 ->] [n2 ->]. exists (n2 ++ n1). now rewrite app_assoc. Qed.
Lemma grows_calm a b : grows a b -> calm b -> calm a.
Proof. intros [new ->]. apply always_app. Qed.

Definition ext (tr : list event) (o : outcome) : Prop :=
  match o with Next s' => grows tr (s_tr s') | UB tr' | AssertFail tr' => grows tr tr' | _ => True end.

Lemma ext_le a b o : grows a b -> ext b o -> ext a o.
Proof. destruct o; cbn; eauto using grows_trans. Qed.

Ltac trs := cbn [ext]; rewrite ?put_frames_tr; cbn [emit add_var put_var put_rec s_tr]; auto using grows_refl, grows_cons.

Lemma clear_ontop_tr s c : s_tr (clear_ontop s c) = s_tr s.
Proof. unfold clear_ontop. destruct nth_error; reflexivity. Qed.

Lemma ret_to_ext s c fs p : ext (s_tr s) (ret_to s c fs p).
Proof. unfold ret_to. destruct fs as [|[] ?]; trs. Qed.
Lemma raise_to_ext s c fs p : ext (s_tr s) (raise_to s c fs p).
Proof. unfold raise_to. destruct fs as [|[] ?]; trs. Qed.
Lemma arrive_ext s d : ext (s_tr s) (arrive s d).
Proof.
  unfold arrive. destruct (nth_error (s_rec s) d) as [x|]; [|trs].
  destruct (r_frames x) as [|[f| | |e| | | | | | |] rest]; try solve [trs].
  - destruct (r_force x); [exact (raise_to_ext (put_rec s d (set_from x None)) _ _ _)|].
    destruct (r_ontop x); [trs|]. exact (ret_to_ext (put_rec s d (set_from x None)) _ _ _).
  - destruct (nth_error (s_rec s) e) as [y|]; [|trs]. destruct (r_alive y); [|trs]. destruct (r_term y); trs.
Qed.
Lemma switch_ext s t c d k : ext (s_tr s) (switch s t c d k).
Proof.
  unfold switch. destruct (nth_error (s_rec s) d) as [y|]; [|trs]. destruct (_ && _); [|trs].
  cbv zeta. eapply ext_le; [|apply arrive_ext]. cbn [s_tr]. auto using grows_refl, grows_cons.
Qed.
Lemma drop_ext s t c fs h : ext (s_tr s) (drop s t c fs h).
Proof.
  unfold drop. destruct h as [d|]; [|trs]. destruct (nth_error (s_rec s) d) as [y|]; [|trs].
  destruct (r_alive y); [|trs]. destruct (r_main y); [trs|]. destruct (r_term y); [trs|].
  eapply ext_le; [|apply switch_ext]. rewrite put_frames_tr. apply grows_refl.
Qed.
Lemma destroy_ext s t c fs p o : ext (s_tr s) (destroy s t c fs p o).
Proof.
  unfold destroy. destruct o as [v|u]; [|trs]. destruct (nth_error (s_vars s) v) as [[|b h]|]; [trs| |trs].
  eapply ext_le; [|apply drop_ext]. trs.
Qed.
Lemma leave_ret_ext s c f rest r : ext (s_tr s) (leave_ret s c f rest r).
Proof.
  unfold leave_ret. destruct (uf_kind f); destruct rest as [|[] ?]; try solve [trs].
  eapply ext_le; [|apply ret_to_ext]. rewrite clear_ontop_tr. trs.
Qed.
Lemma leave_exn_ext s c f rest r : ext (s_tr s) (leave_exn s c f rest r).
Proof.
  unfold leave_exn. destruct (uf_kind f); destruct rest as [|[] ?]; try solve [trs].
  - destruct r; trs.
  - eapply ext_le; [|apply raise_to_ext]. trs.
Qed.
Lemma rel_step_ext s t c d b rest : ext (s_tr s) (rel_step s t c d b rest).
Proof.
  unfold rel_step. destruct (nth_error (s_rec s) d) as [y|]; [|trs]. destruct (r_alive y); [|trs].
  destruct (r_caps y) as [|o l].
  - destruct (r_alloc y); [|trs]. destruct b; [|trs]. destruct rest as [|[] ?]; trs.
  - eapply ext_le; [|apply destroy_ext]. trs.
Qed.
Lemma tau_ext s t c fs : ext (s_tr s) (tau_step s t c fs).
Proof.
  unfold tau_step. destruct fs as [|[f| | | | | |p| |p| |d b] rest]; try solve [trs].
  - destruct (uf_mode f); try solve [trs]; (destruct (uf_objs f); [|apply destroy_ext]).
    + apply leave_ret_ext.
    + apply leave_exn_ext.
  - destruct p as [d|]; [|trs]. destruct (nth_error (s_rec s) c); [|trs]. eapply ext_le; [|apply switch_ext]. trs.
  - apply drop_ext.
  - apply rel_step_ext.
Qed.
Lemma do_caps_ext d l : forall s acc s' caps, do_caps s d l acc = Some (s', caps) -> grows (s_tr s) (s_tr s').
Proof.
  induction l as [|[v|] l IH]; intros s acc s' caps; cbn [do_caps].
  - injection 1 as <- _. apply grows_refl.
  - destruct (get_var s v) as [[b h]|]; [|discriminate]. intros H. apply IH in H. eapply grows_trans; [|exact H]. trs.
  - intros H. apply IH in H. eapply grows_trans; [|exact H]. trs.
Qed.
Lemma new_fib_ext s c f rest b h : ext (s_tr s) (new_fib s c f rest b h).
Proof. unfold new_fib. destruct b; trs. Qed.
Lemma do_create_ext s c f rest a l ok : ext (s_tr s) (do_create s c f rest a l ok).
Proof.
  unfold do_create. cbv zeta. destruct (do_caps _ _ _ _) as [[s1 caps]|] eqn:H; [|exact I].
  apply do_caps_ext in H. apply (ext_le _ (s_tr s1)).
  - eapply grows_trans; [|exact H]. trs.
  - destruct ok; [|trs]. eapply ext_le; [|apply new_fib_ext]. trs.
Qed.
Lemma user_ext s t c f rest o : ext (s_tr s) (user_step s t c f rest o).
Proof.
  unfold user_step. destruct (uf_mode f).
  - destruct o as [heap| |a l r|src heap|dst src|va vb|v| |src|src g| |v|e| | | |]; try solve [trs].
    + apply new_fib_ext.
    + destruct r; [apply do_create_ext|trs|apply do_create_ext].
    + destruct (get_var s src) as [[]|]; [|exact I]. eapply ext_le; [|apply new_fib_ext]. trs.
    + destruct (get_var s dst) as [[]|]; [|exact I]. destruct (get_var s src) as [[]|]; [|exact I].
      destruct (Nat.eqb dst src); [trs|]. eapply ext_le; [|apply drop_ext]. trs.
    + destruct (get_var s va) as [[]|]; [|exact I]. destruct (get_var s vb) as [[]|]; [|exact I]. trs.
    + destruct (get_var s v) as [[[]]|]; try exact I. apply destroy_ext.
    + destruct (uf_objs f); [exact I|apply destroy_ext].
    + destruct (get_var s src) as [[b [d|]]|]; try solve [trs]. eapply ext_le; [|apply switch_ext]. trs.
    + destruct (get_var s src) as [[b [d|]]|]; try solve [trs]. eapply ext_le; [|apply switch_ext]. trs.
    + destruct (uf_kind f); try exact I; destruct (forced_caught f); try exact I; destruct v as [v|]; try exact I; try solve [trs];
        destruct (get_var s v) as [[]|]; trs.
    + destruct (forced_caught f); [exact I|trs].
    + destruct (uf_caught f) as [[]|]; trs.
    + destruct (uf_caught f); trs.
  - destruct o; try solve [trs].
    + destruct (uf_caught f); trs.
    + destruct (forced_caught f); trs.
  - trs.
  - trs.
Qed.
Lemma step_ext s t l : ext (s_tr s) (step s t l).
Proof.
  unfold step. destruct (nth_error (s_thr s) t) as [c|]; [|trs]. destruct (nth_error (s_rec s) c) as [x|]; [|trs].
  destruct l; [apply tau_ext|]. destruct (r_frames x) as [|[] ?]; try solve [trs]. apply user_ext.
Qed.
Lemma run_ext l : forall s, ext (s_tr s) (run s l).
Proof.
  induction l as [|[t a] l IH]; intros s; cbn [run]; [apply grows_refl|].
  pose proof (step_ext s t a) as H. destruct (step s t a) as [s'| | | | |]; try exact H.
  eapply ext_le; [exact H|apply IH].
Qed.

Lemma run_app l1 : forall s l2, run s (l1 ++ l2) = match run s l1 with Next s' => run s' l2 | o => o end.
Proof. induction l1 as [|[t a] l1 IH]; intros s l2; cbn; [reflexivity|]. destruct (step s t a); auto. Qed.

(* ------------------------------------------------------------------ the initial state *)

Lemma nth_seq0 n t : nth_error (seq 0 n) t = if Nat.ltb t n then Some t else None.
Proof.
  destruct (Nat.ltb_spec t n).
  - rewrite (nth_error_nth' _ 0) by (rewrite seq_length; lia). now rewrite seq_nth.
  - apply nth_error_None. rewrite seq_length. lia.
Qed.

Lemma init_inv n : SInv n (init n).
Proof.
  assert (N : forall c x, nth_error (s_rec (init n)) c = Some x -> x = main_rec /\ c < n).
  { cbn. intros c x H. pose proof (nth_some_lt _ _ _ H) as L. rewrite map_length, seq_length in L.
    rewrite (map_nth_error _ c (seq 0 n) (d := c)) in H; [|rewrite nth_seq0; apply Nat.ltb_lt in L; now rewrite L].
    split; congruence. }
  assert (Nn : forall c, c < n -> nth_error (s_rec (init n)) c = Some main_rec).
  { cbn. intros c L. rewrite (map_nth_error _ c (seq 0 n) (d := c)); [reflexivity|]. rewrite nth_seq0. apply Nat.ltb_lt in L; now rewrite L. }
  assert (Z : forall g : rcd -> nat, g main_rec = 0 -> sumf g (s_rec (init n)) = 0).
  { intros g Hg. apply sumf_zero. intros x Hx. apply In_nth_error in Hx. destruct Hx as [c Hx]. apply N in Hx. destruct Hx as [-> _]. exact Hg. }
  constructor.
  - intros e. unfold cnt. rewrite Z by reflexivity. cbn. split; [lia|]. intros H. unfold is_main, rest_ in *.
    destruct (nth_error _ e) as [x|] eqn:Hx; [|reflexivity]. apply N in Hx. destruct Hx as [-> _]. discriminate.
  - intros e. unfold cv. rewrite Z by reflexivity. cbn. lia.
  - intros c x f Hx Hf. apply N in Hx. destruct Hx as [-> _]. destruct Hf as [<-|[]]. cbn. auto.
  - intros c x Hx. apply N in Hx. destruct Hx as [-> _]. cbn. unfold pend. rewrite Z by reflexivity. reflexivity.
  - intros v. unfold own. rewrite Z by reflexivity. cbn. destruct v; reflexivity.
  - cbn. split; [apply seq_length|]. intros t c H. rewrite nth_seq0 in H. destruct (Nat.ltb t n); congruence.
  - cbn. intros t t' c. rewrite !nth_seq0. destruct (Nat.ltb t n); [|discriminate]. destruct (Nat.ltb t' n); congruence.
  - intros t c H. unfold init in H; cbn [s_thr] in H. rewrite nth_seq0 in H. destruct (Nat.ltb_spec t n); [|discriminate].
    injection H as <-. unfold alive. rewrite Nn by assumption. reflexivity.
  - intros c x Hx. apply N in Hx. destruct Hx as [-> L].
    assert (R : runs (init n) c = true).
    { unfold runs. apply existsb_exists. exists c. split; [|apply Nat.eqb_refl]. cbn. apply in_seq. lia. }
    rewrite R. unfold shape. cbn. split; [discriminate|]. split; [|reflexivity]. unfold fok; cbn. auto.
  - intros c x Hx (t & f & []).
  - intros c x Hx. apply N in Hx. destruct Hx as [-> _]. unfold pend. rewrite Z by reflexivity. cbn. intros [H|H]; [lia|discriminate].
  - intros c x Hx. apply N in Hx. destruct Hx as [-> _]. cbn. split; [intros (r & [])|intros [H|H]; discriminate].
  - intros c x Hx. apply N in Hx. destruct Hx as [-> _]. cbn. split; [discriminate|]. split; [intros [H|[]]; discriminate|auto].
  - intros c x Hx. apply N in Hx. destruct Hx as [-> _]. cbn. split; [intros (a & b & [])|discriminate].
  - intros c x a Hx. apply N in Hx. destruct Hx as [-> _]. discriminate.
  - intros c _. repeat split; [intros (r & [])|intros (r & [])|intros (a & b & [])|intros (a & b & [])].
  - exact I.
  - apply always_nil.
  - intros c x p Hx. apply N in Hx. destruct Hx as [-> _]. discriminate.
Qed.

Lemma run_good n l : forall s, SInv n s ->
  match run s l with
  | Next s' => calm (s_tr s') -> SInv n s'
  | UB tr => ~ calm tr
  | AssertFail tr => calm tr -> exists l1 t a l2 s1, l = l1 ++ (t, a) :: l2 /\ run s l1 = Next s1 /\ step s1 t a = AssertFail tr /\ SInv n s1 /\ tr = s_tr s1
  | _ => True
  end.
Proof.
  induction l as [|[t a] l IH]; intros s H; cbn [run]; [auto|].
  pose proof (step_good n s t a H) as G. pose proof (step_ext s t a) as E.
  destruct (step s t a) as [s'|tr|tr| | |] eqn:Hst; cbn in G, E; auto.
  - pose proof (run_ext l s') as E2. specialize (IH s').
    destruct (run s' l) as [s2|tr|tr| | |] eqn:Hr; cbn in E2; auto.
    + intros Hcalm. apply IH; auto. apply G. eapply grows_calm; eauto.
    + intros Hcalm. eapply IH; eauto. apply G. eapply grows_calm; eauto.
    + intros Hcalm. destruct IH as (l1 & t1 & a1 & l2 & s1 & -> & H1 & H2 & H3); auto.
      { apply G. eapply grows_calm; eauto. }
      exists ((t, a) :: l1), t1, a1, l2, s1. cbn. rewrite Hst. auto.
  - intros Hcalm. exists [], t, a, l, s. cbn. auto 6.
Qed.

Lemma calm_inv n l s : run (init n) l = Next s -> calm (s_tr s) -> SInv n s.
Proof. intros H. pose proof (run_good n l _ (init_inv n)) as G. rewrite H in G. exact G. Qed.
Lemma calm_no_ub n l tr : run (init n) l = UB tr -> ~ calm tr.
Proof. intros H. pose proof (run_good n l _ (init_inv n)) as G. rewrite H in G. exact G. Qed.
