(** * Concrete machine states

    For every port: a state [w0] that calls make_fcontext, a state [w1] that
    jumps to the new context, and a state [w2] of the new context that jumps
    back.  They show that the hypotheses of the theorems of P_Asm.v are met, and
    they are the counterexamples of P_AsmRef.v. *)
From Coq Require Import ZArith List String Lia Bool.
From Verif Require Import Word AsmMachine AsmSym AsmAbi AsmCheck AsmCode AsmCode2 AsmFacts AsmHist P_Asm.
Import ListNotations.
Open Scope Z_scope.

Definition wL (l : string) : Z :=
  if String.eqb l "trampoline" then 0x100 else if String.eqb l "finish" then 0x200 else 0x300.

Section Wit.
  Variable A : port.
  Let B := p_abi A.
  Let C := p_code A.
  Let P := ab_cpu B.
  Variables x0 x1 x2 : list (string * Z).     (* extra register contents *)

  Definition wsp0 : Z := 0x9800 - ab_bias B.
  Definition wsp1 : Z := 0x9000 - ab_bias B.
  Definition wsp2 : Z := 0x5800 - ab_bias B.
  Definition wh : Z := (0x6000 + c_mkoff C) / c_mkal C * c_mkal C - c_size C.

  Definition preg (p : place) (v : Z) : list (string * Z) :=
    match p with PReg r => [(r, v)] | PMem _ _ _ => [] end.
  Definition pmem (p : place) (base v : Z) : list (Z * Z * Z) :=
    match p with PReg _ => [] | PMem _ o n => [(base + o, n, v)] end.

  Definition args0 : list (place * Z) := [(ab_ret B, 0x777); (ab_mksp B, 0x6000); (ab_mkfn B, 0x1234)].
  Definition args1 : list (place * Z) :=
    [(ab_ret B, 0x778); (ab_to B, wh); (ab_data B, 0xdada)] ++
    match ab_hidden B with Some p => [(p, 0x9100)] | None => [] end.
  Definition args2 : list (place * Z) :=
    [(ab_ret B, 0x779); (ab_to B, wsp1 - c_frame C); (ab_data B, 0xdbdb); (ab_fn B, 0x4321)] ++
    match ab_hidden B with Some p => [(p, 0x5900)] | None => [] end.

  Definition wmem : Z -> Z :=
    fold_right (fun x m => let '(a, n, v) := x in store (cbig P) m a n v) (fun _ => 7)
      (flat_map (fun x => pmem (fst x) wsp0 (snd x)) args0 ++
       flat_map (fun x => pmem (fst x) wsp1 (snd x)) args1 ++
       flat_map (fun x => pmem (fst x) wsp2 (snd x)) args2).

  Definition wreg (spv : Z) (args : list (place * Z)) (x : list (string * Z)) (r : string) : Z :=
    (match assoc ((ab_sp B, spv) :: flat_map (fun x => preg (fst x) (snd x)) args ++ x) r with
     | Some v => v | None => 1 end) mod 256 ^ (rw P r).

  Definition st_of (o : outcome) : mst := match o with Goto _ t => t | _ => St (fun _ => 0) (fun _ => 0) end.

  Definition w0 : mst := St (wreg wsp0 args0 x0) wmem.
  Definition v0 : mst := st_of (run P wL (c_make C) w0).
  Definition w1 : mst := St (wreg wsp1 args1 x1) (mm v0).
  Definition v1 : mst := st_of (switch A wL Jump w1).
  Definition w2 : mst := St (wreg wsp2 args2 x2) (mm v1).
  Definition v2 : mst := st_of (switch A wL Jump w2).

  Definition disjb (a n b m : Z) : bool := (a + n <=? b) || (b + m <=? a).
  Definition goes (o : outcome) : bool := match o with Goto _ _ => true | _ => false end.
  Definition pc_of (o : outcome) : Z := match o with Goto pc _ => pc | _ => 0 end.

  Definition call_okb (s : mst) : bool :=
    (c_frame C <=? sp A s) && (sp A s + ab_up B <? space P) &&
    ((sp A s + ab_bias B) mod ab_align B =? 0) && negb (ret_addr A s =? wL "trampoline").
  Definition make_okb (s : mst) : bool :=
    (c_mkscr C <=? sp A s) && (sp A s + ab_up B <? space P) && (c_need C <=? mk_top A s) &&
    (mk_top A s <? space P) &&
    disjb (sp A s - c_mkscr C) (c_mkscr C + ab_up B) (mk_top A s - c_need C) (c_need C).
  Definition on_stackb (s : mst) (lo hi : Z) : bool :=
    (lo <=? handle A s) && (sp A s + ab_up B <=? hi) &&
    match hidden A s with
    | None => true
    | Some H => (0 <? H) && (lo <=? H) && (H + 2 * cwb P <=? hi) && disjb H (2 * cwb P) (handle A s) (own_len A)
    end.

  Definition wit : bool :=
    forallb (fun x => 0 <=? snd x) (cwidth P) && (0 <=? cwb P) && (0x300 <? space P) &&
    make_okb w0 && goes (run P wL (c_make C) w0) && (rg v0 (ab_mkres B) =? arg_to A w1) &&
    (0x8000 <=? sp A w0 - c_mkscr C) && (sp A w0 + ab_up B <=? 0xa000) && (0xa000 <=? space P) &&
    (mk_top A w0 =? 0x6000) && (0x4000 <=? 0x6000 - c_need C) &&
    call_okb w1 && on_stackb w1 0x8000 0xa000 && goes (switch A wL Jump w1) &&
    call_okb w2 && on_stackb w2 0x4000 0x6000 && (arg_to A w2 =? handle A w1) &&
    goes (switch A wL Jump w2).

  Hypothesis WIT : wit = true.

  Ltac bs H := repeat (let X := fresh "X" in apply andb_true_iff in H as [H X]).

  Lemma rw_nonneg r : 0 <= rw P r.
  Proof.
    unfold wit in WIT. bs WIT. apply Z.leb_le in X15.
    unfold rw. rewrite forallb_forall in WIT.
    induction (cwidth P) as [|[y v] l IH]; simpl; [exact X15|].
    destruct (String.eqb r y).
    - specialize (WIT (y, v) (or_introl eq_refl)). apply Z.leb_le in WIT. exact WIT.
    - apply IH. intros x X'. apply WIT. right. exact X'.
  Qed.

  Lemma wreg_ok spv args x r : 0 <= wreg spv args x r < 256 ^ (rw P r).
  Proof. apply Z.mod_pos_bound. apply Z.pow_pos_nonneg; [lia|]. apply rw_nonneg. Qed.

  Lemma wmem_ok a : 0 <= wmem a < 256.
  Proof.
    unfold wmem. generalize a. clear a.
    induction (_ ++ _)%list as [|[[b n] v] l IH]; intros a; simpl; [lia|].
    apply store_byte. exact IH.
  Qed.

  Lemma wL_ok : labels_ok A wL.
  Proof.
    unfold wit in WIT. bs WIT. apply Z.ltb_lt in X14. intros l. fold B P. unfold wL.
    destruct (String.eqb l _); [lia|]. destruct (String.eqb l _); lia.
  Qed.

  Lemma disjb_ok a n b m : disjb a n b m = true -> disj a n b m.
  Proof. unfold disjb, disj. rewrite orb_true_iff, !Z.leb_le. auto. Qed.

  Lemma call_okb_ok s : wf P s -> call_okb s = true -> call_ok A wL s.
  Proof.
    intros W H. unfold call_okb in H. bs H. apply Z.leb_le in H. apply Z.ltb_lt in X1.
    apply Z.eqb_eq in X0. apply negb_true_iff in X. apply Z.eqb_neq in X.
    split; [exact W|]. auto.
  Qed.

  Lemma make_okb_ok s : wf P s -> make_okb s = true -> make_ok A s.
  Proof.
    intros W H. unfold make_okb in H. bs H. apply Z.leb_le in H, X1. apply Z.ltb_lt in X0, X2.
    apply disjb_ok in X. split; [exact W|]. auto.
  Qed.

  Lemma on_stackb_ok s lo hi : on_stackb s lo hi = true -> on_stack A s lo hi.
  Proof.
    intros H. unfold on_stackb in H. apply andb_true_iff in H as [H X]. bs H. apply Z.leb_le in H, X0.
    split; [exact H|]. split; [exact X0|]. destruct (hidden A s) as [h|]; [|exact Logic.I].
    bs X. apply Z.ltb_lt in X. apply Z.leb_le in X2, X3. apply disjb_ok in X1. auto.
  Qed.

  Lemma goes_ok o : goes o = true -> o = Goto (pc_of o) (st_of o).
  Proof. destruct o; simpl; try discriminate. reflexivity. Qed.

  (** Without reference to the theorems of P_Asm.v, for any port: *)
  Definition apartb (s : mst) (h : Z) (o : origin) : bool :=
    match o with
    | Made _ => disjb (handle A s) (own_len A) h (c_size C)
    | Susp s1 =>
        disjb (handle A s) (own_len A) h (own_len A) &&
        match hidden A s1 with
        | None => true
        | Some H => (0 <? H) && (H + 2 * cwb P <=? space P) &&
                    disjb H (2 * cwb P) (handle A s) (own_len A) && disjb H (2 * cwb P) h (own_len A)
        end
    end.

  Lemma apartb_ok s h o : apartb s h o = true -> apart A s h o.
  Proof.
    destruct o as [s0|s1]; simpl; intros H; [apply disjb_ok; exact H|].
    apply andb_true_iff in H as [H X]. split; [apply disjb_ok; exact H|].
    destruct (hidden A s1) as [h1|]; [|exact Logic.I].
    bs X. apply Z.ltb_lt in X. apply Z.leb_le in X2. apply disjb_ok in X0, X1. auto.
  Qed.

  Lemma run_wf c s pc t : wf P s -> run P wL c s = Goto pc t -> wf P t.
  Proof.
    revert s. induction c as [|i c IH]; intros s W R; [discriminate|].
    assert (SR : forall d v, wf P (set_reg P s d v)).
    { intros d v. destruct W as [W1 W2]. split; [exact W1|]. intros r. simpl.
      destruct (String.eqb r d) eqn:E; [|apply W2]. apply String.eqb_eq in E. subst d.
      apply Z.mod_pos_bound. apply Z.pow_pos_nonneg; [lia|]. apply rw_nonneg. }
    destruct i as [d x|d x k|d x k|d x y|d k|d l|n d b o|n x b o|c' d x k|c' n x b o|c'|d k|d x|x l|x|x]; simpl in R;
      try (eapply IH; [|exact R]; apply SR).
    - destruct (ea P s b o n) as [a|]; [|discriminate]. eapply IH; [|exact R]. apply SR.
    - destruct (ea P s b o n) as [a|]; [|discriminate]. eapply IH; [|exact R].
      destruct W as [W1 W2]. split; [|exact W2]. intros z. simpl. apply store_byte. exact W1.
    - destruct (rg s c' =? 0); (eapply IH; [|exact R]); [apply SR|exact W].
    - destruct (rg s c' =? 0); [eapply IH; eauto|].
      destruct (ea P s b o n) as [a|]; [|discriminate]. eapply IH; [|exact R].
      destruct W as [W1 W2]. split; [|exact W2]. intros z. simpl. apply store_byte. exact W1.
    - destruct (rg s c' =? 0); [discriminate|]. eapply IH; eauto.
    - destruct (rg s x =? wL l); [|discriminate]. eapply IH; eauto.
    - injection R as _ <-. exact W.
    - discriminate.
  Qed.

  Lemma switch_wf k s pc t : wf P s -> switch A wL k s = Goto pc t -> wf P t.
  Proof.
    intros W R. unfold switch in R. fold B C P in R. destruct k; [|eapply run_wf; eauto].
    destruct (run P wL (c_jump C) s) as [pc' t'| |] eqn:E; try discriminate.
    pose proof (run_wf _ _ _ _ W E) as W'.
    destruct (match c_tramp C with [] => false | _ => _ end).
    - eapply run_wf; eauto.
    - injection R as _ <-. exact W'.
  Qed.

  Theorem witness0 :
    apartb w1 (arg_to A w1) (Made w0) = true -> apartb w2 (arg_to A w2) (Susp w1) = true ->
    labels_ok A wL /\ make_ok A w0 /\ run P wL (c_make C) w0 = Goto (pc_of (run P wL (c_make C) w0)) v0 /\
    (call_ok A wL w1 /\ context A wL (mm w1) (arg_to A w1) (Made w0) /\ apart A w1 (arg_to A w1) (Made w0) /\
     switch A wL Jump w1 = Goto (pc_of (switch A wL Jump w1)) v1) /\
    (call_ok A wL w2 /\ context A wL (mm w2) (arg_to A w2) (Susp w1) /\ apart A w2 (arg_to A w2) (Susp w1) /\
     switch A wL Jump w2 = Goto (pc_of (switch A wL Jump w2)) v2).
  Proof.
    intros AP1 AP2.
    pose proof wL_ok as LAB. pose proof WIT as Q. unfold wit in Q. bs Q.
    rewrite ?Z.leb_le, ?Z.ltb_lt, ?Z.eqb_eq in *.
    assert (W0 : wf P w0) by (split; [apply wmem_ok|apply wreg_ok]).
    pose proof (make_okb_ok _ W0 X13) as M0. pose proof (goes_ok _ X12) as G0. fold v0 in G0.
    pose proof (run_wf _ _ _ _ W0 G0) as Wt.
    assert (CX : context A wL (mm v0) (rg v0 (ab_mkres B)) (Made w0)) by (econstructor; eauto).
    fold B in CX. rewrite X11 in CX.
    assert (W1 : wf P w1) by (split; [apply Wt|apply wreg_ok]).
    pose proof (call_okb_ok _ W1 X5) as C1.
    pose proof (goes_ok _ X3) as G1. fold v1 in G1.
    apply apartb_ok in AP1, AP2.
    split; [exact LAB|]. split; [exact M0|]. split; [exact G0|].
    split; [split; [exact C1|]; split; [exact CX|]; split; [exact AP1|exact G1]|].
    pose proof (switch_wf _ _ _ _ W1 G1) as Wv.
    assert (W2 : wf P w2) by (split; [apply Wv|apply wreg_ok]).
    split; [apply call_okb_ok; assumption|].
    split; [|split; [exact AP2|exact (goes_ok _ X)]].
    rewrite X0. econstructor; eauto. discriminate.
  Qed.

  Hypothesis IN : In A ports.

  (** the history: start, make, jump; now the new context is about to jump back *)
  Definition wx : cx := soil (mm v1) (mm w2) (Cx 0x8000 0xa000 (handle A w1) (Susp w1) clean).
  Definition wc : conf := Conf w2 0x4000 0x6000 [wx].
  (** the same history before the first jump *)
  Definition wx1 : cx := soil (mm v0) (mm w1) (Cx 0x4000 0x6000 (arg_to A w1) (Made w0) clean).
  Definition wc1 : conf := Conf w1 0x8000 0xa000 [wx1].

  Theorem witness :
    labels_ok A wL /\ make_ok A w0 /\
    (hist A wL wc1 /\ call_ok A wL w1 /\ on_stack A w1 0x8000 0xa000 /\
     context A wL (mm w1) (arg_to A w1) (Made w0) /\ apart A w1 (arg_to A w1) (Made w0)) /\
    (hist A wL wc /\ call_ok A wL w2 /\ on_stack A w2 0x4000 0x6000 /\ arg_to A w2 = handle A w1 /\
     context A wL (mm w2) (arg_to A w2) (Susp w1) /\ apart A w2 (arg_to A w2) (Susp w1)).
  Proof.
    pose proof wL_ok as LAB. pose proof WIT as Q. unfold wit in Q. bs Q.
    rewrite ?Z.leb_le, ?Z.ltb_lt, ?Z.eqb_eq in *.
    assert (W0 : wf P w0) by (split; [apply wmem_ok|apply wreg_ok]).
    pose proof (make_okb_ok _ W0 X13) as M0. pose proof (goes_ok _ X12) as G0. fold v0 in G0.
    destruct (C27_make_returns A wL w0 IN LAB M0) as (t & R & _ & _ & (CX & _) & Wt).
    unfold cpu_of in R. fold B C P in R. rewrite G0 in R. injection R as _ R. subst t.
    fold B in CX. rewrite X11 in CX.
    assert (W1 : wf P w1) by (split; [apply Wt|apply wreg_ok]).
    pose proof (call_okb_ok _ W1 X5) as C1. pose proof (on_stackb_ok _ _ _ X4) as O1.
    pose proof (goes_ok _ X3) as G1. fold v1 in G1.
    assert (H1 : hist A wL wc1).
    { unfold wc1, wx1.
      assert (Hs : hist A wL (Conf w0 0x8000 0xa000 [])) by (apply h_start; [exact W0|lia|fold B P; lia]).
      pose proof (h_make A wL (Conf w0 0x8000 0xa000 []) 0x4000 0x6000 (pc_of (run P wL (c_make C) w0)) v0 Hs M0) as Hm.
      cbn [now n_lo n_hi others] in Hm.
      assert (Hm' : hist A wL (Conf v0 0x8000 0xa000 [Cx 0x4000 0x6000 (arg_to A w1) (Made w0) clean])).
      { rewrite <- X11. apply Hm.
        - fold C. lia.
        - fold B. lia.
        - fold C. lia.
        - lia.
        - fold B P. lia.
        - unfold sdisj. lia.
        - intros x [].
        - fold B P C. exact G0. }
      exact (h_user A wL _ w1 Hm' W1 (fun _ _ _ _ => eq_refl)). }
    pose proof (hist_inv A wL LAB (port_checked A IN) _ H1) as IV1.
    pose proof (inv_apart A wL wc1 wx1 IV1 (or_introl eq_refl) O1 C1) as AP1.
    split; [exact LAB|]. split; [exact M0|]. split; [split; [exact H1|auto]|].
    destruct (C26_switch_creates_context A wL Jump w1 (Made w0) IN LAB C1 CX AP1 ltac:(discriminate))
      as (pc & t & SW & CX2 & Wv). rewrite G1 in SW. injection SW as _ SW. subst t.
    assert (W2 : wf P w2) by (split; [apply Wv|apply wreg_ok]).
    pose proof (call_okb_ok _ W2 X2) as C2. pose proof (on_stackb_ok _ _ _ X1) as O2.
    assert (H2 : hist A wL wc).
    { pose proof (h_switch A wL wc1 Jump wx1 [] [] _ v1 H1 eq_refl C1 eq_refl O1 ltac:(discriminate) G1) as Hs.
      exact (h_user A wL _ w2 Hs W2 (fun _ _ _ _ => eq_refl)). }
    pose proof (hist_inv A wL LAB (port_checked A IN) _ H2) as IV2.
    pose proof (inv_apart A wL wc wx IV2 (or_introl eq_refl) O2 C2) as AP2.
    split; [exact H2|]. split; [exact C2|]. split; [exact O2|]. split; [exact X0|].
    rewrite X0. split; [exact CX2|exact AP2].
  Qed.
End Wit.

(** For every port the hypotheses of the theorems of P_Asm.v are satisfiable, with
    a history that made a context, entered it, and is about to come back. *)
Lemma wit_ports : forallb (fun A => wit A [] [] []) ports = true.
Proof. vm_compute. reflexivity. Qed.

Example asm_hypotheses_met A : In A ports ->
  exists L s0 s1 s2 c x,
    labels_ok A L /\ make_ok A s0 /\
    call_ok A L s1 /\ context A L (mm s1) (arg_to A s1) (Made s0) /\ apart A s1 (arg_to A s1) (Made s0) /\
    call_ok A L s2 /\ context A L (mm s2) (arg_to A s2) (Susp s1) /\ apart A s2 (arg_to A s2) (Susp s1) /\
    hist A L c /\ now c = s2 /\ others c = [x] /\ x_o x = Susp s1 /\ arg_to A s2 = x_h x /\
    on_stack A s2 (n_lo c) (n_hi c).
Proof.
  intros I. pose proof wit_ports as H. rewrite forallb_forall in H. specialize (H A I).
  destruct (witness A [] [] [] H I) as (L & M & (H1 & C1 & O1 & X1 & A1) & H2 & C2 & O2 & E2 & X2 & A2).
  exists wL, (w0 A []), (w1 A [] []), (w2 A [] [] []), (wc A [] [] []), (wx A [] [] []).
  cbn [now others x_o x_h n_lo n_hi wc wx soil]. auto 20.
Qed.
