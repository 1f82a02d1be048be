(** * Interleaving: what the routines access

    The routines of src/asm take many instructions, and while one thread executes them others go on.
    [acc X c s]: started in s, the code c runs to its end and every byte that it reads or writes is in X. Code that
    stays in X does the same whatever happens to the memory outside of X ([run_agree]), also between
    its instructions ([step_agree]). A successful symbolic run stays in its regions ([srun_acc]). *)
From Coq Require Import ZArith List String Lia Bool.
From Verif Require Import Word AsmMachine AsmSym AsmAbi AsmCheck AsmFacts.
Import ListNotations.
Open Scope Z_scope.

Section Il.
  Variable P : cpu.
  Variable L : string -> Z.

  Definition within (x : option Z) (n a : Z) : Prop := match x with Some b => b <= a < b + n | None => False end.

  (** the bytes that instruction i accesses in state s *)
  Definition touched (i : instr) (s : mst) (a : Z) : Prop :=
    match i with
    | Ld n _ b o | Sto n _ b o => within (ea P s b o n) n a
    | Stonz c n _ b o => rg s c <> 0 /\ within (ea P s b o n) n a
    | _ => False
    end.

  Fixpoint acc (X : Z -> Prop) (c : list instr) (s : mst) : Prop :=
    match c with
    | [] => False
    | Go _ :: _ | Exit _ :: _ => True
    | i :: t => (forall a, touched i s a -> X a) /\ match step1 P L i s with Some s' => acc X t s' | None => False end
    end.

  (** same registers, same memory in X *)
  Definition agree (X : Z -> Prop) (s s' : mst) : Prop :=
    (forall r, rg s r = rg s' r) /\ (forall a, X a -> mm s a = mm s' a).

  Lemma agree_refl X s : agree X s s.
  Proof. split; auto. Qed.
  Lemma agree_sym X s s' : agree X s s' -> agree X s' s.
  Proof. intros [H1 H2]. split; intros; symmetry; auto. Qed.
  Lemma agree_trans X a b c : agree X a b -> agree X b c -> agree X a c.
  Proof. intros [H1 H2] [H3 H4]. split; intros; [rewrite H1; auto|rewrite H2; auto]. Qed.
  Lemma agree_sub (X Y : Z -> Prop) s s' : (forall a, Y a -> X a) -> agree X s s' -> agree Y s s'.
  Proof. intros S [H1 H2]. split; auto. Qed.

  Lemma ea_agree X s s' b o n : agree X s s' -> ea P s b o n = ea P s' b o n.
  Proof. intros [H _]. unfold ea. rewrite H. reflexivity. Qed.

  Lemma set_agree X s s' d v : agree X s s' -> agree X (set_reg P s d v) (set_reg P s' d v).
  Proof. intros [H1 H2]. split; cbn; intros; [destruct (String.eqb r d); auto|auto]. Qed.

  Lemma store_in X s s' x n v : agree X s s' -> (forall a, x <= a < x + n -> X a) ->
    agree X (St (rg s) (store (cbig P) (mm s) x n v)) (St (rg s') (store (cbig P) (mm s') x n v)) /\
    (forall a, ~ X a -> store (cbig P) (mm s) x n v a = mm s a).
  Proof.
    intros [H1 H2] T. split; [split|]; cbn; auto.
    - intros a Ha. unfold store. destruct (_ && _); auto.
    - intros a Ha. apply store_out. destruct (Z_le_gt_dec x a), (Z_le_gt_dec (x + n) a); try lia. exfalso. apply Ha, T. lia.
  Qed.

  Lemma step_agree X i s s' s1 : agree X s s' -> (forall a, touched i s a -> X a) -> step1 P L i s = Some s1 ->
    exists s1', step1 P L i s' = Some s1' /\ agree X s1 s1' /\
      (forall a, ~ X a -> mm s1 a = mm s a) /\ (forall a, ~ X a -> mm s1' a = mm s' a).
  Proof.
    intros AG T E. pose proof AG as [HR HM]. pose proof (agree_sym _ _ _ AG) as AG'.
    destruct i; cbn [step1 touched] in *; rewrite <- ?HR; rewrite <- ?(ea_agree X s s' _ _ _ AG); try discriminate;
      try (injection E as <-; eexists; split; [reflexivity|]; split; [apply set_agree; exact AG|split; intros; reflexivity]).
    - destruct (ea P s b o n) as [x|] eqn:EA; [|discriminate]. injection E as <-. eexists; split; [reflexivity|].
      rewrite (load_ext (cbig P) (mm s) (mm s')) by (intros y Hy; apply HM, T; cbn; exact Hy).
      split; [apply set_agree; exact AG|split; intros; reflexivity].
    - destruct (ea P s b o n) as [x|] eqn:EA; [|discriminate]. injection E as <-. eexists; split; [reflexivity|].
      destruct (store_in X s s' x n (rg s s0) AG T) as [Q1 Q2]. split; [exact Q1|]. split; [exact Q2|].
      apply (store_in X s' s x n (rg s s0) AG' T).
    - destruct (rg s c =? 0); injection E as <-; eexists; (split; [reflexivity|]); (split; [|split; intros; reflexivity]); [apply set_agree; exact AG|exact AG].
    - destruct (rg s c =? 0) eqn:Z0; [injection E as <-; eexists; split; [reflexivity|]; split; [exact AG|split; intros; reflexivity]|].
      apply Z.eqb_neq in Z0.
      destruct (ea P s b o n) as [x|] eqn:EA; [|discriminate]. injection E as <-. eexists; split; [reflexivity|].
      destruct (store_in X s s' x n (rg s s0) AG ltac:(intros a Ha; apply T; split; [exact Z0|exact Ha])) as [Q1 Q2]. split; [exact Q1|]. split; [exact Q2|].
      apply (store_in X s' s x n (rg s s0) AG' ltac:(intros a Ha; apply T; split; [exact Z0|exact Ha])).
    - destruct (rg s c =? 0); [discriminate|]. injection E as <-. eexists; split; [reflexivity|]. split; [exact AG|split; intros; reflexivity].
    - destruct (rg s r =? L l); [|discriminate]. injection E as <-. eexists; split; [reflexivity|]. split; [exact AG|split; intros; reflexivity].
  Qed.

  Lemma touched_agree X i s s' a : agree X s s' -> touched i s' a -> touched i s a.
  Proof.
    intros AG. pose proof AG as [HR _]. destruct i; cbn [touched]; rewrite <- ?(ea_agree X s s' _ _ _ AG), <- ?HR; auto.
  Qed.

  Lemma acc_agree X c s s' : acc X c s -> agree X s s' -> acc X c s'.
  Proof.
    revert s s'. induction c as [|i c IH]; intros s s' H AG; [exact H|].
    assert (G : (forall a, touched i s a -> X a) /\ match step1 P L i s with Some s' => acc X c s' | None => False end ->
                (forall a, touched i s' a -> X a) /\ match step1 P L i s' with Some s' => acc X c s' | None => False end).
    { intros [T Q]. split; [intros a Ha; apply T; eapply touched_agree; eauto|].
      destruct (step1 P L i s) as [s1|] eqn:E; [|contradiction].
      destruct (step_agree X i s s' s1 AG T E) as (s1' & E' & AG' & _). rewrite E'. eapply IH; eauto. }
    destruct i; try exact (G H); exact Logic.I.
  Qed.

  Lemma run_agree X c s s' : acc X c s -> agree X s s' ->
    match run P L c s with
    | Goto pc u => exists u', run P L c s' = Goto pc u' /\ agree X u u' /\
        (forall a, ~ X a -> mm u a = mm s a) /\ (forall a, ~ X a -> mm u' a = mm s' a)
    | Exited k => run P L c s' = Exited k
    | Stuck => False
    end.
  Proof.
    revert s s'. induction c as [|i c IH]; intros s s' H AG; [contradiction H|].
    assert (G : (forall a, touched i s a -> X a) /\ match step1 P L i s with Some s' => acc X c s' | None => False end ->
      match (match step1 P L i s with Some s' => run P L c s' | None => Stuck end) with
      | Goto pc u => exists u', (match step1 P L i s' with Some s' => run P L c s' | None => Stuck end) = Goto pc u' /\ agree X u u' /\
          (forall a, ~ X a -> mm u a = mm s a) /\ (forall a, ~ X a -> mm u' a = mm s' a)
      | Exited k => (match step1 P L i s' with Some s' => run P L c s' | None => Stuck end) = Exited k
      | Stuck => False
      end).
    { intros [T Q]. destruct (step1 P L i s) as [s1|] eqn:E; [|contradiction].
      destruct (step_agree X i s s' s1 AG T E) as (s1' & E' & AG' & U1 & U2). rewrite E'.
      specialize (IH s1 s1' Q AG'). destruct (run P L c s1) as [pc u|k|]; [|exact IH|exact IH].
      destruct IH as (u' & R & AU & V1 & V2). exists u'. split; [exact R|]. split; [exact AU|].
      split; intros a Ha; [rewrite V1, U1 by exact Ha|rewrite V2, U2 by exact Ha]; reflexivity. }
    destruct i; try exact (G H); cbn [run].
    - exists s'. rewrite (proj1 AG). split; [reflexivity|]. split; [exact AG|]. split; intros; reflexivity.
    - rewrite (proj1 AG). reflexivity.
  Qed.
End Il.

(** a symbolic run accesses its regions only *)
Section SymAcc.
  Variable P : cpu.
  Variable regions : list region.
  Variable known : list wentry.
  Variable nz : list sval.
  Variable al : list (root * Z).
  Variable L : string -> Z.
  Variable V : root -> Z.
  Variable s0 : mst.
  Hypothesis OK : env_ok P L V s0.
  Hypothesis RG : regions_ok P regions L V s0.
  Hypothesis KN : known_ok P known L V s0.
  Hypothesis NZ : nz_ok P nz L V s0.
  Hypothesis AL : al_ok P al L V s0.
  Variable X : Z -> Prop.
  Hypothesis COV : forall r lo hi a, In (r, lo, hi) regions -> ev P L V s0 r + lo <= a < ev P L V s0 r + hi -> X a.

  Lemma sstep_touched i S s S' : sim P regions L V s0 S s -> sstep P regions known nz al i S = Some S' ->
    forall a, touched P i s a -> X a.
  Proof.
    intros H E a.
    assert (Z : forall b o n, access P regions al (fst (get S b)) (snd (get S b) + o) n = true -> within (ea P s b o n) n a -> X a).
    { intros b o n AC W. destruct (access_sound P regions al L V s0 OK RG AL S s b o n H AC) as (EA & N & I).
      rewrite EA in W. cbn [within] in W. apply in_region_spec in I as (lo & hi & I & I1 & I2).
      apply (COV _ _ _ a I). lia. }
    destruct i; cbn [touched]; try contradiction; cbn [sstep] in E.
    - destruct (access _ _ _ _ _ _) eqn:AC; [|discriminate]. apply Z. exact AC.
    - destruct (access _ _ _ _ _ _) eqn:AC; [|discriminate]. apply Z. exact AC.
    - intros [N W]. destruct (sval_eqb (get S c) (RCst, 0)) eqn:Q.
      + exfalso. apply N. apply sval_eqb_eq in Q. rewrite (proj1 H c), Q. reflexivity.
      + destruct (existsb _ nz); [|discriminate]. destruct (access _ _ _ _ _ _) eqn:AC; [|discriminate]. eapply Z; eauto.
  Qed.

  Lemma srun_acc c S s S' f : sim P regions L V s0 S s -> fits P S -> srun P regions known nz al c S = Some (S', f) ->
    acc P L X c s.
  Proof.
    revert S s. induction c as [|i c IH]; intros S s H W E; [discriminate|].
    assert (G : forall S1, sstep P regions known nz al i S = Some S1 -> srun P regions known nz al c S1 = Some (S', f) ->
       (forall a, touched P i s a -> X a) /\ match step1 P L i s with Some s' => acc P L X c s' | None => False end).
    { intros S1 E1 E2. split; [eapply sstep_touched; eauto|].
      destruct (sstep_sound P regions known nz al L V s0 OK RG KN NZ AL i S s S1 H W E1) as (s1 & Z1 & H1 & W1).
      rewrite Z1. eapply IH; eauto. }
    destruct i; cbn [srun] in E; try exact Logic.I;
      (destruct (sstep _ _ _ _ _ _ S) as [S1|] eqn:E1; [|discriminate]; exact (G S1 eq_refl E)).
  Qed.
End SymAcc.

(** ** The footprints of the routines *)
Section Foot.
  Variable A : port.
  Variable L : string -> Z.
  Local Notation B := (p_abi A).
  Local Notation C := (p_code A).
  Local Notation P := (ab_cpu (p_abi A)).

  (** the space that the call of jump or ontop in state s owns *)
  Definition own_foot (s : mst) (a : Z) : Prop := handle A s <= a < handle A s + own_len A.
  (** make_fcontext in state s: the scratch space and the arguments; the top of the new stack *)
  Definition foot_make (s : mst) (a : Z) : Prop :=
    sp A s - c_mkscr C <= a < sp A s + ab_up B \/ mk_top A s - c_need C <= a < mk_top A s.
  (** jump to a context that make_fcontext has prepared: the frame, the context data *)
  Definition foot_new (s : mst) (a : Z) : Prop := own_foot s a \/ arg_to A s <= a < arg_to A s + c_size C.
  (** jump or ontop to the call s1 that is suspended: both frames, and the object in which s1 gets its result *)
  Definition foot_susp (s s1 : mst) (a : Z) : Prop :=
    own_foot s a \/ arg_to A s <= a < arg_to A s + own_len A \/
    match hidden A s1 with None => False | Some H => H <= a < H + 2 * cwb P end.

  (** at the end of the code of jump: is it to be continued at the trampoline? *)
  Definition goes_on (tramp : bool) (pc : Z) : bool :=
    tramp && match c_tramp C with [] => false | _ => pc =? L "trampoline"%string end.
  (** the rest of a routine *)
  Definition rest_run (rest : list instr) (tramp : bool) (u : mst) : outcome :=
    match run P L rest u with
    | Goto pc t => if goes_on tramp pc then run P L (c_tramp C) t else Goto pc t
    | o => o
    end.
  Definition code_of (h : how) : list instr := match h with Jump => c_jump C | Ontop => c_ontop C end.
  Definition tramp_of (h : how) : bool := match h with Jump => true | Ontop => false end.

  Lemma switch_rest h s : switch A L h s = rest_run (code_of h) (tramp_of h) s.
  Proof.
    unfold switch, rest_run, goes_on. destruct h; cbn [code_of tramp_of andb]; [reflexivity|].
    destruct (run P L (c_ontop C) s); reflexivity.
  Qed.

  (** [acc] for the rest of a routine *)
  Definition accs (X : Z -> Prop) (rest : list instr) (tramp : bool) (u : mst) : Prop :=
    acc P L X rest u /\ forall pc t, run P L rest u = Goto pc t -> goes_on tramp pc = true -> acc P L X (c_tramp C) t.

  Lemma accs_agree X rest tr u u' : accs X rest tr u -> agree X u u' -> accs X rest tr u'.
  Proof.
    intros [H1 H2] AG. split; [eapply acc_agree; eauto|]. intros pc t' R G.
    pose proof (run_agree P L X rest u u' H1 AG) as Q. destruct (run P L rest u) as [pc1 t1|k|]; [|congruence|contradiction].
    destruct Q as (u1 & R1 & A1 & _). rewrite R1 in R. injection R as -> ->. eapply acc_agree; eauto.
  Qed.

  Lemma rest_agree X rest tr u u' : accs X rest tr u -> agree X u u' ->
    match rest_run rest tr u with
    | Goto pc t => exists t', rest_run rest tr u' = Goto pc t' /\ agree X t t' /\
        (forall a, ~ X a -> mm t a = mm u a) /\ (forall a, ~ X a -> mm t' a = mm u' a)
    | Exited k => rest_run rest tr u' = Exited k
    | Stuck => False
    end.
  Proof.
    intros [H1 H2] AG. unfold rest_run.
    pose proof (run_agree P L X rest u u' H1 AG) as Q. destruct (run P L rest u) as [pc t|k|] eqn:R; [|rewrite Q; reflexivity|contradiction].
    destruct Q as (t' & R' & A' & U1 & U2). rewrite R'. destruct (goes_on tr pc) eqn:G.
    - pose proof (run_agree P L X _ t t' (H2 _ _ eq_refl G) A') as Q. destruct (run P L (c_tramp C) t) as [pc2 t2|k|]; [|exact Q|contradiction].
      destruct Q as (t2' & R2 & A2 & V1 & V2). exists t2'. split; [exact R2|]. split; [exact A2|].
      split; intros a Ha; [rewrite V1, U1 by exact Ha|rewrite V2, U2 by exact Ha]; reflexivity.
    - exists t'. auto.
  Qed.

  (** one instruction, in a state that agrees with u on X *)
  Lemma accs_step X i rest tr u s' v : accs X (i :: rest) tr u -> agree X u s' -> step1 P L i s' = Some v ->
    exists u1, accs X rest tr u1 /\ agree X u1 v /\ rest_run (i :: rest) tr u = rest_run rest tr u1 /\
      (forall a, ~ X a -> mm u1 a = mm u a) /\ (forall a, ~ X a -> mm v a = mm s' a).
  Proof.
    intros [H1 H2] AG E.
    assert (Q : (forall a, touched P i u a -> X a) /\ match step1 P L i u with Some s' => acc P L X rest s' | None => False end)
      by (destruct i; try discriminate E; exact H1).
    assert (RU : run P L (i :: rest) u = match step1 P L i u with Some s' => run P L rest s' | None => Stuck end)
      by (destruct i; try discriminate E; reflexivity).
    destruct Q as [T Q]. destruct (step1 P L i u) as [u1|] eqn:E1; [|contradiction].
    destruct (step_agree P L X i u s' u1 AG T E1) as (v' & E2 & AG' & U1 & U2). rewrite E in E2. injection E2 as <-.
    exists u1. split; [split; [exact Q|]|]. { intros pc t R. apply (H2 pc t). rewrite RU. exact R. }
    split; [exact AG'|]. split; [unfold rest_run; rewrite RU; reflexivity|]. auto.
  Qed.

  Hypothesis LAB : labels_ok A L.
  Hypothesis CHK : check A = true.

  Lemma foot_susp_regions s s1 r lo hi a : call_ok A L s -> call_ok A L s1 -> holds A L (mm s) (arg_to A s) s1 ->
    In (r, lo, hi) (reg_susp A) -> ev P L V0 s r + lo <= a < ev P L V0 s r + hi -> foot_susp s s1 a.
  Proof.
    intros CS CS1 HL I Ha. unfold reg_susp in I. apply in_app_or in I as [I|I].
    - destruct I as [I|[I|[]]]; injection I as <- <- <-.
      + left. rewrite (own_ev A L V0 s) in Ha. unfold own_foot, handle, own_len. lia.
      + right; left. rewrite (proj1 (tgt_ev A L CHK V0 s (call_in A L CHK s CS))) in Ha. unfold own_len. lia.
    - right; right. unfold has_hidden in I. destruct (ab_hidden B) as [p|] eqn:E; [|destruct I].
      destruct I as [I|[]]. remember (2 * cwb P) as w2 eqn:W2. injection I as <- <- <-.       rewrite (hidr_ev A L CHK s s1 CS CS1 HL p E) in Ha. rewrite (hidden_some A s1 p E). cbv beta iota. lia.
  Qed.

  Lemma susp_accs k s s1 : call_ok A L s -> call_ok A L s1 -> arg_to A s = handle A s1 ->
    holds A L (mm s) (arg_to A s) s1 -> apart A s (arg_to A s) (Susp s1) -> (k = Ontop -> has_ontop A) ->
    accs (foot_susp s s1) (code_of k) (tramp_of k) s.
  Proof.
    intros CS CS1 HD HL AP HO.
    assert (Z : forall c T f, srun P (reg_susp A) (known_susp A) (nz_susp A) (al_susp A) c S0 = Some (T, f) -> acc P L (foot_susp s s1) c s).
    { intros c T f E.
      apply (srun_acc P (reg_susp A) (known_susp A) (nz_susp A) (al_susp A) L V0 s (env0 A L LAB CHK s (proj1 CS))
               (susp_regions A L CHK s s1 CS CS1 HD HL AP) (susp_known A L LAB CHK s s1 CS CS1 HD HL)
               (susp_nz A L CHK s s1 CS CS1 HL AP) (susp_al A L CHK s s1 CS CS1 HD)
               (foot_susp s s1)) with (S := S0) (S' := T) (f := f).
      - intros r lo hi a. apply foot_susp_regions; assumption.
      - apply sim_init.
      - apply fits_init.
      - exact E. }
    destruct k; cbn [code_of tramp_of].
    - pose proof (c_jmp A CHK) as X. unfold chk_jump in X. destruct (jump_s A) as [[T f]|] eqn:E; [|discriminate].
      split; [eapply Z; exact E|]. intros pc t R G. exfalso.
      destruct (jump_susp A L LAB CHK s s1 CS CS1 HD HL AP) as (t' & SW & _).
      unfold switch in SW. rewrite R in SW. unfold goes_on in G. cbn [andb] in G.
      destruct (c_tramp C) as [|i0 c0] eqn:EC; [discriminate|].
      (* the symbolic run says where jump goes *)
      pose proof (c_jmp A CHK) as Y. unfold chk_jump in Y. rewrite E in Y. destruct f as [pcv|]; [|discriminate].
      unfold jump_s in E. destruct (susp_run A L LAB CHK s s1 CS CS1 HD HL AP _ _ _ E) as (t1 & R1 & _). cbn [fin_of] in R1.
      rewrite R in R1. injection R1 as -> _.
      do 3 (apply andb_true_iff in Y as [Y _]). apply andb_true_iff in Y as [_ Y].
      rewrite (from_slot_ev A L CHK s s1 CS HL _ _ Y) in G. apply Z.eqb_eq in G.
      rewrite (proj1 (vroot_ev A L CHK V0 s1 _ (call_in A L CHK s1 CS1) (p_ret A CHK))) in G.
      destruct CS1 as (_ & _ & _ & _ & NE). apply NE. exact G.
    - split; [|intros pc t _ G; discriminate].
      pose proof (c_ont A CHK) as X0. assert (X : chk_ontop1 A = true).
      { unfold chk_ontop in X0. unfold has_ontop in HO. destruct (c_ontop (p_code A)) eqn:EO; [destruct (HO eq_refl); reflexivity|exact X0]. }
      unfold chk_ontop1 in X. destruct (ontop_s A) as [[T f]|] eqn:E; [|discriminate]. eapply Z. exact E.
  Qed.

  Lemma make_accs s : make_ok A s -> accs (foot_make s) (c_make C) false s.
  Proof.
    intros MS. split; [|intros pc t _ G; discriminate].
    pose proof (c_mk A CHK) as X. unfold chk_make in X. destruct (make_s A) as [[T f]|] eqn:E; [|discriminate].
    apply (srun_acc P (reg_make A) [] [] [] L V0 s (env0 A L LAB CHK s (proj1 MS)) (make_regions A L CHK s MS)
             ltac:(intros e []) ltac:(intros e []) ltac:(intros e z []) (foot_make s)) with (S := S0) (S' := T) (f := f).
    - intros r lo hi a I Ha. pose proof (top_range A L CHK s MS) as TR. unfold aligned_top in TR.       unfold reg_make in I. destruct I as [I|[I|[]]]; injection I as <- <- <-.
      + left. rewrite (own_ev A L V0 s) in Ha. lia.
      + right. lia.
    - apply sim_init.
    - apply fits_init.
    - exact E.
  Qed.

  Lemma fresh_accs s0 t0 pc0 s : make_ok A s0 -> run P L (c_make C) s0 = Goto pc0 t0 -> call_ok A L s ->
    arg_to A s = rg t0 (ab_mkres B) -> (forall a, rg t0 (ab_mkres B) <= a < rg t0 (ab_mkres B) + c_size C -> mm s a = mm t0 a) ->
    disj (handle A s) (own_len A) (rg t0 (ab_mkres B)) (c_size C) ->
    accs (foot_new s) (c_jump C) true s.
  Proof.
    intros M0 R0 CS HD MEM AP.
    destruct (make_runs A L LAB CHK s0 M0) as (t & T0 & pcv & E0 & R & Wt & SM & _ & _ & RES & _).
    rewrite R in R0. injection R0 as _ <-. rewrite RES in *.
    pose proof (fresh_env A L LAB CHK s0 s M0 CS) as OK.
    pose proof (fresh_regions A L CHK s0 s M0 CS HD AP) as RG.
    pose proof (fresh_known A L LAB CHK s0 t s T0 _ M0 E0 SM CS HD MEM) as KN.
    pose proof (fresh_al A L CHK s0 s M0 CS HD) as AL.
    assert (NZ : nz_ok P [] L (V1 A L s0) s) by (intros e []).
    assert (COV : forall r lo hi a, In (r, lo, hi) (reg_fresh A) -> ev P L (V1 A L s0) s r + lo <= a < ev P L (V1 A L s0) s r + hi -> foot_new s a).
    { intros r lo hi a I Ha. unfold reg_fresh in I. destruct I as [I|[I|[]]]; injection I as <- <- <-.
      - left. rewrite (own_ev A L (V1 A L s0) s) in Ha. unfold own_foot, handle, own_len. lia.
      - right. rewrite (proj1 (tgt_ev A L CHK (V1 A L s0) s (call_in A L CHK s CS))) in Ha. lia. }
    assert (Z : forall c S S' f u, sim P (reg_fresh A) L (V1 A L s0) s S u -> fits P S -> srun P (reg_fresh A) (known_fresh A) [] (al_fresh A) c S = Some (S', f) ->
              acc P L (foot_new s) c u).
    { intros c S S' f u S1 S2 S3. exact (srun_acc P (reg_fresh A) (known_fresh A) [] (al_fresh A) L (V1 A L s0) s OK RG KN NZ AL (foot_new s) COV c S u S' f S1 S2 S3). }
    pose proof (c_fr A CHK) as X. unfold chk_fresh in X.
    destruct (fresh_s A) as [[T f]|] eqn:E; [|discriminate]. unfold fresh_s in E.
    destruct (fresh1_s A) as [[T1 [v1|]]|] eqn:E1; try discriminate. unfold fresh1_s in E1.
    split; [eapply Z; [apply sim_init|apply fits_init|exact E1]|].
    destruct (srun_sound P (reg_fresh A) (known_fresh A) [] (al_fresh A) L (V1 A L s0) s OK RG KN NZ AL _ S0 s T1 _ (sim_init _ _ _ _ _) (fits_init _) E1)
      as (t1 & R1 & SM1 & FT1). cbn [fin_of] in R1.
    intros pc u Ru G. rewrite R1 in Ru. injection Ru as <- <-.
    unfold goes_on in G. destruct (c_tramp C) as [|i c] eqn:EC; [discriminate|].
    destruct (sval_eqb v1 _); [|discriminate]. eapply Z; [exact SM1|exact FT1|exact E].
  Qed.

  (** a place that the symbolic run has looked at is in its regions *)
  Lemma spl_agree (X : Z -> Prop) regs known V s T t t' p v : env_ok P L V s -> regions_ok P regs L V s -> sim P regs L V s T t ->
    (forall r lo hi a, In (r, lo, hi) regs -> ev P L V s r + lo <= a < ev P L V s r + hi -> X a) ->
    spl A regs known T p = Some v -> agree X t t' -> pl P t' p = pl P t p.
  Proof.
    intros OK RG SM COV E [HR HM]. destruct p as [r|b o k]; cbn [spl pl] in *; [auto|].
    destruct (_ && _ && _) eqn:Y; [|discriminate]. apply andb_true_iff in Y as [Y Y3]. apply andb_true_iff in Y as [Y1 Y2].
    apply Z.leb_le in Y1. apply Z.ltb_lt in Y2. rewrite <- HR. symmetry. apply load_ext. intros a Ha. apply HM.
    rewrite (proj1 SM b), (evs_word P L V s OK) in Ha by exact Y1.
    pose proof (space_p A CHK) as SP. rewrite Z.add_mod_idemp_l in Ha by lia.
    pose proof (in_region_bound P regs L V s RG _ _ _ Y3) as Bd.
    rewrite Z.mod_small in Ha by lia. apply in_region_spec in Y3 as (lo & hi & I & I1 & I2). apply (COV _ _ _ a I). lia.
  Qed.

  (** what arrives at the function of a new context, read by a thread that agrees on the footprint *)
  Lemma fresh_arrives s0 t0 pc0 s pc t t' : make_ok A s0 -> run P L (c_make C) s0 = Goto pc0 t0 -> call_ok A L s ->
    arg_to A s = rg t0 (ab_mkres B) -> (forall a, rg t0 (ab_mkres B) <= a < rg t0 (ab_mkres B) + c_size C -> mm s a = mm t0 a) ->
    disj (handle A s) (own_len A) (rg t0 (ab_mkres B)) (c_size C) ->
    switch A L Jump s = Goto pc t -> agree (foot_new s) t t' ->
    pair_at A t' (ab_ent B) = pair_at A t (ab_ent B) /\ ret_addr A t' = ret_addr A t.
  Proof.
    intros M0 R0 CS HD MEM AP SW AG.
    destruct (make_runs A L LAB CHK s0 M0) as (t1 & T0 & pcv & E0 & R & Wt & SM & _ & _ & RES & _).
    rewrite R in R0. injection R0 as _ <-. rewrite RES in *.
    pose proof (fresh_env A L LAB CHK s0 s M0 CS) as OK.
    pose proof (fresh_regions A L CHK s0 s M0 CS HD AP) as RG.
    destruct (fresh_run A L LAB CHK s0 t1 s T0 _ M0 E0 SM CS HD MEM AP) as (T & pv & t2 & E & SW2 & SM2 & _).
    rewrite SW in SW2. injection SW2 as _ <-.
    assert (COV : forall r lo hi a, In (r, lo, hi) (reg_fresh A) -> ev P L (V1 A L s0) s r + lo <= a < ev P L (V1 A L s0) s r + hi -> foot_new s a).
    { intros r lo hi a I Ha. unfold reg_fresh in I. destruct I as [I|[I|[]]]; injection I as <- <- <-.
      - left. rewrite (own_ev A L (V1 A L s0) s) in Ha. unfold own_foot, handle, own_len. lia.
      - right. rewrite (proj1 (tgt_ev A L CHK (V1 A L s0) s (call_in A L CHK s CS))) in Ha. lia. }
    pose proof (c_fr A CHK) as X. unfold chk_fresh in X. rewrite E in X.
    do 8 (apply andb_true_iff in X as [X _]). apply andb_true_iff in X as [X X3]. apply andb_true_iff in X as [X X2]. apply andb_true_iff in X as [X X1].
    apply is_some in X1, X2, X3.
    assert (Q : forall p v, spl A (reg_fresh A) (known_fresh A) T p = Some v -> pl P t' p = pl P t p).
    { intros p v Y. eapply (spl_agree (foot_new s)); eauto. }
    unfold pair_at, ret_addr. rewrite (Q _ _ X1), (Q _ _ X2), (Q _ _ X3). auto.
  Qed.

  Lemma ontop_arrives s s1 pc t t' : call_ok A L s -> call_ok A L s1 -> arg_to A s = handle A s1 ->
    holds A L (mm s) (arg_to A s) s1 -> apart A s (arg_to A s) (Susp s1) -> has_ontop A ->
    switch A L Ontop s = Goto pc t -> agree (foot_susp s s1) t t' ->
    pair_at A t' (ab_ont B) = pair_at A t (ab_ont B) /\ ret_addr A t' = ret_addr A t /\ (ontop_fn A s t -> ontop_fn A s t').
  Proof.
    intros CS CS1 HD HL AP HO SW AG.
    pose proof (c_ont A CHK) as X0. assert (X : chk_ontop1 A = true).
    { unfold chk_ontop in X0. unfold has_ontop in HO. destruct (c_ontop (p_code A)) eqn:EO; [destruct HO; reflexivity|exact X0]. }
    unfold chk_ontop1 in X. destruct (ontop_s A) as [[T [fnv|]]|] eqn:E; try discriminate.
    destruct (susp_run A L LAB CHK s s1 CS CS1 HD HL AP _ _ _ E) as (t1 & R1 & SM1 & _). cbn [fin_of] in R1.
    cbn [switch] in SW. rewrite SW in R1. injection R1 as -> <-.
    apply andb_true_iff in X as [X _]. apply andb_true_iff in X as [X _]. apply andb_true_iff in X as [X X2]. apply andb_true_iff in X as [X X1].
    apply andb_true_iff in X as [X _]. apply andb_true_iff in X as [X X3]. apply andb_true_iff in X as [X X4].
    apply is_some in X1, X2. destruct (spl A (reg_susp A) (known_susp A) T (ab_ret B)) as [v3|] eqn:X5; [|discriminate].
    assert (Q : forall p v, spl A (reg_susp A) (known_susp A) T p = Some v -> pl P t' p = pl P t p).
    { intros p v Y. eapply (spl_agree (foot_susp s s1)); [exact (env0 A L LAB CHK s (proj1 CS))|exact (susp_regions A L CHK s s1 CS CS1 HD HL AP)|exact SM1| |exact Y|exact AG].
      intros r lo hi a. apply foot_susp_regions; assumption. }
    unfold pair_at, ret_addr. rewrite (Q _ _ X1), (Q _ _ X2), (Q _ _ X5). split; [reflexivity|]. split; [reflexivity|].
    unfold ontop_fn. destruct (c_tail C) as [[l p]|]; [|auto]. apply andb_true_iff in X4 as [_ X4]. apply is_some in X4.
    rewrite (Q _ _ X4). auto.
  Qed.

  Lemma jump_arrives s s1 pc t t' : call_ok A L s -> call_ok A L s1 -> arg_to A s = handle A s1 ->
    holds A L (mm s) (arg_to A s) s1 -> apart A s (arg_to A s) (Susp s1) ->
    switch A L Jump s = Goto pc t -> agree (foot_susp s s1) t t' -> result A s1 t' = result A s1 t.
  Proof.
    intros CS CS1 HD HL AP SW AG. unfold result. destruct (hidden A s1) as [H|] eqn:HE.
    - rewrite !(load_ext (cbig P) (mm t') (mm t)); [reflexivity| |]; intros x Hx; symmetry; apply (proj2 AG); right; right; rewrite HE; lia.
    - pose proof (c_jmp A CHK) as X. unfold chk_jump in X. destruct (jump_s A) as [[T [pcv|]]|] eqn:E; try discriminate.
      unfold hidden in HE. destruct (ab_hidden B) as [p|] eqn:EH; [discriminate|].
      apply andb_true_iff in X as [X _]. apply andb_true_iff in X as [_ X]. apply andb_true_iff in X as [X1 X2]. apply is_some in X1, X2.
      destruct (susp_run A L LAB CHK s s1 CS CS1 HD HL AP _ _ _ E) as (t1 & R1 & SM1 & _). cbn [fin_of] in R1.
      destruct (jump_susp A L LAB CHK s s1 CS CS1 HD HL AP) as (t2 & SW2 & _). rewrite SW in SW2. injection SW2 as -> <-.
      assert (TE : t = t1).
      { unfold switch in SW. rewrite R1 in SW. destruct (c_tramp C) as [|i c]; [injection SW; auto|].
        destruct (_ =? L "trampoline"%string) eqn:Q; [|injection SW; auto]. exfalso.
        apply Z.eqb_eq in Q. pose proof CS1 as CS1'. destruct CS1 as (_ & _ & _ & _ & NE). apply NE. rewrite <- Q.
        pose proof (c_jmp A CHK) as Y. unfold chk_jump in Y. rewrite E in Y.
        do 3 (apply andb_true_iff in Y as [Y _]). apply andb_true_iff in Y as [_ Y].
        rewrite (from_slot_ev A L CHK s s1 CS HL _ _ Y).
        rewrite (proj1 (vroot_ev A L CHK V0 s1 _ (call_in A L CHK s1 CS1') (p_ret A CHK))). reflexivity. }
      subst t1.
      assert (Q : forall p v, spl A (reg_susp A) (known_susp A) T p = Some v -> pl P t' p = pl P t p).
      { intros p v Y. eapply (spl_agree (foot_susp s s1)); [exact (env0 A L LAB CHK s (proj1 CS))|exact (susp_regions A L CHK s s1 CS CS1 HD HL AP)|exact SM1| |exact Y|exact AG].
        intros r lo hi a. apply foot_susp_regions; assumption. }
      rewrite (Q _ _ X1), (Q _ _ X2). reflexivity.
  Qed.
End Foot.
