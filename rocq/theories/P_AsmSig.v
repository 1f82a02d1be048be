(** * C57: signals

    A signal handler may run between any two instructions of make_fcontext, jump_fcontext and
    ontop_fcontext, any number of times. It overwrites what is below the stack pointer of that moment
    (AsmSig.v: [handler], [irun], [iswitch]). Nothing changes: the interrupted routine does what C26, C27 and C28
    say of the routine.

    In the statements: [lo, hi) is the stack of the caller, [lo1, hi1) that of the target; [keep] are bytes that
    handlers leave alone unless they are below the stack pointer, among them what the routine works on
    (foot_susp, foot_new, foot_make); everything else the handlers may change at will. *)
From Coq Require Import ZArith List String Lia Bool.
From Verif Require Import Word AsmMachine AsmSym AsmAbi AsmCheck AsmCode AsmCode2 AsmFacts AsmHist AsmIl P_Asm Link LinkStepInv AsmSig AsmSig2.
Import ListNotations.
Open Scope list_scope.
Open Scope Z_scope.

(** sparc64 is not covered: there an interrupt also writes register windows to the frames above the stack pointer *)
Definition no_windows (A : port) : Prop := p_name A <> "sparc64 sysv elf"%string.

(** the state in which an equivalent call is made *)
Lemma same_call A L s s' : check A = true -> call_ok A L s -> rg s' = rg s -> wf (ab_cpu (p_abi A)) s' ->
  (forall a, sp A s <= a < sp A s + ab_up (p_abi A) -> mm s' a = mm s a) ->
  call_ok A L s' /\ arg_to A s' = arg_to A s /\ arg_data A s' = arg_data A s /\ hidden A s' = hidden A s /\
  arg_fn A s' = arg_fn A s /\ ret_addr A s' = ret_addr A s /\ sp A s' = sp A s /\ handle A s' = handle A s.
Proof.
  intros CHK CS RG W M.
  assert (AG : agree (fun a => sp A s <= a < sp A s + ab_up (p_abi A)) s s').
  { split; [intros r; rewrite RG; reflexivity|]. intros a Ha. symmetry. auto. }
  destruct (call_agree A L CHK _ s s' CS AG W ltac:(auto)) as (H1 & H2 & H3 & H4 & H5 & H6).
  do 6 (split; [assumption|]). unfold handle, sp. rewrite RG. auto.
Qed.

Section Sig.
  Variable A : port.
  Variable L : string -> Z.
  Hypothesis IN : In A ports.
  Hypothesis NW : no_windows A.
  Hypothesis LAB : labels_ok A L.
  Local Notation B := (p_abi A).
  Local Notation C := (p_code A).
  Local Notation P := (ab_cpu (p_abi A)).
  Let CHK : check A = true := port_checked A IN.
  Let SIG : sig_check A = true := sig_port A (sig_all A IN NW).

  Section Susp.
    Variables s s1 : mst.
    Variables lo hi lo1 hi1 : Z.
    Variable keep : Z -> Prop.
    Hypothesis CS : call_ok A L s.
    Hypothesis CX : context A L (mm s) (arg_to A s) (Susp s1).
    Hypothesis AP : apart A s (arg_to A s) (Susp s1).
    Hypothesis RO : roomy A s lo hi.
    Hypothesis RO1 : roomy A s1 lo1 hi1.
    Hypothesis DI : sdisj lo hi lo1 hi1.
    Hypothesis KEEP : forall a, foot_susp A s s1 a -> keep a.
    Local Notation intr := (handler (ab_sp (p_abi A)) [(lo, hi); (lo1, hi1)] keep).

    Lemma susp_equiv k o : (k = Ontop -> has_ontop A) -> iswitch A L intr k s o ->
      exists pc u s' t', o = Goto pc u /\ switch A L k s' = Goto pc t' /\ rg s' = rg s /\ wf P s' /\ wf P u /\
        (forall r, rg u r = rg t' r) /\
        (forall a, mm u a <> mm t' a -> arg_to A s <= a < sp A u /\ a < arg_to A s + own_len A) /\
        (forall p, In p (pls_susp A k) -> pl P u p = pl P t' p) /\
        (forall a, keep a -> ~ (lo <= a < sp A s) -> ~ (lo1 <= a < arg_to A s) -> mm s' a = mm s a) /\
        call_ok A L s' /\ arg_to A s' = arg_to A s /\ arg_data A s' = arg_data A s /\ hidden A s' = hidden A s /\
        arg_fn A s' = arg_fn A s /\ sp A s' = sp A s /\ handle A s' = handle A s /\
        context A L (mm s') (arg_to A s') (Susp s1) /\ apart A s' (arg_to A s') (Susp s1).
    Proof.
      intros HO X. destruct (context_facts A L LAB CHK _ _ _ CX) as (CS1 & HD & HL).
      destruct (sig_switch_susp A L LAB CHK SIG s s1 lo hi lo1 hi1 keep CS CS1 HD HL AP RO RO1 DI KEEP k o HO X)
        as (pc & u & s' & t' & E & SW & RG & W & WU & MS & RU & MU & PU).
      pose proof (abi_nums A CHK) as NN.
      destruct RO as ((O1 & O2 & _) & O4 & _), RO1 as ((Q1 & Q2 & _) & Q4 & _).
      destruct (same_call A L s s' CHK CS RG W) as (C1 & C2 & C3 & C4 & C5 & C6 & C7 & C8).
      { intros a Ha. apply MS; [apply KEEP; left; unfold own_foot, own_len, handle in *; lia|lia|].
        unfold sdisj, handle in *. lia. }
      exists pc, u, s', t'. do 16 (split; [assumption|]).
      rewrite C2. split.
      - apply (context_ext A L (mm s)); [exact CX|]. intros a Ha. apply MS; [apply KEEP; right; left; exact Ha| |lia].
        unfold sdisj, handle, own_len in *. rewrite HD in *. lia.
      - unfold apart in *. rewrite C8. exact AP.
    Qed.

    Theorem jump_interrupted o : iswitch A L intr Jump s o ->
      exists u,
        returned A s1 o u /\
        result A s1 u = (handle A s, arg_data A s) /\
        (forall r H, ab_hidret B = Some r -> hidden A s1 = Some H -> rg u r = H) /\
        (forall a, keep a -> ~ (lo <= a < sp A s + ab_wr B) -> ~ (lo1 <= a < sp A u) ->
                   (forall H, hidden A s1 = Some H -> ~ (H <= a < H + 2 * cwb P)) -> mm u a = mm s a) /\
        wf P u.
    Proof.
      intros X. destruct (susp_equiv Jump o ltac:(discriminate) X)
        as (pc & u & s' & t' & -> & SW & RG & W & WU & RU & MU & PU & MS & C1 & C2 & C3 & C4 & C5 & C6 & C7 & CX' & AP').
      destruct (C26_jump_resumes_suspended_call A L s1 s' IN LAB C1 CX' AP') as (t & (E & SP & SV) & RES & HR & U & _).
      rewrite SW in E. injection E as -> <-. exists u.
      assert (SPU : sp A u = sp A t') by apply RU.
      destruct (context_facts A L LAB CHK _ _ _ CX) as (CS1 & HD & HL). pose proof (abi_nums A CHK) as NN. pose proof (wr_up A CHK) as WU'.
      pose proof RO as ((O1 & O2 & _) & O4 & _). pose proof RO1 as ((Q1 & Q2 & Q3) & Q4 & Q5).
      split; [|split; [|split; [|split; [|exact WU]]]].
      - split; [reflexivity|]. split; [rewrite SPU; exact SP|]. intros r Hr. rewrite RU. auto.
      - rewrite <- C7, <- C3, <- RES. unfold result. unfold live_result in Q5. destruct (hidden A s1) as [H|] eqn:EH.
        + assert (LE : forall b k, 0 < k -> H <= b -> b + k <= H + 2 * cwb P -> load (cbig P) (mm u) b k = load (cbig P) (mm t') b k).
          { intros b k Kp B1 B2. apply load_ext. intros a Ha. destruct (Z.eq_dec (mm u a) (mm t' a)) as [|N]; [assumption|]. exfalso.
            destruct (MU a N) as (M1 & M2). rewrite HD in *. unfold disj in Q3. unfold handle, own_len in *. lia. }
          rewrite !LE by lia. reflexivity.
        + rewrite !PU by (cbn [pls_susp In]; auto). reflexivity.
      - intros r H E1 E2. rewrite RU. eauto.
      - intros a Ka N1 N2 N3. destruct (Z.eq_dec (mm u a) (mm t' a)) as [EQ|N].
        + rewrite EQ, U; [|rewrite C6, C7; unfold handle in *; lia|exact N3].
          apply MS; [exact Ka|lia|]. rewrite HD. intros Q. apply N2. rewrite SPU, SP. unfold handle in *. lia.
        + exfalso. destruct (MU a N) as (M1 & M2). rewrite HD in *. unfold handle in *. lia.
    Qed.

    Theorem ontop_interrupted o : has_ontop A -> iswitch A L intr Ontop s o ->
      exists u,
        o = Goto (ontop_pc A L s) u /\ ontop_fn A s u /\
        pair_at A u (ab_ont B) = (handle A s, arg_data A s) /\
        sp A u = sp A s1 /\ (forall r, In r (ab_saved B) -> rg u r = rg s1 r) /\
        ret_addr A u = ret_addr A s1 /\ hidden A u = hidden A s1 /\
        (forall v o', returned A u o' v -> returned A s1 o' v /\ result A s1 v = result A u v) /\
        (forall a, keep a -> ~ (lo <= a < sp A s + ab_wr B) -> ~ (lo1 <= a < arg_to A s + own_len A) ->
                   (forall H, hidden A s1 = Some H -> ~ (H <= a < H + 2 * cwb P)) -> mm u a = mm s a) /\
        wf P u.
    Proof.
      intros HO X. destruct (susp_equiv Ontop o ltac:(auto) X)
        as (pc & u & s' & t' & -> & SW & RG & W & WU & RU & MU & PU & MS & C1 & C2 & C3 & C4 & C5 & C6 & C7 & CX' & AP').
      destruct (C28_ontop_enters_function_on_target A L s1 s' IN HO LAB C1 CX' AP') as (t & E & FN & ARG & SP & SV & RA & HI & U & _).
      rewrite SW in E. injection E as -> <-. exists u.
      assert (SPU : sp A u = sp A t') by apply RU.
      destruct (context_facts A L LAB CHK _ _ _ CX) as (CS1 & HD & HL). pose proof (abi_nums A CHK) as NN. pose proof (wr_up A CHK) as WU'.
      pose proof RO as ((O1 & O2 & _) & O4 & _). pose proof RO1 as ((Q1 & Q2 & Q3) & Q4 & Q5).
      assert (RAU : ret_addr A u = ret_addr A s1).
      { rewrite <- RA. unfold ret_addr. apply PU. cbn [pls_susp In app]. auto. }
      assert (HIU : hidden A u = hidden A s1).
      { rewrite <- HI. unfold hidden. destruct (ab_hidden B) as [p|] eqn:EH; [|reflexivity]. cbn [option_map]. f_equal. apply PU.
        cbn [pls_susp]. rewrite EH. cbn [opt_place In app]. auto. }
      assert (SVU : forall r, In r (ab_saved B) -> rg u r = rg s1 r) by (intros r Hr; rewrite RU; auto).
      split; [|split; [|split; [|split; [|split; [exact SVU|split; [exact RAU|split; [exact HIU|split; [|split; [|exact WU]]]]]]]]].
      - unfold ontop_pc. rewrite C5. reflexivity.
      - unfold ontop_fn in *. destruct (c_tail C) as [[l p]|] eqn:ET; [|exact Logic.I]. rewrite <- C5, <- FN. apply PU.
        cbn [pls_susp]. rewrite ET. cbn [option_map snd opt_place]. apply in_or_app. right. apply in_or_app. right. left. reflexivity.
      - rewrite <- C7, <- C3, <- ARG. unfold pair_at. rewrite !PU by (cbn [pls_susp In app]; auto). reflexivity.
      - rewrite SPU. exact SP.
      - intros v o' (R1 & R2 & R3). split.
        + split; [rewrite <- RAU; exact R1|]. split; [rewrite R2, SPU, SP; reflexivity|]. intros r Hr. rewrite R3 by exact Hr. auto.
        + unfold result. rewrite HIU. reflexivity.
      - intros a Ka N1 N2 N3. destruct (Z.eq_dec (mm u a) (mm t' a)) as [EQ|N].
        + rewrite EQ, U; [|rewrite C6, C7; unfold handle in *; lia|rewrite C2; rewrite HD in *; unfold handle in *; lia|exact N3].
          apply MS; [exact Ka|lia|]. rewrite HD in *. unfold handle, own_len in *. lia.
        + exfalso. destruct (MU a N) as (M1 & M2). rewrite HD in *. unfold handle in *. lia.
    Qed.
  End Susp.

  Section Fresh.
    Variables s0 s : mst.
    Variables lo hi lo1 hi1 : Z.
    Variable keep : Z -> Prop.
    Hypothesis CS : call_ok A L s.
    Hypothesis CX : context A L (mm s) (arg_to A s) (AsmAbi.Made s0).
    Hypothesis RO : roomy A s lo hi.
    Hypothesis RO0 : 0 <= lo1.
    Hypothesis RO1 : lo1 + c_frame C < arg_to A s.
    Hypothesis RO2 : arg_to A s + c_size C <= hi1.
    Hypothesis DI : sdisj lo hi lo1 hi1.
    Hypothesis KEEP : forall a, foot_new A s a -> keep a.
    Local Notation intr := (handler (ab_sp (p_abi A)) [(lo, hi); (lo1, hi1)] keep).

    Lemma fresh_equiv o : iswitch A L intr Jump s o ->
      exists pc u s' t', o = Goto pc u /\ switch A L Jump s' = Goto pc t' /\ rg s' = rg s /\ wf P s' /\ wf P u /\
        (forall r, rg u r = rg t' r) /\
        (forall a, mm u a <> mm t' a -> arg_to A s <= a < sp A u /\ a < arg_to A s + c_size C) /\
        (forall p, In p (pls_fresh A) -> pl P u p = pl P t' p) /\
        (forall a, keep a -> ~ (lo <= a < sp A s) -> ~ (lo1 <= a < arg_to A s) -> mm s' a = mm s a) /\
        call_ok A L s' /\ arg_to A s' = arg_to A s /\ arg_data A s' = arg_data A s /\ hidden A s' = hidden A s /\
        arg_fn A s' = arg_fn A s /\ sp A s' = sp A s /\ handle A s' = handle A s /\
        context A L (mm s') (arg_to A s') (AsmAbi.Made s0) /\ apart A s' (arg_to A s') (AsmAbi.Made s0).
    Proof.
      intros X. pose proof (abi_nums A CHK) as NN.
      assert (CF : exists pc0 t0, make_ok A s0 /\ run P L (c_make C) s0 = Goto pc0 t0 /\ arg_to A s = rg t0 (ab_mkres B) /\
                forall a, rg t0 (ab_mkres B) <= a < rg t0 (ab_mkres B) + c_size C -> mm s a = mm t0 a).
      { remember (arg_to A s) as h eqn:Eh. remember (AsmAbi.Made s0) as oo eqn:Eo. remember (mm s) as m eqn:Em.
        destruct CX as [s2 pc t m2 M R H|]; [|discriminate]. injection Eo as ->. exists pc, t. auto. }
      destruct CF as (pc0 & t0 & M0 & R0 & HD & MEM).
      destruct (sig_switch_fresh A L LAB CHK SIG s0 t0 s pc0 lo hi lo1 hi1 keep M0 R0 CS HD MEM RO RO0 RO1 RO2 DI KEEP o X)
        as (pc & u & s' & t' & E & SW & RG & W & WU & MS & RU & MU & PU).
      destruct RO as ((O1 & O2 & _) & O4 & _).
      destruct (same_call A L s s' CHK CS RG W) as (C1 & C2 & C3 & C4 & C5 & C6 & C7 & C8).
      { intros a Ha. apply MS; [apply KEEP; left; unfold own_foot, own_len, handle in *; lia|lia|].
        unfold sdisj, handle in *. lia. }
      exists pc, u, s', t'. do 16 (split; [assumption|]).
      rewrite C2. split.
      - apply (context_ext A L (mm s)); [exact CX|]. intros a Ha. apply MS; [apply KEEP; right; exact Ha| |lia].
        unfold sdisj, handle, own_len in *. lia.
      - unfold apart, disj, sdisj, own_len in *. rewrite C8. unfold handle in *. lia.
    Qed.

    Theorem first_jump_interrupted o : iswitch A L intr Jump s o ->
      exists u,
        o = Goto (mk_fn A s0) u /\
        pair_at A u (ab_ent B) = (handle A s, arg_data A s) /\
        ret_addr A u = L "finish"%string /\
        (sp A u + ab_bias B) mod ab_align B = 0 /\
        mk_top A s0 - c_need C <= sp A u <= mk_top A s0 /\
        (forall r, In r (ab_ctl B) -> rg u r = rg s0 r) /\
        (forall a, keep a -> ~ (lo <= a < sp A s + ab_wr B) -> ~ (lo1 <= a < arg_to A s + c_size C) -> mm u a = mm s a) /\
        wf P u.
    Proof.
      intros X. destruct (fresh_equiv o X)
        as (pc & u & s' & t' & -> & SW & RG & W & WU & RU & MU & PU & MS & C1 & C2 & C3 & C4 & C5 & C6 & C7 & CX' & AP').
      destruct (C27_first_jump_enters_function A L s0 s' IN LAB C1 CX' AP') as (t & E & ARG & RA & AL & SPT & _ & CT & U & _).
      rewrite SW in E. injection E as -> <-. exists u.
      assert (SPU : sp A u = sp A t') by apply RU.
      pose proof (abi_nums A CHK) as NN. pose proof (wr_up A CHK) as WU'. pose proof RO as ((O1 & O2 & _) & O4 & _).
      rewrite !SPU. split; [reflexivity|]. split; [|split; [|split; [exact AL|split; [exact SPT|split; [|split; [|exact WU]]]]]].
      - rewrite <- C7, <- C3, <- ARG. unfold pair_at. rewrite !PU by (cbn [pls_fresh In]; auto). reflexivity.
      - rewrite <- RA. unfold ret_addr. apply PU. cbn [pls_fresh In]. auto.
      - intros r Hr. rewrite RU. auto.
      - intros a Ka N1 N2. destruct (Z.eq_dec (mm u a) (mm t' a)) as [EQ|N].
        + rewrite EQ, U; [|rewrite C6, C7; unfold handle in *; lia|rewrite C2; lia]. apply MS; [exact Ka|lia|lia].
        + exfalso. destruct (MU a N) as (M1 & M2). lia.
    Qed.
  End Fresh.

  Section Make.
    Variable s : mst.
    Variables lo hi : Z.
    Variable keep : Z -> Prop.
    Hypothesis MS : make_ok A s.
    Hypothesis RO1 : lo < sp A s - c_mkscr C.
    Hypothesis RO2 : sp A s + ab_up B <= hi.
    Hypothesis RO3 : sdisj lo hi (mk_top A s - c_need C) (mk_top A s).
    Hypothesis KEEP : forall a, foot_make A s a -> keep a.
    Local Notation intr := (handler (ab_sp (p_abi A)) [(lo, hi)] keep).

    Lemma make_equiv o : irun P L intr (c_make C) s o ->
      exists pc u s' t', o = Goto pc u /\ run P L (c_make C) s' = Goto pc t' /\ rg s' = rg s /\ wf P s' /\ wf P u /\
        (forall r, rg u r = rg t' r) /\
        (forall a, mm u a <> mm t' a -> lo <= a < sp A u) /\
        (forall a, keep a -> ~ (lo <= a < sp A s) -> mm s' a = mm s a) /\
        make_ok A s' /\ mk_top A s' = mk_top A s /\ mk_fn A s' = mk_fn A s /\ sp A s' = sp A s /\ ret_addr A s' = ret_addr A s.
    Proof.
      intros X. pose proof (abi_nums A CHK) as NN.
      destruct (sig_make_ok A L LAB CHK SIG s lo hi keep MS RO1 RO2 RO3 KEEP o X)
        as (pc & u & s' & t' & E & R & RG & W & WU & MM & RU & MU).
      assert (AG : agree (fun a => sp A s <= a < sp A s + ab_up B) s s').
      { split; [intros r; rewrite RG; reflexivity|]. intros a Ha. symmetry. apply MM; [apply KEEP; left; lia|lia]. }
      destruct (make_agree A CHK _ s s' MS AG W ltac:(auto)) as (H1 & H2 & H3 & H4).
      exists pc, u, s', t'. do 12 (split; [assumption|]).
      unfold ret_addr. apply (pl_agree A CHK _ (ab_ret B) s s' (make_in A CHK s MS) (p_ret A CHK) AG). auto.
    Qed.

    Theorem make_interrupted o : irun P L intr (c_make C) s o ->
      exists u,
        o = Goto (ret_addr A s) u /\
        sp A u = sp A s + ab_pop0 B /\
        (forall r, In r (ab_saved B) -> rg u r = rg s r) /\
        (let h := rg u (ab_mkres B) in
         (exists s', mk_fn A s' = mk_fn A s /\ mk_top A s' = mk_top A s /\ rg s' = rg s /\ context A L (mm u) h (AsmAbi.Made s')) /\
         mk_top A s - c_need C <= h /\ h + c_size C <= mk_top A s /\
         (forall a, keep a -> ~ (lo <= a < sp A u) -> ~ (h <= a < h + c_size C) -> mm u a = mm s a)) /\
        wf P u.
    Proof.
      intros X. destruct (make_equiv o X)
        as (pc & u & s' & t' & -> & R & RG & W & WU & RU & MU & MM & M1 & M2 & M3 & M4 & M5).
      destruct (C27_make_returns A L s' IN LAB M1) as (t & R' & SP & SV & (CX & H1 & H2 & U) & _).
      unfold cpu_of in R'. rewrite R in R'. injection R' as -> <-. exists u. pose proof (abi_nums A CHK) as NN.
      assert (SPU : sp A u = sp A t') by apply RU. rewrite M4 in SP. rewrite M2 in H1, H2.
      assert (P0 : 0 <= ab_pop0 B <= ab_up B) by lia.
      split; [rewrite M5; reflexivity|]. split; [rewrite SPU; exact SP|]. split; [intros r Hr; rewrite RU, SV by exact Hr; rewrite RG; reflexivity|].
      split; [|exact WU]. cbv zeta. rewrite !RU. split; [|split; [exact H1|split; [exact H2|]]].
      - exists s'. do 3 (split; [assumption|]). apply (context_ext A L (mm t')); [exact CX|].
        intros a Ha. destruct (Z.eq_dec (mm u a) (mm t' a)) as [|N]; [assumption|]. exfalso. destruct (MU a N) as (Q1 & Q2).
        unfold sdisj in RO3. lia.
      - intros a Ka N1 N2. destruct (Z.eq_dec (mm u a) (mm t' a)) as [EQ|N]; [|destruct N1; auto].
        rewrite EQ, U; [|rewrite M4; lia|exact N2]. apply MM; [exact Ka|lia].
    Qed.
  End Make.
End Sig.

(** ** The statements *)

(** jump_fcontext to a suspended call: that call returns, as in C26. What handlers keep is unchanged, but for the
    space below the stack pointers and the result object. *)
Theorem C57_jump A L s1 s lo hi lo1 hi1 (keep : Z -> Prop) o :
  In A ports -> no_windows A -> labels_ok A L -> call_ok A L s ->
  context A L (mm s) (arg_to A s) (Susp s1) -> apart A s (arg_to A s) (Susp s1) ->
  roomy A s lo hi -> roomy A s1 lo1 hi1 -> sdisj lo hi lo1 hi1 -> (forall a, foot_susp A s s1 a -> keep a) ->
  iswitch A L (handler (ab_sp (p_abi A)) [(lo, hi); (lo1, hi1)] keep) Jump s o ->
  exists u,
    returned A s1 o u /\
    result A s1 u = (handle A s, arg_data A s) /\
    (forall r H, ab_hidret (p_abi A) = Some r -> hidden A s1 = Some H -> rg u r = H) /\
    (forall a, keep a -> ~ (lo <= a < sp A s + ab_wr (p_abi A)) -> ~ (lo1 <= a < sp A u) ->
               (forall H, hidden A s1 = Some H -> ~ (H <= a < H + 2 * cwb (cpu_of A))) -> mm u a = mm s a) /\
    wf (cpu_of A) u.
Proof. intros. eapply jump_interrupted; eauto. Qed.

(** ontop_fcontext: the function is entered as if the suspended call had called it, as in C28 *)
Theorem C57_ontop A L s1 s lo hi lo1 hi1 (keep : Z -> Prop) o :
  In A ports -> no_windows A -> has_ontop A -> labels_ok A L -> call_ok A L s ->
  context A L (mm s) (arg_to A s) (Susp s1) -> apart A s (arg_to A s) (Susp s1) ->
  roomy A s lo hi -> roomy A s1 lo1 hi1 -> sdisj lo hi lo1 hi1 -> (forall a, foot_susp A s s1 a -> keep a) ->
  iswitch A L (handler (ab_sp (p_abi A)) [(lo, hi); (lo1, hi1)] keep) Ontop s o ->
  exists u,
    o = Goto (ontop_pc A L s) u /\ ontop_fn A s u /\
    pair_at A u (ab_ont (p_abi A)) = (handle A s, arg_data A s) /\
    sp A u = sp A s1 /\ (forall r, In r (ab_saved (p_abi A)) -> rg u r = rg s1 r) /\
    ret_addr A u = ret_addr A s1 /\ hidden A u = hidden A s1 /\
    (forall v o', returned A u o' v -> returned A s1 o' v /\ result A s1 v = result A u v) /\
    (forall a, keep a -> ~ (lo <= a < sp A s + ab_wr (p_abi A)) -> ~ (lo1 <= a < arg_to A s + own_len A) ->
               (forall H, hidden A s1 = Some H -> ~ (H <= a < H + 2 * cwb (cpu_of A))) -> mm u a = mm s a) /\
    wf (cpu_of A) u.
Proof. intros. eapply ontop_interrupted; eauto. Qed.

(** the first jump to a new context enters its function, as in C27. A handler that runs on the new stack needs
    space below the context data, too. *)
Theorem C57_first_jump A L s0 s lo hi lo1 hi1 (keep : Z -> Prop) o :
  In A ports -> no_windows A -> labels_ok A L -> call_ok A L s ->
  context A L (mm s) (arg_to A s) (AsmAbi.Made s0) ->
  roomy A s lo hi -> 0 <= lo1 -> lo1 + c_frame (p_code A) < arg_to A s -> arg_to A s + c_size (p_code A) <= hi1 ->
  sdisj lo hi lo1 hi1 -> (forall a, foot_new A s a -> keep a) ->
  iswitch A L (handler (ab_sp (p_abi A)) [(lo, hi); (lo1, hi1)] keep) Jump s o ->
  exists u,
    o = Goto (mk_fn A s0) u /\
    pair_at A u (ab_ent (p_abi A)) = (handle A s, arg_data A s) /\
    ret_addr A u = L "finish"%string /\
    (sp A u + ab_bias (p_abi A)) mod ab_align (p_abi A) = 0 /\
    mk_top A s0 - c_need (p_code A) <= sp A u <= mk_top A s0 /\
    (forall r, In r (ab_ctl (p_abi A)) -> rg u r = rg s0 r) /\
    (forall a, keep a -> ~ (lo <= a < sp A s + ab_wr (p_abi A)) -> ~ (lo1 <= a < arg_to A s + c_size (p_code A)) -> mm u a = mm s a) /\
    wf (cpu_of A) u.
Proof. intros. eapply first_jump_interrupted; eauto. Qed.

(** make_fcontext returns a new context, as in C27 *)
Theorem C57_make A L s lo hi (keep : Z -> Prop) o :
  In A ports -> no_windows A -> labels_ok A L -> make_ok A s ->
  lo < sp A s - c_mkscr (p_code A) -> sp A s + ab_up (p_abi A) <= hi ->
  sdisj lo hi (mk_top A s - c_need (p_code A)) (mk_top A s) -> (forall a, foot_make A s a -> keep a) ->
  irun (cpu_of A) L (handler (ab_sp (p_abi A)) [(lo, hi)] keep) (c_make (p_code A)) s o ->
  exists u, let h := rg u (ab_mkres (p_abi A)) in
    o = Goto (ret_addr A s) u /\
    sp A u = sp A s + ab_pop0 (p_abi A) /\
    (forall r, In r (ab_saved (p_abi A)) -> rg u r = rg s r) /\
    (exists s', mk_fn A s' = mk_fn A s /\ mk_top A s' = mk_top A s /\ rg s' = rg s /\ context A L (mm u) h (AsmAbi.Made s')) /\
    mk_top A s - c_need (p_code A) <= h /\ h + c_size (p_code A) <= mk_top A s /\
    (forall a, keep a -> ~ (lo <= a < sp A u) -> ~ (h <= a < h + c_size (p_code A)) -> mm u a = mm s a) /\
    wf (cpu_of A) u.
Proof.
  intros IN NW LAB MS R1 R2 R3 K X. destruct (make_interrupted A L IN NW LAB s lo hi keep MS R1 R2 R3 K o X)
    as (u & H1 & H2 & H3 & (H4 & H5 & H6 & H7) & H8). exists u. cbv zeta. do 7 (split; [assumption|]). exact H8.
Qed.

(** a call that is not interrupted is a case of it *)
Theorem C57_without_interrupts A L intr k s : iswitch A L intr k s (switch A L k s).
Proof. apply switch_iswitch. Qed.
