(** * Interrupts: the routines of the ports

    An interrupted call of jump_fcontext, ontop_fcontext or make_fcontext ends like an uninterrupted call
    from a state that differs below the stack pointer only, and what differs at its end is below the stack
    pointer. The part that depends on the port is checked by [sig_check]. *)
From Coq Require Import ZArith List String Lia Bool.
From Verif Require Import Word AsmMachine AsmSym AsmAbi AsmCheck AsmCode AsmCode2 AsmFacts AsmHist AsmIl AsmSig P_Asm.
Import ListNotations.
Open Scope Z_scope.

Section Check.
  Variable A : port.
  Local Notation B := (p_abi A).
  Local Notation C := (p_code A).
  Local Notation P := (ab_cpu (p_abi A)).

  (** where the stack pointer may point *)
  Definition sps_susp : list region := [(own A, - c_frame C, ab_up B); (tgt A, 0, c_frame C + ab_up B)].
  (* s390x: for a moment one frame below the new context data *)
  Definition sps_fresh : list region := [(own A, - c_frame C, ab_up B); (tgt A, - c_frame C, c_size C)].
  Definition sps_make : list region := [(own A, - c_mkscr C, ab_up B)].
  Definition hid_regs : list region := if has_hidden A then [(hidr A, 0, 2 * cwb P)] else [].

  (** bytes that are relied upon even if the routine does not access them *)
  Definition ac_susp : list region := [(own A, 0, ab_up B); (tgt A, 0, c_frame C + ab_up B)] ++ hid_regs.
  Definition ac_fresh : list region := [(own A, 0, ab_up B); (tgt A, 0, c_size C)].
  Definition ac_make : list region := [(own A, 0, ab_up B); (mroot A, - c_size C, 0)].

  Definition sig_susp (c : list instr) :=
    sigrun P (ab_sp B) sps_susp (reg_susp A) (known_susp A) (nz_susp A) (al_susp A) c S0 (reg_susp A) ac_susp.
  Definition sig_fresh1 :=
    sigrun P (ab_sp B) sps_fresh (reg_fresh A) (known_fresh A) [] (al_fresh A) (c_jump C) S0 (reg_fresh A) ac_fresh.
  Definition sig_fresh :=
    match sig_fresh1 with
    | Some (T, v, K, ac) =>
        match c_tramp C with
        | [] => Some (T, v, K, ac)
        | c => if sval_eqb v (RLab "trampoline"%string, 0)
               then sigrun P (ab_sp B) sps_fresh (reg_fresh A) (known_fresh A) [] (al_fresh A) c T K ac else None
        end
    | None => None
    end.
  Definition sig_make := sigrun P (ab_sp B) sps_make (reg_make A) [] [] [] (c_make C) S0 (reg_make A) ac_make.

  (** a place that no interrupt has spoiled *)
  Definition seen (T : sst) (K : list region) (p : place) : bool :=
    match p with
    | PReg _ => true
    | PMem b o n => let v := get T b in (wd P (fst v) <=? cwb P) && (0 <? n) && in_region K (fst v) (snd v + o) n
    end.
  (** what the code that runs next finds: the result of jump; the argument of the function given to ontop, its
      return address and result object; the argument of the context-function and its return address *)
  Definition opt_place (o : option place) : list place := match o with Some p => [p] | None => [] end.
  Definition pls_susp (k : how) : list place :=
    match k with
    | Jump => [fst (ab_res B); snd (ab_res B)]
    | Ontop => [fst (ab_ont B); snd (ab_ont B); ab_ret B] ++ opt_place (ab_hidden B) ++ opt_place (option_map snd (c_tail C))
    end.
  Definition pls_fresh : list place := [fst (ab_ent B); snd (ab_ent B); ab_ret B].

  Definition chk_end (r : root) (pls : list place) (x : option (sst * sval * list region * list region)) : bool :=
    match x with
    | Some (T, v, K, ac) => root_eqb (fst (get T (ab_sp B))) r && settled (get T (ab_sp B)) K ac && forallb (seen T K) pls
    | None => false
    end.

  Definition sig_check : bool :=
    chk_end (tgt A) (pls_susp Jump) (sig_susp (c_jump C)) &&
    match c_ontop C with [] => true | _ => chk_end (tgt A) (pls_susp Ontop) (sig_susp (c_ontop C)) end &&
    chk_end (tgt A) pls_fresh sig_fresh && chk_end (own A) [] sig_make.
End Check.

(** The ports. On sparc64 the processor has register windows, which an interrupt may write to the save
    areas of the frames, above the stack pointer: it is not covered. *)
Definition sig_ports : list port :=
  [port_x64_elf true; port_x64_elf false; port_x64_cet true; port_x64_cet false;
   port_x64_macho true; port_x64_macho false;
   port_x64_ms true false; port_x64_ms true true; port_x64_ms false false; port_x64_ms false true;
   port_x86 true false; port_x86 false false; port_x86 true true; port_x86 false true;
   port_x86_macho true; port_x86_macho false; port_x86_ms true; port_x86_ms false;
   port_arm64; port_arm64_pe false; port_riscv; port_loong;
   port_mips64 true true; port_mips64 true false; port_mips64 false true; port_mips64 false false;
   port_mips32 true true; port_mips32 true false; port_mips32 false true; port_mips32 false false;
   port_arm true; port_arm false; port_arm_macho true; port_arm_macho false; port_arm_pe false;
   port_s390x; port_ppc32 true; port_ppc32 false; port_ppc32_macho; port_ppc64 true; port_ppc64 false;
   port_ppc64d false; port_ppc64d true; port_ppc32_xcoff].

Lemma sig_checked : forallb sig_check sig_ports = true.
Proof. vm_compute. reflexivity. Qed.

Lemma sig_in A : In A sig_ports -> In A ports.
Proof. unfold sig_ports, ports. cbn [In]. intuition auto 60. Qed.
Lemma sig_port A : In A sig_ports -> sig_check A = true.
Proof. intros H. exact (proj1 (forallb_forall _ _) sig_checked A H). Qed.
(** all ports but sparc64 *)
Lemma sig_all A : In A ports -> p_name A <> "sparc64 sysv elf"%string -> In A sig_ports.
Proof.
  unfold ports. cbn [In]. intros H N.
  repeat (destruct H as [H|H]; [subst A; first [exfalso; apply N; reflexivity|unfold sig_ports; cbn [In]; auto 60]|]).
  destruct H.
Qed.

(** ** The port-independent part *)
Section Sound.
  Variable A : port.
  Variable L : string -> Z.
  Hypothesis LAB : labels_ok A L.
  Hypothesis CHK : check A = true.
  Hypothesis SIG : sig_check A = true.
  Local Notation B := (p_abi A).
  Local Notation C := (p_code A).
  Local Notation P := (ab_cpu (p_abi A)).
  Local Notation handled st keep := (handler (ab_sp (p_abi A)) st keep).

  (** the state before the call with the bytes that the call does not access as they are in the end *)
  Definition past (xb : Z -> bool) (s u : mst) : mst := St (rg s) (fun a => if xb a then mm s a else mm u a).

  Lemma back (X : Z -> Prop) (xb : Z -> bool) c tr s pc u v : (forall a, xb a = true <-> X a) -> accs A L X c tr s -> rest_run A L c tr s = Goto pc v ->
    (forall r, rg u r = rg v r) ->
    exists t', rest_run A L c tr (past xb s u) = Goto pc t' /\ (forall r, rg u r = rg t' r) /\
      (forall a, X a -> mm t' a = mm v a) /\ (forall a, ~ X a -> mm t' a = mm u a).
  Proof.
    intros XB AC RU RG. assert (AG : agree X s (past xb s u)).
    { split; [reflexivity|]. intros a Ha. cbn. rewrite (proj2 (XB a) Ha). reflexivity. }
    pose proof (rest_agree A L X c tr s _ AC AG) as Q. rewrite RU in Q. destruct Q as (t' & R' & [A1 A2] & _ & A4).
    exists t'. split; [exact R'|]. split; [intros r; rewrite RG; apply A1|]. split; [intros a Ha; symmetry; auto|].
    intros a Ha. rewrite (A4 a Ha). cbn. destruct (xb a) eqn:Q; [|reflexivity]. exfalso. apply Ha, XB, Q.
  Qed.

  (** what is read from such places *)
  Lemma seen_pl sps regs V s stks keep T K u v (t' : mst) ac p : env_ok P L V s -> regions_ok P regs L V s ->
    rel P sps regs L V s stks keep T K u v -> seen A T K p = true ->
    (forall a, covd P L V s ac a -> mm t' a = mm v a) -> (forall a, ~ covd P L V s ac a -> mm t' a = mm u a) ->
    (forall r, rg u r = rg t' r) -> pl P u p = pl P t' p.
  Proof.
    intros OK RG RL SE MX MN RT. destruct p as [r|b o n]; cbn [pl seen] in *; [apply RT|].
    apply andb_true_iff in SE as [SE IR]. apply andb_true_iff in SE as [W N]. apply Z.leb_le in W. apply Z.ltb_lt in N.
    rewrite <- RT. apply load_ext. intros a Ha.
    apply in_region_spec in IR as (lo & hi & I & I1 & I2).
    destruct (l_sub _ _ _ _ _ _ _ _ _ _ _ _ RL _ _ _ I ltac:(lia)) as (lo' & hi' & J & J1 & J2).
    pose proof (proj1 RG _ _ _ J) as BD.
    assert (EQ : (rg u b + o) mod space P = ev P L V s (fst (get T b)) + (snd (get T b) + o)).
    { rewrite (l_reg _ _ _ _ _ _ _ _ _ _ _ _ RL), (proj1 (l_sim _ _ _ _ _ _ _ _ _ _ _ _ RL) b), (evs_word P L V s OK) by exact W.
      pose proof (space_p A) as SP. rewrite Z.add_mod_idemp_l by lia. rewrite Z.mod_small by lia. lia. }
    rewrite EQ in Ha.
    assert (CK : mm u a = mm v a).
    { apply (l_mem _ _ _ _ _ _ _ _ _ _ _ _ RL). exists (fst (get T b)), lo, hi. split; [exact I|lia]. }
    destruct (covd_dec P L V s ac a) as [Q|Q]; [rewrite (MX a Q)|rewrite (MN a Q)]; auto.
  Qed.

  (** the result object of the call is not below the stack pointer *)
  Definition live_result (s : mst) : Prop := match hidden A s with None => True | Some H => sp A s <= H end.
  (** the call in state s is made on the stack [lo, hi), and there is some space left *)
  Definition roomy (s : mst) (lo hi : Z) : Prop := on_stack A s lo hi /\ lo < handle A s /\ live_result s.

  Lemma spsi (sps : list region) r k : in_region sps r k 0 = true -> exists lo hi, In (r, lo, hi) sps /\ lo <= k <= hi.
  Proof. intros H. apply in_region_spec in H as (lo & hi & I & ? & ?). exists lo, hi. split; [exact I|lia]. Qed.

  (** a value relative to a region that does not reach the end of the address space *)
  Lemma evs_in V s r k : env_ok P L V s -> wd P r <= cwb P -> 0 <= ev P L V s r + k < space P -> evs P L V s (r, k) = ev P L V s r + k.
  Proof. intros OK W H. rewrite (evs_word P L V s OK) by exact W. cbn [fst snd]. apply Z.mod_small. exact H. Qed.

  Lemma own_wd : wd P (own A) = cwb P.
  Proof. unfold own. cbn [wd]. apply (abi_nums A CHK). Qed.

  Section Susp.
    Variables s s1 : mst.
    Variables lo hi lo1 hi1 : Z.
    Variable keep : Z -> Prop.
    Hypothesis CS : call_ok A L s.
    Hypothesis CS1 : call_ok A L s1.
    Hypothesis HD : arg_to A s = handle A s1.
    Hypothesis HL : holds A L (mm s) (arg_to A s) s1.
    Hypothesis AP : apart A s (arg_to A s) (Susp s1).
    Hypothesis RO : roomy s lo hi.
    Hypothesis RO1 : roomy s1 lo1 hi1.
    Hypothesis DI : sdisj lo hi lo1 hi1.
    Hypothesis KEEP : forall a, foot_susp A s s1 a -> keep a.
    Local Notation stks := [(lo, hi); (lo1, hi1)].
    Local Notation Ev := (ev P L V0 s).

    Local Notation F := (c_frame C).
    Local Notation up := (ab_up B).

    (** the stack pointer is on one of the two stacks, and only there *)
    Lemma susp_sp r k : in_region (sps_susp A) r k 0 = true ->
      r = own A /\ - F <= k <= up /\ evs P L V0 s (r, k) = sp A s + k \/
      r = tgt A /\ 0 <= k <= F + up /\ evs P L V0 s (r, k) = arg_to A s + k.
    Proof.
      intros H. apply spsi in H as (l & h & I & K). pose proof (env0 A L LAB CHK s (proj1 CS)) as OK.
      destruct (tgt_ev A L CHK V0 s (call_in A L CHK s CS)) as [T1 T2].
      destruct CS as (_ & C1 & C2 & _), CS1 as (_ & D1 & D2 & _).
      destruct I as [I|[I|[]]]; injection I as <- <- <-; [left|right].
      - split; [reflexivity|]. split; [exact K|]. rewrite (evs_in V0 s (own A) k OK); rewrite ?own_ev; [reflexivity|rewrite own_wd; lia|lia].
      - split; [reflexivity|]. split; [exact K|]. unfold handle in HD. rewrite (evs_in V0 s (tgt A) k OK); rewrite ?T1; [reflexivity|rewrite T2; lia|lia].
    Qed.

    Lemma susp_below r k a : in_region (sps_susp A) r k 0 = true -> below stks (evs P L V0 s (r, k)) a ->
      r = own A /\ - F <= k <= up /\ lo <= a < sp A s + k \/ r = tgt A /\ 0 <= k <= F + up /\ lo1 <= a < arg_to A s + k.
    Proof.
      intros H (l & h & I & Ha & Hp). destruct RO as ((O1 & O2 & _) & O4 & _), RO1 as ((Q1 & Q2 & _) & Q4 & _).
      unfold handle, sdisj in *.
      destruct (susp_sp r k H) as [(-> & K & EQ)|(-> & K & EQ)]; rewrite EQ in *; [left|right]; (split; [reflexivity|]; split; [exact K|]);
        destruct I as [I|[I|[]]]; injection I as <- <-; lia.
    Qed.

    (** the regions are on the stacks *)
    Lemma susp_reg r l h a : In (r, l, h) (reg_susp A) -> Ev r + l <= a < Ev r + h ->
      r = own A /\ lo <= a < hi /\ sp A s - F <= a < sp A s + up \/
      r = tgt A /\ lo1 <= a < hi1 /\ arg_to A s <= a < arg_to A s + F + up \/
      r = hidr A /\ lo1 <= a < hi1 /\ arg_to A s + F + up <= a.
    Proof.
      intros I Ha. destruct RO as ((O1 & O2 & _) & O4 & _), RO1 as ((Q1 & Q2 & Q3) & Q4 & Q5). unfold handle in *.
      unfold reg_susp in I. apply in_app_or in I as [I|I].
      - destruct I as [I|[I|[]]]; injection I as <- <- <-.
        + left. split; [reflexivity|]. rewrite own_ev in Ha. lia.
        + right; left. split; [reflexivity|]. rewrite (proj1 (tgt_ev A L CHK V0 s (call_in A L CHK s CS))) in Ha. lia.
      - right; right. unfold has_hidden in I. destruct (ab_hidden B) as [p|] eqn:E; [|destruct I].
        destruct I as [I|[]]. remember (2 * cwb P) as w2 eqn:W2. injection I as <- <- <-. split; [reflexivity|].
        rewrite (hidr_ev A L CHK s s1 CS CS1 HL p E) in Ha. unfold live_result in Q5. rewrite (hidden_some A s1 p E) in Q3, Q5.
        unfold disj, own_len, handle in Q3. pose proof (abi_nums A CHK) as NN. destruct CS1 as (_ & D1 & _). lia.
    Qed.

    Lemma susp_dead r k p a r' l h : in_region (sps_susp A) r k 0 = true -> p = evs P L V0 s (r, k) -> below stks p a ->
      In (r', l, h) (reg_susp A) -> Ev r' + l <= a < Ev r' + h -> r' = r /\ a < Ev r + k.
    Proof.
      intros H -> BL I Ha. unfold sdisj in DI.
      destruct (susp_below r k a H BL) as [(-> & K & J)|(-> & K & J)].
      - rewrite own_ev. destruct (susp_reg _ _ _ _ I Ha) as [(-> & ?)|[(-> & ?)|(-> & ?)]]; [split; [reflexivity|lia]|exfalso|exfalso].
        + destruct RO as ((O1 & O2 & _) & O4 & _). unfold handle in *. lia.
        + destruct RO as ((O1 & O2 & _) & O4 & _). unfold handle in *. lia.
      - rewrite (proj1 (tgt_ev A L CHK V0 s (call_in A L CHK s CS))).
        destruct (susp_reg _ _ _ _ I Ha) as [(-> & ?)|[(-> & ?)|(-> & ?)]]; [exfalso|split; [reflexivity|lia]|exfalso; lia].
        destruct RO1 as ((O1 & O2 & _) & O4 & _). unfold handle in *. lia.
    Qed.

    Lemma susp_keep a : covd P L V0 s (reg_susp A) a -> keep a.
    Proof. intros (r & l & h & I & Ha). apply KEEP. eapply foot_susp_regions; eauto. Qed.

    (** jump does not go to the trampoline *)
    Lemma susp_goes k pc t : run P L (code_of A k) s = Goto pc t -> goes_on A L (tramp_of k) pc = false.
    Proof.
      intros R. destruct k; [|reflexivity]. cbn [code_of tramp_of] in *. unfold goes_on. cbn [andb].
      destruct (c_tramp C) as [|i0 c0] eqn:EC; [reflexivity|]. destruct (pc =? L "trampoline"%string) eqn:G; [|reflexivity]. exfalso.
      pose proof (c_jmp A CHK) as Y. unfold chk_jump in Y. destruct (jump_s A) as [[T [pcv|]]|] eqn:E; try discriminate.
      unfold jump_s in E. destruct (susp_run A L LAB CHK s s1 CS CS1 HD HL AP _ _ _ E) as (t1 & R1 & _). cbn [fin_of] in R1.
      rewrite R in R1. injection R1 as -> _.
      do 3 (apply andb_true_iff in Y as [Y _]). apply andb_true_iff in Y as [_ Y].
      rewrite (from_slot_ev A L CHK s s1 CS HL _ _ Y) in G. apply Z.eqb_eq in G.
      rewrite (proj1 (vroot_ev A L CHK V0 s1 _ (call_in A L CHK s1 CS1) (p_ret A CHK))) in G.
      destruct CS1 as (_ & _ & _ & _ & NE). apply NE. exact G.
    Qed.

    Lemma susp_sig k : (k = Ontop -> has_ontop A) -> chk_end A (tgt A) (pls_susp A k) (sig_susp A (code_of A k)) = true.
    Proof.
      intros HO. pose proof SIG as X. unfold sig_check in X. apply andb_true_iff in X as [X _]. apply andb_true_iff in X as [X _].
      apply andb_true_iff in X as [X1 X2]. destruct k; cbn [code_of]; [exact X1|].
      specialize (HO eq_refl). unfold has_ontop in HO. destruct (c_ontop C); [congruence|exact X2].
    Qed.

    Theorem sig_switch_susp k o : (k = Ontop -> has_ontop A) ->
      iswitch A L (handled stks keep) k s o ->
      exists pc u s' t', o = Goto pc u /\ switch A L k s' = Goto pc t' /\ rg s' = rg s /\ wf P s' /\ wf P u /\
        (forall a, keep a -> ~ (lo <= a < sp A s) -> ~ (lo1 <= a < arg_to A s) -> mm s' a = mm s a) /\
        (forall r, rg u r = rg t' r) /\
        (forall a, mm u a <> mm t' a -> arg_to A s <= a < sp A u /\ a < arg_to A s + own_len A) /\
        (forall p, In p (pls_susp A k) -> pl P u p = pl P t' p).
    Proof.
      intros HO (o1 & IR & GO). pose proof (susp_sig k HO) as X. unfold chk_end in X.
      destruct (sig_susp A (code_of A k)) as [[[[T f] K] ac]|] eqn:SG; [|discriminate]. apply andb_true_iff in X as [X XP]. apply andb_true_iff in X as [XR XS].
      apply root_eqb_eq in XR. unfold sig_susp in SG.
      pose proof (env0 A L LAB CHK s (proj1 CS)) as OK. pose proof (susp_regions A L CHK s s1 CS CS1 HD HL AP) as RG.
      pose proof (susp_known A L LAB CHK s s1 CS CS1 HD HL) as KN. pose proof (susp_nz A L CHK s s1 CS CS1 HL AP) as NZ.
      pose proof (susp_al A L CHK s s1 CS CS1 HD) as AL.
      destruct (sig_sound P (ab_sp B) (sps_susp A) (reg_susp A) (known_susp A) (nz_susp A) (al_susp A) L V0 s OK RG KN NZ AL
                 stks keep susp_keep susp_dead _ _ _ IR S0 (reg_susp A) (ac_susp A) s T f K ac (init_rel _ _ _ _ _ _ OK _ _) SG)
        as (u & v & -> & RV & RL).
      rewrite (susp_goes k _ _ RV) in GO. subst o.
      destruct (sig_acc P (ab_sp B) (sps_susp A) (reg_susp A) (known_susp A) (nz_susp A) (al_susp A) L V0 s OK RG KN NZ AL
                 _ S0 (reg_susp A) (ac_susp A) s T f K ac (sim_init _ _ _ _ _) (fits_init _) SG) as (INC & _ & ACC).
      assert (AC : accs A L (covd P L V0 s ac) (code_of A k) (tramp_of k) s).
      { split; [apply ACC; auto|]. intros pc t R G. rewrite (susp_goes k _ _ R) in G. discriminate. }
      assert (RR : rest_run A L (code_of A k) (tramp_of k) s = Goto (evs P L V0 s f) v).
      { unfold rest_run. rewrite RV, (susp_goes k _ _ RV). reflexivity. }
      destruct (back (covd P L V0 s ac) (covb P L V0 s ac) _ _ s _ u v (covb_spec P L V0 s ac) AC RR (l_reg _ _ _ _ _ _ _ _ _ _ _ _ RL))
        as (t' & R' & RT & MX & MN).
      pose proof (sim_wf P (reg_susp A) L V0 s OK T v (l_sim _ _ _ _ _ _ _ _ _ _ _ _ RL) (l_fit _ _ _ _ _ _ _ _ _ _ _ _ RL)) as [_ WV].
      exists (evs P L V0 s f), u, (past (covb P L V0 s ac) s u), t'.
      split; [reflexivity|]. split; [rewrite switch_rest; exact R'|]. split; [reflexivity|].
      split; [|split; [|split; [|split; [exact RT|split]]]].
      - split; [|apply (proj2 (proj1 CS))]. intros a. cbn. destruct (covb _ _ _ _ _ a); [apply (proj1 (proj1 CS))|apply (l_byte _ _ _ _ _ _ _ _ _ _ _ _ RL)].
      - split; [apply (l_byte _ _ _ _ _ _ _ _ _ _ _ _ RL)|]. intros r. rewrite (l_reg _ _ _ _ _ _ _ _ _ _ _ _ RL). apply WV.
      - (* before *)
        intros a Ka N1 N2. cbn. destruct (covb P L V0 s ac a) eqn:CB; [reflexivity|].
        assert (NA : ~ covd P L V0 s (ac_susp A) a).
        { intros Q. apply (covd_incl P L V0 s _ ac a INC) in Q. apply covb_spec in Q. congruence. }
        assert (NR : ~ covd P L V0 s (reg_susp A) a).
        { intros (r & l & h & I & Ha). apply NA. unfold ac_susp. unfold reg_susp in I. apply in_app_or in I as [I|I].
          - destruct I as [I|[I|[]]]; injection I as <- <- <-.
            + exists (own A), 0, (ab_up B). split; [left; reflexivity|]. rewrite own_ev in *.
              destruct RO as ((O1 & O2 & _) & _). unfold handle in O1. lia.
            + exists (tgt A), 0, (F + up). split; [right; left; reflexivity|exact Ha].
          - exists r, l, h. split; [apply in_or_app; right; exact I|exact Ha]. }
        apply (l_out _ _ _ _ _ _ _ _ _ _ _ _ RL a Ka); [|exact NR].
        intros r k0 I BL. apply NR. destruct (susp_below r k0 a I BL) as [(-> & K0 & J)|(-> & K0 & J)].
        + exists (own A), (- F), up. split; [left; reflexivity|]. rewrite own_ev. pose proof (abi_nums A CHK). lia.
        + exists (tgt A), 0, (F + up). split; [right; left; reflexivity|].
          rewrite (proj1 (tgt_ev A L CHK V0 s (call_in A L CHK s CS))). lia.
      - (* after *)
        intros a NE. destruct (covd_dec P L V0 s ac a) as [Q|Q]; [|exfalso; apply NE; symmetry; apply MN; exact Q].
        rewrite (MX a Q) in NE. destruct (settled_spec P L V0 s _ _ _ _ XS Q) as [Q'|(LT & l & h & I & Ha)].
        + exfalso. apply NE. apply (l_mem _ _ _ _ _ _ _ _ _ _ _ _ RL). exact Q'.
        + rewrite XR in *. rewrite (proj1 (tgt_ev A L CHK V0 s (call_in A L CHK s CS))) in *.
          destruct (sig_end P (ab_sp B) (sps_susp A) (reg_susp A) (known_susp A) (nz_susp A) (al_susp A) _ _ _ _ _ _ _ _ SG) as [SE SB].
          assert (SPU : sp A u = evs P L V0 s (get T (ab_sp B))).
          { unfold sp. rewrite (l_reg _ _ _ _ _ _ _ _ _ _ _ _ RL). apply (proj1 (l_sim _ _ _ _ _ _ _ _ _ _ _ _ RL)). }
          assert (IS : insub (reg_susp A) (ac_susp A)).
          { intros r l' h' J W. unfold ac_susp in J. apply in_app_or in J as [J|J].
            - destruct J as [J|[J|[]]]; injection J as <- <- <-.
              + exists (- F), up. split; [left; reflexivity|]. pose proof (abi_nums A CHK). lia.
              + exists 0, (F + up). split; [right; left; reflexivity|lia].
            - exists l', h'. split; [apply in_or_app; right; exact J|lia]. }
          destruct (SB IS _ _ _ I ltac:(lia)) as (l' & h' & J & J1 & J2).
          rewrite XR in SE. destruct (get T (ab_sp B)) as [rt kt] eqn:GT. cbn [fst snd] in *. subst rt.
          assert (E2 : Ev (tgt A) + l' <= a < Ev (tgt A) + h') by (rewrite (proj1 (tgt_ev A L CHK V0 s (call_in A L CHK s CS))); lia).
          destruct RO as ((O1 & O2 & _) & O4 & _), RO1 as ((Q1 & Q2 & _) & Q4 & _). unfold handle, sdisj, own_len in *.
          pose proof (abi_nums A CHK) as NN.
          destruct (susp_sp _ _ SE) as [(ER & K1 & E1)|(ER & K1 & E1)].
          * (* own = tgt *) pose proof (own_ev A L V0 s) as OE. rewrite <- ER in OE. rewrite (proj1 (tgt_ev A L CHK V0 s (call_in A L CHK s CS))) in OE. lia.
          * rewrite SPU, E1. destruct (susp_reg _ _ _ _ J E2) as [(ER' & Z1)|[(ER' & Z1)|(ER' & Z1)]].
            -- pose proof (own_ev A L V0 s) as OE. rewrite <- ER' in OE. rewrite (proj1 (tgt_ev A L CHK V0 s (call_in A L CHK s CS))) in OE. lia.
            -- lia.
            -- lia.
      - intros p Hp. eapply (seen_pl (sps_susp A) (reg_susp A)); eauto. rewrite forallb_forall in XP. auto.
    Qed.
  End Susp.

  (** jump to a context that make_fcontext has prepared *)
  Section Fresh.
    Variables s0 t0 s : mst.
    Variable pc0 : Z.
    Variables lo hi lo1 hi1 : Z.
    Variable keep : Z -> Prop.
    Hypothesis M0 : make_ok A s0.
    Hypothesis R0 : run P L (c_make C) s0 = Goto pc0 t0.
    Hypothesis CS : call_ok A L s.
    Hypothesis HD : arg_to A s = rg t0 (ab_mkres B).
    Hypothesis MEM : forall a, rg t0 (ab_mkres B) <= a < rg t0 (ab_mkres B) + c_size C -> mm s a = mm t0 a.
    Hypothesis RO : roomy s lo hi.
    Hypothesis RO0 : 0 <= lo1.
    Hypothesis RO1 : lo1 + c_frame C < arg_to A s.
    Hypothesis RO2 : arg_to A s + c_size C <= hi1.
    Hypothesis DI : sdisj lo hi lo1 hi1.
    Hypothesis KEEP : forall a, foot_new A s a -> keep a.
    Local Notation stks := [(lo, hi); (lo1, hi1)].
    Local Notation V := (V1 A L s0).
    Local Notation Ev := (ev P L V s).
    Local Notation F := (c_frame C).
    Local Notation up := (ab_up B).
    Local Notation K := (c_size C).

    Lemma fresh_disj : disj (handle A s) (own_len A) (rg t0 (ab_mkres B)) K.
    Proof.
      rewrite <- HD. destruct RO as ((O1 & O2 & _) & O4 & _). pose proof (abi_nums A CHK). unfold disj, own_len, handle, sdisj in *. lia.
    Qed.

    Lemma new_tgt : Ev (tgt A) = arg_to A s /\ wd P (tgt A) = cwb P.
    Proof. apply (tgt_ev A L CHK V s (call_in A L CHK s CS)). Qed.

    Lemma new_top : arg_to A s + K < space P /\ 0 <= K.
    Proof.
      destruct (make_runs A L LAB CHK s0 M0) as (t & T0 & pcv & E0 & R & Wt & SM & _ & _ & RES & _).
      rewrite R in R0. injection R0 as _ <-. rewrite HD, RES. destruct (top_range A L CHK s0 M0) as (_ & T & _).
      destruct M0 as (_ & _ & _ & M4 & _). pose proof (abi_nums A CHK). lia.
    Qed.

    Lemma new_sp r k : in_region (sps_fresh A) r k 0 = true ->
      r = own A /\ - F <= k <= up /\ evs P L V s (r, k) = sp A s + k \/
      r = tgt A /\ - F <= k <= K /\ evs P L V s (r, k) = arg_to A s + k.
    Proof.
      intros H. apply spsi in H as (l & h & I & Hk). pose proof (fresh_env A L LAB CHK s0 s M0 CS) as OK.
      destruct new_tgt as [T1 T2]. pose proof new_top as [NT NK]. pose proof (env0 A L LAB CHK s (proj1 CS)) as OK0.
      destruct CS as (_ & C1 & C2 & _).
      destruct I as [I|[I|[]]]; injection I as <- <- <-; [left|right].
      - split; [reflexivity|]. split; [exact Hk|]. rewrite (evs_in V s (own A) k OK); rewrite ?own_ev; [reflexivity|rewrite own_wd; lia|lia].
      - split; [reflexivity|]. split; [exact Hk|]. rewrite (evs_in V s (tgt A) k OK); rewrite ?T1; [reflexivity|rewrite T2; lia|lia].
    Qed.

    Lemma new_below r k a : in_region (sps_fresh A) r k 0 = true -> below stks (evs P L V s (r, k)) a ->
      r = own A /\ - F <= k <= up /\ lo <= a < sp A s + k \/ r = tgt A /\ - F <= k <= K /\ lo1 <= a < arg_to A s + k.
    Proof.
      intros H (l & h & I & Ha & Hp). destruct RO as ((O1 & O2 & _) & O4 & _).
      unfold handle, sdisj in *.
      destruct (new_sp r k H) as [(-> & Hk & EQ)|(-> & Hk & EQ)]; rewrite EQ in *; [left|right]; (split; [reflexivity|]; split; [exact Hk|]);
        destruct I as [I|[I|[]]]; injection I as <- <-; lia.
    Qed.

    Lemma new_reg r l h a : In (r, l, h) (reg_fresh A) -> Ev r + l <= a < Ev r + h ->
      r = own A /\ lo <= a < hi /\ sp A s - F <= a < sp A s + up \/
      r = tgt A /\ lo1 <= a < hi1 /\ arg_to A s <= a < arg_to A s + K.
    Proof.
      intros I Ha. destruct RO as ((O1 & O2 & _) & O4 & _). unfold handle in *. pose proof (abi_nums A CHK) as NN.
      destruct I as [I|[I|[]]]; injection I as <- <- <-.
      - left. split; [reflexivity|]. rewrite own_ev in Ha. lia.
      - right. split; [reflexivity|]. rewrite (proj1 new_tgt) in Ha. lia.
    Qed.

    Lemma own_not_tgt : own A = tgt A -> False.
    Proof.
      intros E. pose proof (own_ev A L V s) as OE. rewrite E, (proj1 new_tgt) in OE.
      destruct RO as ((O1 & O2 & _) & O4 & _). pose proof (abi_nums A CHK) as NN. unfold handle, sdisj in *. lia.
    Qed.

    Lemma new_dead r k p a r' l h : in_region (sps_fresh A) r k 0 = true -> p = evs P L V s (r, k) -> below stks p a ->
      In (r', l, h) (reg_fresh A) -> Ev r' + l <= a < Ev r' + h -> r' = r /\ a < Ev r + k.
    Proof.
      intros H -> BL I Ha. destruct RO as ((O1 & O2 & _) & O4 & _). unfold sdisj, handle in *.
      destruct (new_below r k a H BL) as [(-> & Hk & J)|(-> & Hk & J)].
      - rewrite own_ev. destruct (new_reg _ _ _ _ I Ha) as [(-> & ?)|(-> & ?)]; [split; [reflexivity|lia]|exfalso; lia].
      - rewrite (proj1 new_tgt). destruct (new_reg _ _ _ _ I Ha) as [(-> & ?)|(-> & ?)]; [exfalso; lia|split; [reflexivity|lia]].
    Qed.

    Lemma new_keep a : covd P L V s (reg_fresh A) a -> keep a.
    Proof.
      intros (r & l & h & I & Ha). apply KEEP. unfold foot_new, own_foot, own_len, handle.
      destruct I as [I|[I|[]]]; injection I as <- <- <-.
      - left. rewrite own_ev in Ha. lia.
      - right. rewrite (proj1 new_tgt) in Ha. lia.
    Qed.

    Theorem sig_switch_fresh o :
      iswitch A L (handled stks keep) Jump s o ->
      exists pc u s' t', o = Goto pc u /\ switch A L Jump s' = Goto pc t' /\ rg s' = rg s /\ wf P s' /\ wf P u /\
        (forall a, keep a -> ~ (lo <= a < sp A s) -> ~ (lo1 <= a < arg_to A s) -> mm s' a = mm s a) /\
        (forall r, rg u r = rg t' r) /\
        (forall a, mm u a <> mm t' a -> arg_to A s <= a < sp A u /\ a < arg_to A s + K) /\
        (forall p, In p (pls_fresh A) -> pl P u p = pl P t' p).
    Proof.
      intros (o1 & IR & GO). cbn [code_of tramp_of] in *.
      assert (X : chk_end A (tgt A) (pls_fresh A) (sig_fresh A) = true).
      { pose proof SIG as X. unfold sig_check in X. apply andb_true_iff in X as [X _]. apply andb_true_iff in X as [_ X]. exact X. }
      unfold chk_end in X. destruct (sig_fresh A) as [[[[T f] KK] ac]|] eqn:SG; [|discriminate]. apply andb_true_iff in X as [X XP]. apply andb_true_iff in X as [XR XS].
      apply root_eqb_eq in XR. unfold sig_fresh in SG.
      destruct (sig_fresh1 A) as [[[[T1 f1] K1] ac1]|] eqn:SG1; [|discriminate]. unfold sig_fresh1 in SG1.
      pose proof fresh_disj as AP.
      destruct (make_runs A L LAB CHK s0 M0) as (t & T0 & pcv & E0 & R & Wt & SM & _ & _ & RES & _).
      pose proof R0 as R0'. rewrite R in R0'. injection R0' as _ EQT.
      pose proof HD as HD'. pose proof MEM as MEM'. rewrite <- EQT, RES in AP, HD', MEM'.
      pose proof (fresh_env A L LAB CHK s0 s M0 CS) as OK.
      pose proof (fresh_regions A L CHK s0 s M0 CS HD' AP) as RG.
      pose proof (fresh_known A L LAB CHK s0 t s T0 _ M0 E0 SM CS HD' MEM') as KN.
      pose proof (fresh_al A L CHK s0 s M0 CS HD') as AL.
      assert (NZ : nz_ok P [] L V s) by (intros e []).
      destruct (sig_sound P (ab_sp B) (sps_fresh A) (reg_fresh A) (known_fresh A) [] (al_fresh A) L V s OK RG KN NZ AL
                 stks keep new_keep new_dead _ _ _ IR S0 (reg_fresh A) (ac_fresh A) s T1 f1 K1 ac1 (init_rel _ _ _ _ _ _ OK _ _) SG1)
        as (u1 & v1 & -> & RV1 & RL1).
      destruct (sig_acc P (ab_sp B) (sps_fresh A) (reg_fresh A) (known_fresh A) [] (al_fresh A) L V s OK RG KN NZ AL
                 _ S0 (reg_fresh A) (ac_fresh A) s T1 f1 K1 ac1 (sim_init _ _ _ _ _) (fits_init _) SG1) as (INC1 & _ & ACC1).
      destruct (sig_end P (ab_sp B) (sps_fresh A) (reg_fresh A) (known_fresh A) [] (al_fresh A) _ _ _ _ _ _ _ _ SG1) as [SE1 SB1].
      (* with or without the trampoline *)
      assert (Z : exists pc u v, o = Goto pc u /\ rel P (sps_fresh A) (reg_fresh A) L V s stks keep T KK u v /\
                  rest_run A L (c_jump C) true s = Goto pc v /\ incl (ac_fresh A) ac /\ accs A L (covd P L V s ac) (c_jump C) true s /\
                  in_region (sps_fresh A) (fst (get T (ab_sp B))) (snd (get T (ab_sp B))) 0 = true /\
                  (insub (reg_fresh A) (ac_fresh A) -> insub (reg_fresh A) ac)).
      { unfold accs, rest_run. rewrite RV1. unfold goes_on in *. cbn [andb] in *. destruct (c_tramp C) as [|i c] eqn:EC.
        - injection SG as <- <- <- <-. eexists _, u1, v1. split; [exact GO|]. split; [exact RL1|]. split; [reflexivity|]. split; [exact INC1|].
          split; [|split; [exact SE1|exact SB1]]. split; [apply ACC1; auto|]. intros pc t1 _ G. discriminate.
        - destruct (sval_eqb f1 (RLab "trampoline"%string, 0)) eqn:Q; [|discriminate]. apply sval_eqb_eq in Q. subst f1.
          change (evs P L V s (RLab "trampoline"%string, 0)) with (L "trampoline"%string) in *. rewrite Z.eqb_refl in *.
          destruct (sig_sound P (ab_sp B) (sps_fresh A) (reg_fresh A) (known_fresh A) [] (al_fresh A) L V s OK RG KN NZ AL
                 stks keep new_keep new_dead _ _ _ GO T1 K1 ac1 v1 T f KK ac RL1 SG) as (u & v & -> & RV & RL).
          destruct (sig_acc P (ab_sp B) (sps_fresh A) (reg_fresh A) (known_fresh A) [] (al_fresh A) L V s OK RG KN NZ AL
                 _ T1 K1 ac1 v1 T f KK ac (l_sim _ _ _ _ _ _ _ _ _ _ _ _ RL1) (l_fit _ _ _ _ _ _ _ _ _ _ _ _ RL1) SG) as (INC & _ & ACC).
          destruct (sig_end P (ab_sp B) (sps_fresh A) (reg_fresh A) (known_fresh A) [] (al_fresh A) _ _ _ _ _ _ _ _ SG) as [SE SB].
          eexists _, u, v. split; [reflexivity|]. split; [exact RL|]. split; [exact RV|]. split; [intros x Hx; auto|].
          split; [|split; [exact SE|auto]]. split.
          + apply ACC1. intros a Ha. eapply covd_incl; [exact INC|exact Ha].
          + intros pc t1 E G. injection E as <- <-. apply ACC. auto. }
      destruct Z as (pc & u & v & -> & RL & RR & INC & AC & SE & SB).
      destruct (back (covd P L V s ac) (covb P L V s ac) _ _ s _ u v (covb_spec P L V s ac) AC RR (l_reg _ _ _ _ _ _ _ _ _ _ _ _ RL))
        as (t' & R' & RT & MX & MN).
      pose proof (sim_wf P (reg_fresh A) L V s OK T v (l_sim _ _ _ _ _ _ _ _ _ _ _ _ RL) (l_fit _ _ _ _ _ _ _ _ _ _ _ _ RL)) as [_ WV].
      exists pc, u, (past (covb P L V s ac) s u), t'.
      split; [reflexivity|]. split; [rewrite switch_rest; exact R'|]. split; [reflexivity|].
      split; [|split; [|split; [|split; [exact RT|split]]]].
      - split; [|apply (proj2 (proj1 CS))]. intros a. cbn. destruct (covb _ _ _ _ _ a); [apply (proj1 (proj1 CS))|apply (l_byte _ _ _ _ _ _ _ _ _ _ _ _ RL)].
      - split; [apply (l_byte _ _ _ _ _ _ _ _ _ _ _ _ RL)|]. intros r. rewrite (l_reg _ _ _ _ _ _ _ _ _ _ _ _ RL). apply WV.
      - intros a Ka N1 N2. cbn. destruct (covb P L V s ac a) eqn:CB; [reflexivity|].
        assert (NA : ~ covd P L V s (ac_fresh A) a).
        { intros Q. apply (covd_incl P L V s _ ac a INC) in Q. apply covb_spec in Q. congruence. }
        assert (NR : ~ covd P L V s (reg_fresh A) a).
        { intros (r & l & h & I & Ha). apply NA. unfold ac_fresh.
          destruct I as [I|[I|[]]]; injection I as <- <- <-.
          - exists (own A), 0, (ab_up B). split; [left; reflexivity|]. rewrite own_ev in *.
            destruct RO as ((O1 & O2 & _) & _). unfold handle in O1. lia.
          - exists (tgt A), 0, K. split; [right; left; reflexivity|exact Ha]. }
        apply (l_out _ _ _ _ _ _ _ _ _ _ _ _ RL a Ka); [|exact NR].
        intros r k0 I BL. apply NR. pose proof (abi_nums A CHK) as NN. destruct (new_below r k0 a I BL) as [(-> & K0 & J)|(-> & K0 & J)].
        + exists (own A), (- F), up. split; [left; reflexivity|]. rewrite own_ev. lia.
        + exists (tgt A), 0, K. split; [right; left; reflexivity|]. rewrite (proj1 new_tgt). lia.
      - intros a NE. destruct (covd_dec P L V s ac a) as [Q|Q]; [|exfalso; apply NE; symmetry; apply MN; exact Q].
        rewrite (MX a Q) in NE. destruct (settled_spec P L V s _ _ _ _ XS Q) as [Q'|(LT & l & h & I & Ha)].
        + exfalso. apply NE. apply (l_mem _ _ _ _ _ _ _ _ _ _ _ _ RL). exact Q'.
        + assert (IS : insub (reg_fresh A) (ac_fresh A)).
          { intros r l' h' J W. destruct J as [J|[J|[]]]; injection J as <- <- <-.
            - exists (- F), up. split; [left; reflexivity|]. pose proof (abi_nums A CHK). lia.
            - exists 0, K. split; [right; left; reflexivity|lia]. }
          assert (SPU : sp A u = evs P L V s (get T (ab_sp B))).
          { unfold sp. rewrite (l_reg _ _ _ _ _ _ _ _ _ _ _ _ RL). apply (proj1 (l_sim _ _ _ _ _ _ _ _ _ _ _ _ RL)). }
          rewrite XR in *. destruct (SB IS _ _ _ I ltac:(lia)) as (l' & h' & J & J1 & J2).
          destruct (get T (ab_sp B)) as [rt kt] eqn:GT. cbn [fst snd] in *. subst rt.
          destruct (new_sp _ _ SE) as [(ER & _)|(_ & _ & E1)]; [destruct own_not_tgt; auto|].
          assert (E2 : Ev (tgt A) + l' <= a < Ev (tgt A) + h') by lia.
          destruct (new_reg _ _ _ _ J E2) as [(ER & _)|(_ & Z1)]; [destruct own_not_tgt; auto|].
          rewrite SPU, E1. rewrite (proj1 new_tgt) in LT. lia.
      - intros p Hp. eapply (seen_pl (sps_fresh A) (reg_fresh A)); eauto. rewrite forallb_forall in XP. auto.
    Qed.
  End Fresh.

  (** make_fcontext *)
  Section Make.
    Variable s : mst.
    Variables lo hi : Z.
    Variable keep : Z -> Prop.
    Hypothesis MS : make_ok A s.
    Hypothesis RO1 : lo < sp A s - c_mkscr C.
    Hypothesis RO2 : sp A s + ab_up B <= hi.
    Hypothesis RO3 : sdisj lo hi (mk_top A s - c_need C) (mk_top A s).
    Hypothesis KEEP : forall a, foot_make A s a -> keep a.
    Local Notation stks := [(lo, hi)].
    Local Notation Ev := (ev P L V0 s).
    Local Notation up := (ab_up B).
    Local Notation K := (c_size C).
    Local Notation scr := (c_mkscr C).

    Lemma mk_sp r k : in_region (sps_make A) r k 0 = true -> r = own A /\ - scr <= k <= up /\ evs P L V0 s (r, k) = sp A s + k.
    Proof.
      intros H. apply spsi in H as (l & h & I & Hk). pose proof (env0 A L LAB CHK s (proj1 MS)) as OK.
      destruct MS as (_ & C1 & C2 & _). destruct I as [I|[]]; injection I as <- <- <-.
      split; [reflexivity|]. split; [exact Hk|]. rewrite (evs_in V0 s (own A) k OK); rewrite ?own_ev; [reflexivity|rewrite own_wd; lia|lia].
    Qed.

    Lemma mk_below r k a : in_region (sps_make A) r k 0 = true -> below stks (evs P L V0 s (r, k)) a ->
      r = own A /\ - scr <= k <= up /\ lo <= a < sp A s + k.
    Proof.
      intros H (l & h & I & Ha & Hp). destruct (mk_sp r k H) as (-> & Hk & EQ). rewrite EQ in *.
      split; [reflexivity|]; split; [exact Hk|]. destruct I as [I|[]]; injection I as <- <-. exact Ha.
    Qed.

    Lemma mk_reg r l h a : In (r, l, h) (reg_make A) -> Ev r + l <= a < Ev r + h ->
      r = own A /\ lo <= a < hi /\ sp A s - scr <= a < sp A s + up \/
      r = mroot A /\ mk_top A s - c_need C <= a < mk_top A s.
    Proof.
      intros I Ha. pose proof (top_range A L CHK s MS) as TR. unfold aligned_top in TR.
      destruct I as [I|[I|[]]]; injection I as <- <- <-.
      - left. split; [reflexivity|]. rewrite own_ev in Ha. lia.
      - right. split; [reflexivity|]. lia.
    Qed.

    Lemma mk_dead r k p a r' l h : in_region (sps_make A) r k 0 = true -> p = evs P L V0 s (r, k) -> below stks p a ->
      In (r', l, h) (reg_make A) -> Ev r' + l <= a < Ev r' + h -> r' = r /\ a < Ev r + k.
    Proof.
      intros H -> BL I Ha. destruct (mk_below r k a H BL) as (-> & Hk & J). rewrite own_ev. unfold sdisj in *.
      destruct (mk_reg _ _ _ _ I Ha) as [(-> & ?)|(-> & ?)]; [split; [reflexivity|lia]|exfalso; lia].
    Qed.

    Lemma mk_keep a : covd P L V0 s (reg_make A) a -> keep a.
    Proof.
      intros (r & l & h & I & Ha). apply KEEP. unfold foot_make. destruct (mk_reg _ _ _ _ I Ha) as [(-> & ?)|(-> & ?)]; [left|right]; lia.
    Qed.

    Theorem sig_make_ok o : irun P L (handled stks keep) (c_make C) s o ->
      exists pc u s' t', o = Goto pc u /\ run P L (c_make C) s' = Goto pc t' /\ rg s' = rg s /\ wf P s' /\ wf P u /\
        (forall a, keep a -> ~ (lo <= a < sp A s) -> mm s' a = mm s a) /\
        (forall r, rg u r = rg t' r) /\
        (forall a, mm u a <> mm t' a -> lo <= a < sp A u).
    Proof.
      intros IR.
      assert (X : chk_end A (own A) [] (sig_make A) = true).
      { pose proof SIG as X. unfold sig_check in X. apply andb_true_iff in X as [_ X]. exact X. }
      unfold chk_end in X. destruct (sig_make A) as [[[[T f] KK] ac]|] eqn:SG; [|discriminate]. apply andb_true_iff in X as [X XP]. apply andb_true_iff in X as [XR XS].
      apply root_eqb_eq in XR. unfold sig_make in SG.
      pose proof (env0 A L LAB CHK s (proj1 MS)) as OK. pose proof (make_regions A L CHK s MS) as RG.
      assert (KN : known_ok P [] L V0 s) by (intros e []). assert (NZ : nz_ok P [] L V0 s) by (intros e []).
      assert (AL : al_ok P [] L V0 s) by (intros e z []).
      destruct (sig_sound P (ab_sp B) (sps_make A) (reg_make A) [] [] [] L V0 s OK RG KN NZ AL
                 stks keep mk_keep mk_dead _ _ _ IR S0 (reg_make A) (ac_make A) s T f KK ac (init_rel _ _ _ _ _ _ OK _ _) SG)
        as (u & v & -> & RV & RL).
      destruct (sig_acc P (ab_sp B) (sps_make A) (reg_make A) [] [] [] L V0 s OK RG KN NZ AL
                 _ S0 (reg_make A) (ac_make A) s T f KK ac (sim_init _ _ _ _ _) (fits_init _) SG) as (INC & _ & ACC).
      destruct (sig_end P (ab_sp B) (sps_make A) (reg_make A) [] [] [] _ _ _ _ _ _ _ _ SG) as [SE SB].
      assert (AC : accs A L (covd P L V0 s ac) (c_make C) false s).
      { split; [apply ACC; auto|]. intros pc t R G. discriminate. }
      assert (RR : rest_run A L (c_make C) false s = Goto (evs P L V0 s f) v) by (unfold rest_run; rewrite RV; reflexivity).
      destruct (back (covd P L V0 s ac) (covb P L V0 s ac) _ _ s _ u v (covb_spec P L V0 s ac) AC RR (l_reg _ _ _ _ _ _ _ _ _ _ _ _ RL))
        as (t' & R' & RT & MX & MN).
      assert (R2 : run P L (c_make C) (past (covb P L V0 s ac) s u) = Goto (evs P L V0 s f) t').
      { unfold rest_run in R'. destruct (run P L (c_make C) (past (covb P L V0 s ac) s u)) as [pc t|e|]; [exact R'|discriminate|discriminate]. }
      pose proof (sim_wf P (reg_make A) L V0 s OK T v (l_sim _ _ _ _ _ _ _ _ _ _ _ _ RL) (l_fit _ _ _ _ _ _ _ _ _ _ _ _ RL)) as [_ WV].
      exists (evs P L V0 s f), u, (past (covb P L V0 s ac) s u), t'.
      split; [reflexivity|]. split; [exact R2|]. split; [reflexivity|].
      split; [|split; [|split; [|split; [exact RT|]]]].
      - split; [|apply (proj2 (proj1 MS))]. intros a. cbn. destruct (covb _ _ _ _ _ a); [apply (proj1 (proj1 MS))|apply (l_byte _ _ _ _ _ _ _ _ _ _ _ _ RL)].
      - split; [apply (l_byte _ _ _ _ _ _ _ _ _ _ _ _ RL)|]. intros r. rewrite (l_reg _ _ _ _ _ _ _ _ _ _ _ _ RL). apply WV.
      - intros a Ka N1. cbn. destruct (covb P L V0 s ac a) eqn:CB; [reflexivity|].
        assert (NA : ~ covd P L V0 s (ac_make A) a).
        { intros Q. apply (covd_incl P L V0 s _ ac a INC) in Q. apply covb_spec in Q. congruence. }
        assert (NR : ~ covd P L V0 s (reg_make A) a).
        { intros (r & l & h & I & Ha). apply NA. unfold ac_make.
          destruct I as [I|[I|[]]]; injection I as <- <- <-.
          - exists (own A), 0, (ab_up B). split; [left; reflexivity|]. rewrite own_ev in *. lia.
          - exists (mroot A), (- K), 0. split; [right; left; reflexivity|exact Ha]. }
        apply (l_out _ _ _ _ _ _ _ _ _ _ _ _ RL a Ka); [|exact NR].
        intros r k0 I BL. apply NR. pose proof (abi_nums A CHK) as NN. destruct (mk_below r k0 a I BL) as (-> & K0 & J).
        exists (own A), (- scr), up. split; [left; reflexivity|]. rewrite own_ev. lia.
      - intros a NE. destruct (covd_dec P L V0 s ac a) as [Q|Q]; [|exfalso; apply NE; symmetry; apply MN; exact Q].
        rewrite (MX a Q) in NE. destruct (settled_spec P L V0 s _ _ _ _ XS Q) as [Q'|(LT & l & h & I & Ha)].
        + exfalso. apply NE. apply (l_mem _ _ _ _ _ _ _ _ _ _ _ _ RL). exact Q'.
        + assert (IS : insub (reg_make A) (ac_make A)).
          { intros r l' h' J W. destruct J as [J|[J|[]]]; injection J as <- <- <-.
            - exists (- scr), up. split; [left; reflexivity|]. pose proof (abi_nums A CHK). lia.
            - exists (- K), 0. split; [right; left; reflexivity|lia]. }
          assert (SPU : sp A u = evs P L V0 s (get T (ab_sp B))).
          { unfold sp. rewrite (l_reg _ _ _ _ _ _ _ _ _ _ _ _ RL). apply (proj1 (l_sim _ _ _ _ _ _ _ _ _ _ _ _ RL)). }
          rewrite XR in *. destruct (SB IS _ _ _ I ltac:(lia)) as (l' & h' & J & J1 & J2).
          destruct (get T (ab_sp B)) as [rt kt] eqn:GT. cbn [fst snd] in *. subst rt.
          destruct (mk_sp _ _ SE) as (_ & _ & E1).
          assert (E2 : Ev (own A) + l' <= a < Ev (own A) + h') by lia. pose proof LT as LT'. rewrite own_ev in LT'.
          rewrite SPU, E1. destruct (mk_reg _ _ _ _ J E2) as [(_ & Z1)|(ER & _)]; [lia|discriminate ER].
    Qed.
  End Make.
End Sound.
