(** * What a successful [check] proves *)
From Coq Require Import ZArith List String Lia Bool.
From Verif Require Import Word AsmMachine AsmSym AsmAbi AsmCheck.
Import ListNotations.
Open Scope Z_scope.

Definition V0 : root -> Z := fun _ => 0.

Ltac bsplit :=
  repeat match goal with
  | H : _ && _ = true |- _ => apply andb_true_iff in H; destruct H
  end.

Lemma wf_rw P s r : wf P s -> 0 <= rw P r.
Proof.
  intros [_ R]. specialize (R r). destruct (Z.le_gt_cases 0 (rw P r)); [auto|].
  rewrite Z.pow_neg_r in R by lia. lia.
Qed.

Lemma wd_nonneg P s r : 0 < cwb P -> wf P s -> 0 <= wd P r.
Proof. intros C W. induction r; simpl; try lia. eapply wf_rw; eauto. Qed.

Lemma in_region_intro regs r lo hi o n :
  In (r, lo, hi) regs -> lo <= o -> o + n <= hi -> in_region regs r o n = true.
Proof.
  intros I H1 H2. unfold in_region. apply existsb_exists. exists (r, lo, hi). split; [exact I|].
  cbn beta iota. rewrite (proj2 (root_eqb_eq _ _) eq_refl).
  rewrite (proj2 (Z.leb_le _ _) H1), (proj2 (Z.leb_le _ _) H2). reflexivity.
Qed.

Section Sim.
  Variable P : cpu.
  Variable regions : list region.
  Variable known : list wentry.
  Variable L : string -> Z.
  Variable V : root -> Z.
  Variable s0 : mst.
  Hypothesis OK : env_ok P L V s0.
  Hypothesis RG : regions_ok P regions L V s0.
  Hypothesis KN : known_ok P known L V s0.

  Let W := ev P L V s0.

  Lemma sim_load T t r o n v : sim P regions L V s0 T t -> 0 < n ->
    in_region regions r o n = true -> slook known (sl T) r o n = Some v ->
    load (cbig P) (mm t) (W r + o) n = evs P L V s0 v.
  Proof.
    intros (R & M & F) N I E. rewrite (load_ext _ _ (mem_of P L V s0 (sl T))) by (intros; apply M).
    eapply slook_sound; eauto.
  Qed.

  Lemma sim_frame T t allowed a : sim P regions L V s0 T t -> writes_in allowed T = true ->
    (forall r lo hi, In (r, lo, hi) allowed -> ~ (W r + lo <= a < W r + hi)) ->
    mm t a = mm s0 a.
  Proof.
    intros (R & M & F) X H. rewrite M. apply mem_frame. intros e I.
    unfold writes_in in X. rewrite forallb_forall in X. specialize (X e I).
    apply in_region_spec in X as (lo & hi & Il & ? & ?). specialize (H _ _ _ Il).
    unfold W in H. rewrite Forall_forall in F. destruct (F e I) as (? & _). lia.
  Qed.

  Lemma evs0 r : evs P L V s0 (r, 0) = W r.
  Proof. reflexivity. Qed.
End Sim.

Section Facts.
  Variable A : port.
  Variable L : string -> Z.
  Let B := p_abi A.
  Let C := p_code A.
  Let P := ab_cpu B.
  Let F := c_frame C.
  Let up := ab_up B.
  Let wb := cwb P.
  Let K := c_size C.

  Hypothesis LAB : labels_ok A L.
  Hypothesis CHK : check A = true.

  Lemma c_abi : chk_abi A = true.
  Proof. unfold check in CHK. bsplit. assumption. Qed.
  Lemma c_jmp : chk_jump A = true.
  Proof. unfold check in CHK. bsplit. assumption. Qed.
  Lemma c_ont : chk_ontop A = true.
  Proof. unfold check in CHK. bsplit. assumption. Qed.
  Lemma c_mk : chk_make A = true.
  Proof. unfold check in CHK. bsplit. assumption. Qed.
  Lemma c_fr : chk_fresh A = true.
  Proof. unfold check in CHK. bsplit. assumption. Qed.

  Lemma abi_nums :
    0 < wb /\ 0 <= F /\ 0 <= ab_wr B <= up /\ 0 < ab_align B /\ rw P (ab_sp B) = wb /\
    0 < c_mkal C /\ 2 ^ Z.log2 (c_mkal C) = c_mkal C /\ Z.log2 (c_mkal C) <= 8 * wb /\
    c_mkoff C <= 0 /\ 0 <= K /\ 0 <= c_mkscr C /\ 0 <= ab_pop B <= up /\ 0 <= ab_pop0 B <= up.
  Proof.
    pose proof c_abi as X. unfold chk_abi in X. fold B C P F up wb K in X. bsplit.
    repeat match goal with
    | H : (_ <? _) = true |- _ => apply Z.ltb_lt in H
    | H : (_ <=? _) = true |- _ => apply Z.leb_le in H
    | H : (_ =? _) = true |- _ => apply Z.eqb_eq in H
    end. repeat split; assumption.
  Qed.

  Lemma abi_places :
    place_ok A (ab_to B) = true /\ place_ok A (ab_data B) = true /\ place_ok A (ab_fn B) = true /\
    place_ok A (ab_ret B) = true /\ place_ok A (ab_mksp B) = true /\ place_ok A (ab_mkfn B) = true /\
    (forall p, ab_hidden B = Some p -> place_ok A p = true).
  Proof.
    pose proof c_abi as X. unfold chk_abi in X. fold B C P F up wb K in X. bsplit.
    repeat split; try assumption. intros p E. rewrite E in *. assumption.
  Qed.

  Lemma p_to : place_ok A (ab_to B) = true. Proof. exact (proj1 abi_places). Qed.
  Lemma p_data : place_ok A (ab_data B) = true. Proof. exact (proj1 (proj2 abi_places)). Qed.
  Lemma p_fn : place_ok A (ab_fn B) = true. Proof. exact (proj1 (proj2 (proj2 abi_places))). Qed.
  Lemma p_ret : place_ok A (ab_ret B) = true. Proof. exact (proj1 (proj2 (proj2 (proj2 abi_places)))). Qed.
  Lemma p_mksp : place_ok A (ab_mksp B) = true.
  Proof. exact (proj1 (proj2 (proj2 (proj2 (proj2 abi_places))))). Qed.
  Lemma p_mkfn : place_ok A (ab_mkfn B) = true.
  Proof. exact (proj1 (proj2 (proj2 (proj2 (proj2 (proj2 abi_places)))))). Qed.
  Lemma p_hid p : ab_hidden B = Some p -> place_ok A p = true.
  Proof. exact (proj2 (proj2 (proj2 (proj2 (proj2 (proj2 abi_places))))) p). Qed.

  Lemma space_p : 0 < space P.
  Proof. apply Z.pow_pos_nonneg; [lia|]. pose proof abi_nums. unfold wb in *. lia. Qed.

  (** what the places mean *)
  Definition in_call (s : mst) : Prop := wf P s /\ 0 <= sp A s /\ sp A s + up < space P.

  Lemma vroot_ev V s p : in_call s -> place_ok A p = true ->
    ev P L V s (vroot p) = pl P s p /\ wd P (vroot p) = wb.
  Proof.
    intros (W & S0 & S1) O. pose proof abi_nums as N. destruct p as [r|b o n]; simpl in *.
    - fold B P in O. apply Z.eqb_eq in O. auto.
    - fold B P wb up in O. bsplit. apply String.eqb_eq in H. apply Z.leb_le in H1, H2. apply Z.eqb_eq in H0.
      subst b n. unfold sp in *. fold B in S0, S1. rewrite Z.mod_small by lia. split; [reflexivity|lia].
  Qed.

  Lemma own_ev V s : ev P L V s (own A) = sp A s.
  Proof. reflexivity. Qed.

  Lemma env0 s : wf P s -> env_ok P L V0 s.
  Proof.
    intros W. pose proof abi_nums as (N & _). split; [exact N|]. split; [exact W|]. split; [exact LAB|].
    intros r. unfold V0. split; [lia|]. apply Z.pow_pos_nonneg; [lia|]. eapply wd_nonneg; eauto.
  Qed.

  Lemma call_in s : call_ok A L s -> in_call s.
  Proof. intros (W & H0 & H1 & _). pose proof abi_nums as N. unfold in_call.
    split; [exact W|]. unfold F, K, up, P, B, C in *. lia. Qed.

  Lemma make_in s : make_ok A s -> in_call s.
  Proof. intros (W & H0 & H1 & _). pose proof abi_nums as N. unfold in_call.
    split; [exact W|]. unfold F, K, up, P, B, C in *. lia. Qed.

  (** ** Slots *)

  Definition base (r : root) : bool :=
    match r with RReg _ => true | RCell (RReg _) _ _ => true | _ => false end.

  Lemma base_ev V V' s r : base r = true -> ev P L V s r = ev P L V' s r.
  Proof. destruct r as [| | | |[]| |]; simpl; intros; try discriminate; reflexivity. Qed.

  Lemma base_vroot p : base (vroot p) = true.
  Proof. destruct p; reflexivity. Qed.

  Lemma slots_base r o n : In (r, o, n) (slots A) -> base r = true.
  Proof.
    unfold slots. destruct (jump_s A) as [[SJ [pcv|]]|]; try (intros []).
    intros I. apply in_app_or in I as [I|I].
    - apply in_flat_map in I as (x & _ & I). apply in_map_iff in I as (y & E & _). injection E as <- _ _. reflexivity.
    - apply in_app_or in I as [I|I].
      + apply in_map_iff in I as (y & E & _). injection E as <- _ _. apply base_vroot.
      + apply in_app_or in I as [I|I].
        * destruct (ontop_s A) as [[SO [fv|]]|]; try (destruct I; fail).
          apply in_map_iff in I as (y & E & _). injection E as <- _ _. apply base_vroot.
        * apply in_app_or in I as [I|I].
          -- destruct (ab_hidden _) as [p|]; [|destruct I].
             destruct I as [E|[]]. injection E as <- _ _. apply base_vroot.
          -- destruct (c_spslot _) as [p|]; [|destruct I].
             destruct I as [E|[]]. injection E as <- _ _. reflexivity.
  Qed.

  Definition holds (m : Z -> Z) (h : Z) (s1 : mst) : Prop :=
    forall r o n, In (r, o, n) (slots A) -> load (cbig P) m (h + o) n = ev P L V0 s1 r.

  Lemma chk_slots_num known T r o n : chk_slots A known T = true -> In (r, o, n) (slots A) ->
    0 < n /\ 0 <= o /\ o + n <= F + up /\ slook known (sl T) (own A) (o - F) n = Some (r, 0).
  Proof.
    intros X I. unfold chk_slots in X. rewrite forallb_forall in X. specialize (X _ I). cbn beta iota in X.
    bsplit. apply Z.ltb_lt in H. apply Z.leb_le in H1, H2. fold C F B up in H1, H0.
    unfold is in H0. destruct (slook _ _ _ _ _) as [v|]; [|discriminate].
    apply sval_eqb_eq in H0. subst v. auto.
  Qed.

  Lemma slots_num r o n : In (r, o, n) (slots A) -> 0 < n /\ 0 <= o /\ o + n <= F + up.
  Proof.
    intros I. pose proof c_jmp as X. unfold chk_jump in X.
    destruct (jump_s A) as [[T [pcv|]]|]; try discriminate. bsplit.
    destruct (chk_slots_num _ _ _ _ _ H I) as (? & ? & ? & _). auto.
  Qed.

  Lemma saves regs known V s T t : In (own A, - F, up) regs ->
    env_ok P L V s -> regions_ok P regs L V s -> known_ok P known L V s ->
    sim P regs L V s T t -> chk_slots A known T = true -> holds (mm t) (handle A s) s.
  Proof.
    intros I OK RG KN SM X r o n J. destruct (chk_slots_num _ _ _ _ _ X J) as (N & O & U & E).
    replace (handle A s + o) with (ev P L V s (own A) + (o - F))
      by (rewrite own_ev; unfold handle; fold C F; lia).
    rewrite (sim_load P regs known L V s OK RG KN T t (own A) (o - F) n (r, 0) SM N).
    - rewrite evs0. apply base_ev. eapply slots_base; eauto.
    - unfold in_region. apply existsb_exists. exists (own A, - F, up). split; [exact I|].
      cbn beta iota. rewrite (proj2 (root_eqb_eq _ _) eq_refl). simpl.
      apply andb_true_intro; split; apply Z.leb_le; lia.
    - exact E.
  Qed.

  Lemma holds_ext m m' h s1 : holds m h s1 ->
    (forall a, h <= a < h + own_len A -> m' a = m a) -> holds m' h s1.
  Proof.
    intros H E r o n I. rewrite <- (H r o n I). destruct (slots_num _ _ _ I) as (? & ? & ?).
    apply load_ext. intros x X. apply E. unfold own_len. fold C F B up. lia.
  Qed.

  (** ** Places after the run *)

  Lemma spl_sound regs known V s T t p v :
    env_ok P L V s -> regions_ok P regs L V s -> known_ok P known L V s ->
    sim P regs L V s T t -> spl A regs known T p = Some v -> pl P t p = evs P L V s v.
  Proof.
    intros OK RG KN SM E. destruct p as [r|b o n]; cbn [spl pl] in *.
    - injection E as <-. apply (proj1 SM).
    - fold B P wb in E. destruct (_ && _ && _) eqn:X; [|discriminate]. bsplit.
      apply Z.leb_le in H. apply Z.ltb_lt in H1.
      rewrite (proj1 SM b), (evs_word P L V s OK) by exact H.
      pose proof space_p as SP. rewrite Z.add_mod_idemp_l by lia.
      pose proof (in_region_bound P regs L V s RG _ _ _ H0) as Bd.
      rewrite Z.mod_small by lia. rewrite <- Z.add_assoc.
      eapply sim_load; eauto.
  Qed.

  Lemma is_some x v : is x v = true -> x = Some v.
  Proof. destruct x; simpl; [|discriminate]. intros H. apply sval_eqb_eq in H. congruence. Qed.

  (** ** Switching to a suspended context *)

  Lemma tgt_ev V s : in_call s -> ev P L V s (tgt A) = arg_to A s /\ wd P (tgt A) = wb.
  Proof. intros H. apply vroot_ev; [exact H|]. apply p_to. Qed.

  Lemma slots_sp o : c_spslot C = Some o -> In (own A, o, wb) (slots A).
  Proof.
    intros E. pose proof c_jmp as X. unfold chk_jump in X. unfold slots.
    destruct (jump_s A) as [[T [pcv|]]|]; try discriminate.
    apply in_or_app. right. apply in_or_app. right. apply in_or_app. right. apply in_or_app. right.
    fold C. rewrite E. left. reflexivity.
  Qed.

  Lemma slots_hidden p : ab_hidden B = Some p -> In (vroot p, c_hid C, wb) (slots A).
  Proof.
    intros E. pose proof c_jmp as X. unfold chk_jump in X.
    unfold slots. destruct (jump_s A) as [[SJ [pcv|]]|]; try discriminate.
    apply in_or_app; right. apply in_or_app; right. apply in_or_app; right.
    fold B. rewrite E. left. reflexivity.
  Qed.

  Section Susp.
    Variables s s1 : mst.
    Hypothesis CS : call_ok A L s.
    Hypothesis CS1 : call_ok A L s1.
    Hypothesis HD : arg_to A s = handle A s1.
    Hypothesis HL : holds (mm s) (arg_to A s) s1.
    Hypothesis AP : apart A s (arg_to A s) (Susp s1).

    Lemma hidr_ev p : ab_hidden B = Some p -> ev P L V0 s (hidr A) = pl P s1 p.
    Proof.
      intros E. unfold hidr. cbn [ev]. rewrite (proj1 (tgt_ev V0 s (call_in _ CS))).
      fold B P C wb. rewrite (HL _ _ _ (slots_hidden p E)).
      apply vroot_ev; [apply call_in; exact CS1|]. apply p_hid. exact E.
    Qed.

    Lemma hidden_some p : ab_hidden B = Some p -> hidden A s1 = Some (pl P s1 p).
    Proof. intros E. unfold hidden. fold B P. rewrite E. reflexivity. Qed.

    Lemma susp_regions : regions_ok P (reg_susp A) L V0 s.
    Proof.
      pose proof abi_nums as N. pose proof (tgt_ev V0 s (call_in _ CS)) as [T _].
      destruct CS as (W & C0 & C1 & _). destruct CS1 as (W1 & D0 & D1 & _).
      destruct AP as [A1 A2].
      assert (HF : handle A s = sp A s - F) by reflexivity.
      assert (HF1 : handle A s1 = sp A s1 - F) by reflexivity.
      assert (OL : own_len A = F + up) by reflexivity.
      unfold disj in A1. rewrite OL, HF, HD in A1.
      fold C F in C0, D0. fold B up P in C1, D1.
      unfold reg_susp, has_hidden. fold B P wb C F up.
      destruct (ab_hidden B) as [p|] eqn:E.
      - pose proof (hidr_ev p E) as HH. rewrite (hidden_some p E) in A2. fold B P wb in A2.
        unfold disj in A2. rewrite OL, HF, HD in A2. destruct A2 as (A2 & A3 & A4 & A5).
        remember (2 * wb) as w2 eqn:W2.
        split.
        + intros r lo hi I. cbn [In app] in I.
          destruct I as [I|[I|[I|[]]]]; injection I as <- <- <-; rewrite ?own_ev, ?T, ?HH, ?HD; lia.
        + intros r lo hi r' lo' hi' I I' NE. cbn [In app] in I, I'.
          destruct I as [I|[I|[I|[]]]]; destruct I' as [I'|[I'|[I'|[]]]];
            injection I as <- <- <-; injection I' as <- <- <-; try congruence;
            rewrite ?own_ev, ?T, ?HH, ?HD; lia.
      - split.
        + intros r lo hi I. cbn [In app] in I.
          destruct I as [I|[I|[]]]; injection I as <- <- <-; rewrite ?own_ev, ?T, ?HD; lia.
        + intros r lo hi r' lo' hi' I I' NE. cbn [In app] in I, I'.
          destruct I as [I|[I|[]]]; destruct I' as [I'|[I'|[]]];
            injection I as <- <- <-; injection I' as <- <- <-; try congruence;
            rewrite ?own_ev, ?T, ?HD; lia.
    Qed.

    Lemma susp_nz : nz_ok P (nz_susp A) L V0 s.
    Proof.
      intros v I. unfold nz_susp, has_hidden in I. fold B in I.
      destruct (ab_hidden B) as [p|] eqn:E; [|destruct I]. destruct I as [<-|[]].
      rewrite evs0, (hidr_ev p E). destruct AP as [_ A2]. rewrite (hidden_some p E) in A2. lia.
    Qed.

    Lemma mod16 x b : ab_align B mod 16 = 0 -> (x + b) mod ab_align B = 0 -> x mod 16 = (- b) mod 16.
    Proof.
      intros H1 H2. pose proof abi_nums as N.
      apply Z.mod_divide in H1; [|lia]. apply Z.mod_divide in H2; [|lia].
      destruct (Z.divide_trans _ _ _ H1 H2) as (q & Q).
      replace x with (- b + q * 16) by lia. apply Z.mod_add. lia.
    Qed.

    Lemma susp_al : al_ok P (al_susp A) L V0 s.
    Proof.
      intros r z I. unfold al_susp in I. fold B C F in I.
      destruct (ab_align B mod 16 =? 0) eqn:E; [|destruct I]. apply Z.eqb_eq in E.
      destruct CS as (_ & _ & _ & X & _). destruct CS1 as (_ & _ & _ & X1 & _). fold B in X, X1.
      simpl in I. destruct I as [I|[I|[]]]; injection I as <- <-.
      - apply mod16; assumption.
      - rewrite (proj1 (tgt_ev V0 s (call_in _ CS))), HD. unfold handle. fold C F.
        pose proof (mod16 _ _ E X1) as Q.
        rewrite Zminus_mod, Q, <- Zminus_mod. reflexivity.
    Qed.

    Lemma susp_known : known_ok P (known_susp A) L V0 s.
    Proof.
      intros e J. unfold known_susp in J. fold C in J. destruct (c_spslot C) as [o|] eqn:E; [|destruct J].
      destruct J as [<-|[]]. cbn [w_root w_off w_len w_val].
      destruct (tgt_ev V0 s (call_in _ CS)) as [T TW]. fold B P wb. rewrite T.
      rewrite (HL _ _ _ (slots_sp o E)). rewrite own_ev.
      rewrite (evs_word P L V0 s (env0 s (proj1 CS))) by (cbn [fst]; fold B P; rewrite TW; pose proof abi_nums; unfold wb in *; lia).
      cbn [fst snd]. rewrite T, HD. unfold handle. fold C F. rewrite Z.mod_small; [lia|].
      pose proof CS1 as (_ & C0 & C1 & _). fold C F in C0. fold B up P in C1. pose proof abi_nums. lia.
    Qed.

    Lemma from_slot_ev r v : from_slot A r v = true -> evs P L V0 s v = ev P L V0 s1 r.
    Proof.
      unfold from_slot. rewrite existsb_exists. intros ([[r' o] n] & I & H). bsplit.
      apply root_eqb_eq in H. apply sval_eqb_eq in H0. subst r' v. rewrite evs0. cbn [ev].
      rewrite (proj1 (tgt_ev V0 s (call_in _ CS))). apply (HL _ _ _ I).
    Qed.

    Lemma susp_run c T f : srun P (reg_susp A) (known_susp A) (nz_susp A) (al_susp A) c S0 = Some (T, f) ->
      exists t, run P L c s = fin_of P L V0 s f t /\ sim P (reg_susp A) L V0 s T t /\ wf P t.
    Proof.
      intros E. pose proof (env0 s (proj1 CS)) as OK.
      destruct (srun_sound P (reg_susp A) (known_susp A) (nz_susp A) (al_susp A) L V0 s OK susp_regions susp_known
                  susp_nz susp_al c S0 s T f (sim_init _ _ _ _ _) (fits_init _) E) as (t & R & SM & FT).
      exists t. split; [exact R|]. split; [exact SM|].
      eapply sim_wf; eauto.
    Qed.

    Lemma evs_own_sp : evs P L V0 s (own A, - F) = handle A s.
    Proof.
      pose proof abi_nums as N. destruct CS as (W & C0 & C1 & _). fold C F in C0. fold B up P in C1.
      rewrite (evs_word P L V0 s (env0 s W)) by (simpl; unfold wb in N; fold B; lia).
      cbn [fst snd]. rewrite own_ev. unfold handle. fold C F. rewrite Z.mod_small; lia.
    Qed.

    Lemma evs_data : evs P L V0 s (vroot (ab_data B), 0) = arg_data A s.
    Proof. rewrite evs0. apply vroot_ev; [apply call_in; exact CS|]. apply p_data. Qed.

    Lemma susp_untouched k a T t : sim P (reg_susp A) L V0 s T t ->
      writes_in ((own A, - F, ab_wr B) ::
                 (if (match k with Ontop => true | Jump => false end) then [(tgt A, 0, F + up)] else []) ++
                 if has_hidden A then [(hidr A, 0, 2 * wb)] else []) T = true ->
      untouched A s (arg_to A s) (Susp s1) k a -> mm t a = mm s a.
    Proof.
      intros SM X (U1 & U2 & U3). eapply sim_frame; eauto. intros r lo hi I. cbn [In app] in I.
      destruct I as [I|I].
      - injection I as <- <- <-. rewrite own_ev. unfold handle in U1. fold C F B in U1. lia.
      - apply in_app_or in I as [I|I].
        + destruct k; [destruct I|]. destruct I as [I|[]]. injection I as <- <- <-.
          rewrite (proj1 (tgt_ev V0 s (call_in _ CS))). specialize (U3 eq_refl).
          unfold own_len in U3. fold C F B up in U3. lia.
        + unfold has_hidden in I. fold B in I. destruct (ab_hidden B) as [p|] eqn:E; [|destruct I].
          destruct I as [I|[]]. remember (2 * wb) as w2 eqn:W2. injection I as <- <- <-.
          rewrite (hidden_some p E) in U2. rewrite (hidr_ev p E). fold B P wb in U2. lia.
    Qed.

    Theorem jump_susp :
      exists t, switch A L Jump s = Goto (ret_addr A s1) t /\ wf P t /\
        returned A s1 (switch A L Jump s) t /\
        result A s1 t = (handle A s, arg_data A s) /\
        (forall r H, ab_hidret B = Some r -> hidden A s1 = Some H -> rg t r = H) /\
        holds (mm t) (handle A s) s /\
        (forall a, untouched A s (arg_to A s) (Susp s1) Jump a -> mm t a = mm s a).
    Proof.
      pose proof c_jmp as X. unfold chk_jump in X. fold B C P F up wb K in X.
      destruct (jump_s A) as [[T [pcv|]]|] eqn:E; try discriminate. bsplit.
      rename H into XS, H4 into XR, H3 into XP, H2 into XSP, H1 into XRES, H0 into XW.
      unfold jump_s in E. fold B C P in E.
      destruct (susp_run _ _ _ E) as (t & R & SM & Wt). cbn [fin_of] in R.
      pose proof (env0 s (proj1 CS)) as OK.
      assert (PC : evs P L V0 s pcv = ret_addr A s1).
      { rewrite (from_slot_ev _ _ XP). apply vroot_ev; [apply call_in; exact CS1|apply p_ret]. }
      assert (SW : switch A L Jump s = Goto (ret_addr A s1) t).
      { unfold switch. fold B C P. rewrite R, PC.
        destruct CS1 as (_ & _ & _ & _ & NE). apply Z.eqb_neq in NE. rewrite NE.
        destruct (c_tramp C); reflexivity. }
      exists t. split; [exact SW|]. split; [exact Wt|]. split; [|split; [|split; [|split]]].
      - split; [exact SW|]. split.
        + unfold sp. fold B. rewrite (proj1 SM). apply sval_eqb_eq in XSP. rewrite XSP.
          destruct (tgt_ev V0 s (call_in _ CS)) as [TE TW].
          rewrite (evs_word P L V0 s OK) by (cbn [fst]; rewrite TW; unfold wb; lia).
          cbn [fst snd]. rewrite TE, HD. unfold handle. fold C F. unfold sp. fold B.
          destruct CS1 as (_ & C0 & C1 & _). unfold sp in C0, C1. fold C F in C0. fold B up P in C0, C1.
          pose proof abi_nums as N. rewrite Z.mod_small; lia.
        + intros r I. rewrite (proj1 SM). rewrite forallb_forall in XR.
          rewrite (from_slot_ev _ _ (XR r (in_or_app _ _ _ (or_introl I)))). reflexivity.
      - unfold result. fold B P wb. unfold hidden at 1. fold B P.
        destruct (ab_hidden B) as [p|] eqn:EH; cbn [option_map].
        + bsplit. pose proof (hidr_ev p EH) as HE. apply is_some in H1, H2.
          rewrite <- HE. f_equal.
          * rewrite <- (Z.add_0_r (ev P L V0 s (hidr A))).
            rewrite (sim_load P _ _ L V0 s OK susp_regions susp_known T t (hidr A) 0 wb (own A, - F) SM);
              [apply evs_own_sp|..].
            -- apply abi_nums.
            -- apply (in_region_intro _ _ 0 (2 * wb)); [|pose proof abi_nums; lia..].
               unfold reg_susp, has_hidden. fold B P wb. rewrite EH. apply in_or_app. right. left. reflexivity.
            -- assumption.
          * rewrite (sim_load P _ _ L V0 s OK susp_regions susp_known T t (hidr A) wb wb (vroot (ab_data B), 0) SM);
              [apply evs_data|..].
            -- apply abi_nums.
            -- apply (in_region_intro _ _ 0 (2 * wb)); [|pose proof abi_nums; lia..].
               unfold reg_susp, has_hidden. fold B P wb. rewrite EH. apply in_or_app. right. left. reflexivity.
            -- assumption.
        + bsplit. apply is_some in H, H0.
          rewrite (spl_sound _ _ V0 s T t _ _ OK susp_regions susp_known SM H).
          rewrite (spl_sound _ _ V0 s T t _ _ OK susp_regions susp_known SM H0).
          rewrite evs_own_sp, evs_data. reflexivity.
      - intros r H EH Hid. unfold hidden in Hid. fold B P in Hid.
        destruct (ab_hidden B) as [p|] eqn:EP; [|discriminate]. injection Hid as <-.
        bsplit. rewrite EH in *. rewrite (proj1 SM).
        match goal with Q : sval_eqb (get T r) _ = true |- _ => apply sval_eqb_eq in Q; rewrite Q end.
        rewrite evs0. apply hidr_ev. exact EP.
      - eapply saves; eauto using susp_regions, susp_known. left. reflexivity.
      - intros a U. eapply (susp_untouched Jump); eauto.
    Qed.

    (** the registers that only jump restores *)
    Lemma jump_reg r pc t : In r (ab_jmp B) -> switch A L Jump s = Goto pc t -> rg t r = rg s1 r.
    Proof.
      intros I SW. pose proof c_jmp as X. unfold chk_jump in X. fold B C P F up wb K in X.
      destruct (jump_s A) as [[T [pcv|]]|] eqn:E; try discriminate. bsplit. rename H4 into XR, H3 into XP.
      unfold jump_s in E. fold B C P in E.
      destruct (susp_run _ _ _ E) as (t' & R & SM & Wt). cbn [fin_of] in R.
      assert (PC : evs P L V0 s pcv = ret_addr A s1).
      { rewrite (from_slot_ev _ _ XP). apply vroot_ev; [apply call_in; exact CS1|apply p_ret]. }
      unfold switch in SW. fold B C P in SW. rewrite R, PC in SW.
      destruct CS1 as (_ & _ & _ & _ & NE). apply Z.eqb_neq in NE. rewrite NE in SW.
      replace (match c_tramp C with [] => false | _ => false end) with false in SW by (destruct (c_tramp C); reflexivity).
      injection SW as _ <-. rewrite (proj1 SM). rewrite forallb_forall in XR.
      rewrite (from_slot_ev _ _ (XR r (in_or_app _ _ _ (or_intror I)))). reflexivity.
    Qed.

    Theorem ontop_susp : has_ontop A ->
      exists t, switch A L Ontop s = Goto (ontop_pc A L s) t /\ wf P t /\ ontop_fn A s t /\
        sp A t = sp A s1 /\ (forall r, In r (ab_saved B) -> rg t r = rg s1 r) /\
        ret_addr A t = ret_addr A s1 /\ hidden A t = hidden A s1 /\
        pair_at A t (ab_ont B) = (handle A s, arg_data A s) /\
        holds (mm t) (handle A s) s /\
        (forall a, untouched A s (arg_to A s) (Susp s1) Ontop a -> mm t a = mm s a).
    Proof.
      intros HO. pose proof c_ont as X0. assert (X : chk_ontop1 A = true).
      { unfold chk_ontop in X0. unfold has_ontop in HO.
        destruct (c_ontop (p_code A)); [congruence|exact X0]. }
      clear X0. unfold chk_ontop1 in X. fold B C P F up wb K in X.
      destruct (ontop_s A) as [[T [fnv|]]|] eqn:E; try discriminate.
      apply andb_true_iff in X as [X XW]. apply andb_true_iff in X as [X XHID].
      apply andb_true_iff in X as [X XD]. apply andb_true_iff in X as [X XH].
      apply andb_true_iff in X as [X XSP]. apply andb_true_iff in X as [X XRET].
      apply andb_true_iff in X as [X XF]. apply andb_true_iff in X as [XS XR].
      unfold ontop_s in E. fold B C P in E.
      destruct (susp_run _ _ _ E) as (t & R & SM & Wt). cbn [fin_of] in R.
      pose proof (env0 s (proj1 CS)) as OK.
      exists t. split; [|split; [exact Wt|split; [|split; [|split; [|split; [|split; [|split; [|split]]]]]]]].
      - unfold switch, ontop_pc. fold B C P. rewrite R. f_equal. destruct (c_tail C) as [[l p]|].
        + apply andb_true_iff in XF as [XF _]. apply sval_eqb_eq in XF. rewrite XF, evs0. reflexivity.
        + apply sval_eqb_eq in XF. rewrite XF, evs0. apply vroot_ev; [apply call_in; exact CS|apply p_fn].
      - unfold ontop_fn. fold B C P. destruct (c_tail C) as [[l p]|]; [|exact Logic.I].
        apply andb_true_iff in XF as [_ XF]. apply is_some in XF.
        rewrite (spl_sound _ _ V0 s T t _ _ OK susp_regions susp_known SM XF), evs0.
        apply vroot_ev; [apply call_in; exact CS|apply p_fn].
      - unfold sp. fold B. rewrite (proj1 SM). apply sval_eqb_eq in XSP. rewrite XSP.
        destruct (tgt_ev V0 s (call_in _ CS)) as [TE TW].
        rewrite (evs_word P L V0 s OK) by (cbn [fst]; rewrite TW; unfold wb; lia).
        cbn [fst snd]. rewrite TE, HD. unfold handle. fold C F. unfold sp. fold B.
        destruct CS1 as (_ & C0 & C1 & _). unfold sp in C0, C1. fold C F in C0. fold B up P in C0, C1.
        pose proof abi_nums as N. rewrite Z.mod_small; lia.
      - intros r I. rewrite (proj1 SM). rewrite forallb_forall in XR.
        rewrite (from_slot_ev _ _ (XR r I)). reflexivity.
      - unfold ret_addr. fold B P. destruct (spl _ _ _ _ (ab_ret B)) as [v|] eqn:EV; [|discriminate].
        rewrite (spl_sound _ _ V0 s T t _ _ OK susp_regions susp_known SM EV).
        rewrite (from_slot_ev _ _ XRET). apply vroot_ev; [apply call_in; exact CS1|apply p_ret].
      - unfold hidden. fold B P. destruct (ab_hidden B) as [p|] eqn:EH; [|reflexivity].
        cbn [option_map]. f_equal. apply andb_true_iff in XHID as [_ XHID]. apply is_some in XHID.
        rewrite (spl_sound _ _ V0 s T t _ _ OK susp_regions susp_known SM XHID), evs0.
        apply hidr_ev. exact EH.
      - unfold pair_at. fold B P. apply is_some in XH, XD.
        rewrite (spl_sound _ _ V0 s T t _ _ OK susp_regions susp_known SM XH).
        rewrite (spl_sound _ _ V0 s T t _ _ OK susp_regions susp_known SM XD).
        rewrite evs_own_sp, evs_data. reflexivity.
      - eapply saves; eauto using susp_regions, susp_known. left. reflexivity.
      - intros a U. eapply (susp_untouched Ontop); eauto.
    Qed.

    (** any register that the symbolic run leaves with the function argument *)
    Lemma ontop_val T f t pc r v : ontop_s A = Some (T, f) -> get T r = v ->
      switch A L Ontop s = Goto pc t -> rg t r = evs P L V0 s v.
    Proof.
      intros E G SW. unfold ontop_s in E. fold B C P in E.
      destruct (susp_run _ _ _ E) as (t' & R & SM & _). unfold switch in SW. fold B C P in SW.
      rewrite R in SW. destruct f as [w|w]; cbn [fin_of] in SW; [|discriminate]. injection SW as _ <-.
      rewrite (proj1 SM), G. reflexivity.
    Qed.
    Lemma ontop_reg T f t pc r : ontop_s A = Some (T, f) -> get T r = (vroot (ab_fn B), 0) ->
      switch A L Ontop s = Goto pc t -> rg t r = arg_fn A s.
    Proof.
      intros E G SW. unfold ontop_s in E. fold B C P in E.
      destruct (susp_run _ _ _ E) as (t' & R & SM & _). unfold switch in SW. fold B C P in SW.
      rewrite R in SW. destruct f as [v|v]; cbn [fin_of] in SW; [|discriminate]. injection SW as _ <-.
      rewrite (proj1 SM), G, evs0. apply vroot_ev; [apply call_in; exact CS|apply p_fn].
    Qed.
  End Susp.

  (** ** make *)

  Lemma space2 : space P = 2 ^ (8 * wb).
  Proof. unfold space. fold wb. change 256 with (2 ^ 8). rewrite <- Z.pow_mul_r; try lia. pose proof abi_nums. lia. Qed.

  Section Make.
    Variable s : mst.
    Hypothesis MS : make_ok A s.

    Definition aligned_top : Z := ev P L V0 s (mroot A).

    Lemma top_ev : aligned_top =
      (mk_top A s + c_mkoff C) - (mk_top A s + c_mkoff C) mod c_mkal C.
    Proof.
      pose proof abi_nums as N. pose proof space_p as SP.
      unfold aligned_top, mroot. cbn [ev]. fold B C P.
      rewrite (proj1 (vroot_ev V0 s _ (make_in _ MS) p_mksp)).
      destruct MS as (W & M0 & M1 & M2 & _). fold B C P in M2. unfold c_need in M2. fold K in M2.
      unfold mk_top in *. fold B P in M2 |- *. remember (pl P s (ab_mksp B)) as top.
      rewrite (Z.mod_small (top + c_mkoff C)) by lia.
      assert (E : (- c_mkal C) mod space P = wnot (8 * wb) (2 ^ Z.log2 (c_mkal C) - 1)).
      { unfold wnot. rewrite <- space2. destruct N as (N0 & _ & _ & _ & _ & N1 & N2 & N3 & _). rewrite N2.
        destruct (Z.eq_dec (c_mkal C) (space P)) as [Q|Q].
        - rewrite Q. rewrite Z.mod_opp_l_z; [lia|lia|]. apply Z.mod_same. lia.
        - assert (c_mkal C <= space P).
          { rewrite <- N2, space2. apply Z.pow_le_mono_r; lia. }
          rewrite Z.mod_opp_l_nz; try lia; rewrite Z.mod_small; lia. }
      rewrite E, land_align.
      - destruct N as (_ & _ & _ & _ & _ & _ & -> & _). reflexivity.
      - split; [apply Z.log2_nonneg|]. lia.
      - unfold is_word. rewrite <- space2. lia.
    Qed.

    Lemma top_range : mk_top A s - c_need C <= aligned_top - K /\ aligned_top <= mk_top A s /\
      aligned_top mod c_mkal C = 0 /\ 0 <= aligned_top - K.
    Proof.
      pose proof abi_nums as N. rewrite top_ev.
      destruct MS as (W & M0 & M1 & M2 & _). fold B C P in M2. unfold c_need in *. fold K in M2 |- *.
      pose proof (Z.mod_pos_bound (mk_top A s + c_mkoff C) (c_mkal C)) as Q.
      split; [lia|]. split; [lia|]. split; [|lia].
      rewrite Zminus_mod_idemp_r, Z.sub_diag. apply Z.mod_0_l. lia.
    Qed.

    Lemma make_regions : regions_ok P (reg_make A) L V0 s.
    Proof.
      pose proof abi_nums as N. pose proof top_range as T. unfold aligned_top in T.
      destruct MS as (W & M0 & M1 & M2 & M3). fold B C P K up in M0, M1, M2, M3. unfold disj in M3.
      unfold reg_make. fold B C P K up. split.
      - intros r lo hi I. cbn [In] in I. destruct I as [I|[I|[]]]; injection I as <- <- <-; rewrite ?own_ev; lia.
      - intros r lo hi r' lo' hi' I I' NE. cbn [In] in I, I'.
        destruct I as [I|[I|[]]]; destruct I' as [I'|[I'|[]]];
          injection I as <- <- <-; injection I' as <- <- <-; try congruence; rewrite ?own_ev; lia.
    Qed.

    Theorem make_runs :
      exists t T pcv, make_s A = Some (T, FGo pcv) /\ run P L (c_make C) s = Goto (ret_addr A s) t /\ wf P t /\
        sim P (reg_make A) L V0 s T t /\
        sp A t = sp A s + ab_pop0 B /\ (forall r, In r (ab_saved B) -> rg t r = rg s r) /\
        rg t (ab_mkres B) = aligned_top - K /\
        (forall a, ~ (sp A s - c_mkscr C <= a < sp A s) -> ~ (aligned_top - K <= a < aligned_top) ->
           mm t a = mm s a).
    Proof.
      pose proof c_mk as X. unfold chk_make in X. fold B C P K up in X.
      destruct (make_s A) as [[T [pcv|]]|] eqn:E; try discriminate. 
      apply andb_true_iff in X as [X XW]. apply andb_true_iff in X as [X XRES].
      apply andb_true_iff in X as [X XSP]. apply andb_true_iff in X as [XP XR].
      unfold make_s in E. fold B C P in E. pose proof (env0 s (proj1 MS)) as OK.
      assert (KN : known_ok P [] L V0 s) by (intros e []).
      assert (NZ : nz_ok P [] L V0 s) by (intros e []).
      assert (AL : al_ok P [] L V0 s) by (intros e z []).
      destruct (srun_sound P (reg_make A) [] [] [] L V0 s OK make_regions KN NZ AL _ S0 s T _
                  (sim_init _ _ _ _ _) (fits_init _) E) as (t & R & SM & FT).
      cbn [fin_of] in R. pose proof abi_nums as N. pose proof top_range as TR.
      pose proof MS as (W & M0 & M1 & M2 & M3). fold B C P K up in M0, M1, M2, M3.
      exists t, T, pcv. split; [reflexivity|]. split; [|split; [eapply sim_wf; eauto|split; [exact SM|split; [|split; [|split]]]]].
      - rewrite R. f_equal. apply sval_eqb_eq in XP. rewrite XP, evs0.
        apply vroot_ev; [apply make_in; exact MS|apply p_ret].
      - unfold sp. fold B. rewrite (proj1 SM). apply sval_eqb_eq in XSP. rewrite XSP.
        rewrite (evs_word P L V0 s OK) by (cbn [fst wd own]; fold B; unfold wb in N; lia).
        cbn [fst snd]. rewrite own_ev. rewrite Z.mod_small; [reflexivity|lia].
      - intros r I. rewrite (proj1 SM). rewrite forallb_forall in XR.
        specialize (XR r I). apply sval_eqb_eq in XR. rewrite XR. reflexivity.
      - rewrite (proj1 SM). apply sval_eqb_eq in XRES. rewrite XRES.
        rewrite (evs_word P L V0 s OK) by (cbn [fst wd mroot]; unfold wb; lia).
        cbn [fst snd]. fold aligned_top. rewrite Z.mod_small; lia.
      - intros a U1 U2. eapply sim_frame; eauto. intros r lo hi I. cbn [In] in I.
        destruct I as [I|[I|[]]]; injection I as <- <- <-; rewrite ?own_ev; fold aligned_top; lia.
    Qed.
  End Make.

  (** ** The first jump to a new context *)

  Definition V1 (s0 : mst) : root -> Z := fun r => ev P L V0 s0 r.

  Lemma env1 s0 s : wf P s0 -> wf P s -> env_ok P L (V1 s0) s.
  Proof.
    intros W0 W. pose proof abi_nums as (N & _). split; [exact N|]. split; [exact W|]. split; [exact LAB|].
    intros r. apply ev_range. apply env0. exact W0.
  Qed.

  Section Fresh.
    Variables s0 t0 s : mst.
    Variable T0 : sst.
    Variable f0 : sfin.
    Hypothesis M0 : make_ok A s0.
    Hypothesis E0 : make_s A = Some (T0, f0).
    Hypothesis SM0 : sim P (reg_make A) L V0 s0 T0 t0.
    Hypothesis CS : call_ok A L s.
    Let h := aligned_top s0 - K.
    Hypothesis HD : arg_to A s = h.
    Hypothesis MEM : forall a, h <= a < h + K -> mm s a = mm t0 a.
    Hypothesis AP : apart A s h (Made s0).

    Let V := V1 s0.

    Lemma fresh_env : env_ok P L V s.
    Proof. apply env1; [exact (proj1 M0)|exact (proj1 CS)]. Qed.

    Lemma fresh_tgt : ev P L V s (tgt A) = h /\ wd P (tgt A) = wb.
    Proof. rewrite <- HD. apply tgt_ev. apply call_in. exact CS. Qed.

    Lemma tr_sound v v' : tr A v = Some v' -> evs P L V0 s0 v = evs P L V s v'.
    Proof.
      pose proof (env0 s0 (proj1 M0)) as OK0. pose proof fresh_env as OK. destruct fresh_tgt as [TE TW].
      unfold tr. destruct (root_eqb (fst v) (mroot A)) eqn:E.
      - apply root_eqb_eq in E. intros Q; injection Q as <-. destruct v as [r o]; cbn [fst snd] in *. subst r.
        rewrite (evs_word P L V0 s0 OK0) by (cbn; unfold wb; lia).
        rewrite (evs_word P L V s OK) by (cbn [fst]; rewrite TW; unfold wb; lia).
        cbn [fst snd]. rewrite TE. unfold h, aligned_top. f_equal. fold C K. lia.
      - destruct v as [r o]; cbn [fst snd] in *.
        destruct r; try (intros Q; injection Q as <-; reflexivity);
          (destruct (o =? 0) eqn:O; [|discriminate]; intros Q; injection Q as <-;
           unfold evs; cbn [fst snd]; rewrite O; reflexivity).
    Qed.

    Lemma fresh_known : known_ok P (known_fresh A) L V s.
    Proof.
      intros e I. unfold known_fresh in I. rewrite E0 in I. fold B C P K in I.
      apply in_flat_map in I as (e0 & I0 & I).
      destruct (_ && _ && _) eqn:X; [|destruct I].
      apply andb_true_iff in X as [X XR]. apply andb_true_iff in X as [_ XN]. apply Z.ltb_lt in XN.
      destruct (slook [] (sl T0) _ _ _) as [v|] eqn:SL; [|destruct I].
      destruct (tr A v) as [v'|] eqn:TR; [|destruct I]. destruct I as [<-|[]].
      cbn [w_root w_off w_len w_val]. rewrite (proj1 fresh_tgt).
      pose proof (env0 s0 (proj1 M0)) as OK0.
      assert (KN0 : known_ok P [] L V0 s0) by (intros e []).
      rewrite <- (tr_sound _ _ TR).
      rewrite <- (sim_load P (reg_make A) [] L V0 s0 OK0 (make_regions s0 M0) KN0 T0 t0 (mroot A)
                   (w_off e0) (w_len e0) v SM0 XN XR SL).
      replace (h + (w_off e0 + K)) with (ev P L V0 s0 (mroot A) + w_off e0)
        by (unfold h, aligned_top; lia).
      apply load_ext. intros x Hx. apply MEM.
      apply in_region_spec in XR as (lo & hi & I & ? & ?). unfold reg_make in I. fold B C K up in I.
      cbn [In] in I. destruct I as [I|[I|[]]].
      - exfalso. injection I as I _ _. discriminate I.
      - injection I as <- <-. unfold h, aligned_top. lia.
    Qed.

    Lemma fresh_regions : regions_ok P (reg_fresh A) L V s.
    Proof.
      pose proof abi_nums as N. pose proof (top_range s0 M0) as T. destruct fresh_tgt as [TE _].
      pose proof CS as (W & C0 & C1 & _). fold C F in C0. fold B up P in C1.
      destruct M0 as (_ & _ & _ & M2 & _). fold B C P in M2.
      unfold apart in AP. fold C K in AP. unfold disj, own_len, handle in AP. fold C F B up in AP.
      unfold reg_fresh. fold B C F up K. unfold h in *. split.
      - intros r lo hi I. cbn [In] in I. destruct I as [I|[I|[]]]; injection I as <- <- <-;
          rewrite ?own_ev, ?TE; lia.
      - intros r lo hi r' lo' hi' I I' NE. cbn [In] in I, I'.
        destruct I as [I|[I|[]]]; destruct I' as [I'|[I'|[]]];
          injection I as <- <- <-; injection I' as <- <- <-; try congruence; rewrite ?own_ev, ?TE; lia.
    Qed.

    Lemma fresh_al : al_ok P (al_fresh A) L V s.
    Proof.
      intros r z I. unfold al_fresh in I. fold B C K in I.
      destruct ((ab_align B mod 16 =? 0) && (c_mkal C mod 16 =? 0)) eqn:E; [|destruct I].
      apply andb_true_iff in E as [E1 E2]. apply Z.eqb_eq in E1, E2.
      pose proof CS as (_ & _ & _ & X & _). fold B in X.
      cbn [In] in I. destruct I as [I|[I|[]]]; injection I as <- <-.
      - apply mod16; assumption.
      - rewrite (proj1 fresh_tgt). unfold h. destruct (top_range s0 M0) as (_ & _ & Q & _).
        pose proof abi_nums as N.
        apply Z.mod_divide in Q; [|lia]. apply Z.mod_divide in E2; [|lia].
        destruct (Z.divide_trans _ _ _ E2 Q) as (q & Y). rewrite Y.
        replace (q * 16 - K) with (- K + q * 16) by lia. apply Z.mod_add. lia.
    Qed.

    Lemma fresh_run : exists T pcv t, fresh_s A = Some (T, FGo pcv) /\
      switch A L Jump s = Goto (evs P L V s pcv) t /\ sim P (reg_fresh A) L V s T t /\ wf P t.
    Proof.
      pose proof c_fr as X. unfold chk_fresh in X.
      assert (NZ : nz_ok P [] L V s) by (intros e []).
      assert (GO : exists T pcv, fresh_s A = Some (T, FGo pcv)).
      { destruct (fresh_s A) as [[T [pcv|]]|]; try discriminate. eauto. }
      destruct GO as (T & pcv & E). exists T, pcv. rewrite E. unfold fresh_s in E. fold C in E.
      destruct (fresh1_s A) as [[T1 [v1|]]|] eqn:E1; try discriminate.
      unfold fresh1_s in E1. fold B C P in E1.
      destruct (srun_sound P (reg_fresh A) (known_fresh A) [] (al_fresh A) L V s fresh_env fresh_regions
                  fresh_known NZ fresh_al _ S0 s T1 _ (sim_init _ _ _ _ _) (fits_init _) E1)
        as (t1 & R1 & SM1 & FT1). cbn [fin_of] in R1.
      unfold switch. fold B C P. rewrite R1.
      destruct (c_tramp C) as [|i c] eqn:EC.
      - injection E as <- <-. exists t1. split; [reflexivity|]. split; [reflexivity|]. split; [exact SM1|].
        eapply sim_wf; eauto using fresh_env.
      - destruct (sval_eqb v1 _) eqn:Q; [|discriminate]. apply sval_eqb_eq in Q. subst v1.
        change (evs P L V s (RLab "trampoline"%string, 0)) with (L "trampoline"%string). rewrite Z.eqb_refl.
        fold B P in E.
        destruct (srun_sound P (reg_fresh A) (known_fresh A) [] (al_fresh A) L V s fresh_env fresh_regions
                  fresh_known NZ fresh_al _ T1 t1 T _ SM1 FT1 E) as (t & R & SM & FT).
        exists t. split; [reflexivity|]. split; [exact R|]. split; [exact SM|].
        eapply sim_wf; eauto using fresh_env.
    Qed.

    Lemma evs_own_sp1 : evs P L V s (own A, - F) = handle A s.
    Proof.
      pose proof abi_nums as N. pose proof CS as (W & C0 & C1 & _). fold C F in C0. fold B up P in C1.
      rewrite (evs_word P L V s fresh_env) by (simpl; unfold wb in N; fold B; lia).
      cbn [fst snd]. rewrite own_ev. unfold handle. fold C F. rewrite Z.mod_small; lia.
    Qed.

    Lemma fresh_fn : evs P L V s (RVar (vroot (ab_mkfn B)), 0) = mk_fn A s0.
    Proof.
      rewrite evs0. cbn [ev]. unfold V, V1. apply vroot_ev; [apply make_in; exact M0|apply p_mkfn].
    Qed.

    (** [ent] is the offset of the stack pointer at entry *)
    Theorem jump_fresh :
      exists t T, fresh_s A = Some (T, FGo (RVar (vroot (ab_mkfn B)), 0)) /\
        sim P (reg_fresh A) L V s T t /\
        switch A L Jump s = Goto (mk_fn A s0) t /\ wf P t /\
        pair_at A t (ab_ent B) = (handle A s, arg_data A s) /\
        ret_addr A t = L "finish"%string /\
        sp A t = h + ent_off A T /\ 0 <= ent_off A T <= K /\
        ent_off A T + ab_pop0 B + ab_home B <= K /\
        (sp A t + ab_bias B) mod ab_align B = 0 /\
        (forall r, In r (ab_ctl B) -> rg t r = rg s0 r) /\
        holds (mm t) (handle A s) s /\
        (forall a, untouched A s h (Made s0) Jump a -> mm t a = mm s a).
    Proof.
      destruct fresh_run as (T & pcv & t & E & R & SM & Wt).
      pose proof c_fr as X. unfold chk_fresh in X. rewrite E in X. fold B C P F up wb K in X.
      apply andb_true_iff in X as [X XHOME]. apply Z.leb_le in XHOME.
      apply andb_true_iff in X as [X XW]. apply andb_true_iff in X as [X XCTL].
      apply andb_true_iff in X as [X XAL2]. apply andb_true_iff in X as [X XAL1].
      apply andb_true_iff in X as [X XK]. apply andb_true_iff in X as [X XK0].
      apply andb_true_iff in X as [X XSP]. apply andb_true_iff in X as [X XRET].
      apply andb_true_iff in X as [X XD]. apply andb_true_iff in X as [X XH].
      apply andb_true_iff in X as [XS XP].
      apply sval_eqb_eq in XP. subst pcv. apply root_eqb_eq in XSP.
      apply Z.leb_le in XK, XK0. apply Z.eqb_eq in XAL1, XAL2.
      apply is_some in XH, XD, XRET.
      pose proof abi_nums as N. pose proof (top_range s0 M0) as TR.
      destruct fresh_tgt as [TE TW].
      assert (SPT : sp A t = h + ent_off A T).
      { unfold sp. fold B. rewrite (proj1 SM).
        rewrite (evs_word P L V s fresh_env) by (fold B in XSP; rewrite XSP, TW; unfold wb; lia).
        fold B in XSP. rewrite XSP, TE. unfold ent_off. fold B. apply Z.mod_small.
        unfold ent_off in XK, XK0. fold B in XK, XK0. unfold h in *.
        destruct M0 as (_ & _ & _ & M2 & _). fold B C P in M2. lia. }
      exists t, T. split; [exact E|]. split; [exact SM|]. split.
      { rewrite R. f_equal. rewrite evs0. cbn [ev]. unfold V, V1.
        apply vroot_ev; [apply make_in; exact M0|apply p_mkfn]. }
      split; [exact Wt|]. split; [|split; [|split; [exact SPT|split; [lia|split; [exact XHOME|split; [|split; [|split]]]]]]].
      - unfold pair_at. fold B P.
        rewrite (spl_sound _ _ V s T t _ _ fresh_env fresh_regions fresh_known SM XH).
        rewrite (spl_sound _ _ V s T t _ _ fresh_env fresh_regions fresh_known SM XD).
        rewrite evs_own_sp1, evs0. f_equal. apply vroot_ev; [apply call_in; exact CS|apply p_data].
      - unfold ret_addr. fold B P.
        rewrite (spl_sound _ _ V s T t _ _ fresh_env fresh_regions fresh_known SM XRET). reflexivity.
      - rewrite SPT. unfold h. destruct TR as (_ & _ & Q & _).
        apply Z.mod_divide in Q; [|lia]. apply Z.mod_divide in XAL1; [|lia]. apply Z.mod_divide in XAL2; [|lia].
        apply Z.mod_divide; [lia|].
        replace (aligned_top s0 - K + ent_off A T + ab_bias B)
          with (aligned_top s0 + (ent_off A T - K + ab_bias B)) by lia.
        apply Z.divide_add_r; [exact (Z.divide_trans _ _ _ XAL1 Q)|exact XAL2].
      - intros r I. rewrite (proj1 SM). rewrite forallb_forall in XCTL. specialize (XCTL r I).
        apply sval_eqb_eq in XCTL. rewrite XCTL. reflexivity.
      - eapply saves; eauto using fresh_regions, fresh_known, fresh_env. left. reflexivity.
      - intros a [U1 U2]. eapply sim_frame; eauto. intros r lo hi I. cbn [In] in I.
        unfold handle in U1. fold C F B K in U1, U2.
        destruct I as [I|[I|[]]]; injection I as <- <- <-; rewrite ?own_ev, ?TE; lia.
    Qed.
  End Fresh.

  (** ** Contexts *)

  Definition ctxfacts (m : Z -> Z) (h : Z) (o : origin) : Prop :=
    match o with
    | Susp s1 => call_ok A L s1 /\ h = handle A s1 /\ holds m h s1
    | Made s0 => make_ok A s0 /\ h = aligned_top s0 - K /\
        exists t0 T0 f0, make_s A = Some (T0, f0) /\ sim P (reg_make A) L V0 s0 T0 t0 /\
          forall a, h <= a < h + K -> m a = mm t0 a
    end.

  Theorem context_facts m h o : context A L m h o -> ctxfacts m h o.
  Proof.
    induction 1 as [s pc t m MS R M|s k o pc t m CS _ IH AP KO SW M].
    - destruct (make_runs s MS) as (t' & T & pcv & E & R' & _ & SM & _ & _ & RES & _).
      fold B C P in R, M |- *. rewrite R' in R. injection R as _ <-. simpl. split; [exact MS|].
      split; [exact RES|]. exists t', T, (FGo pcv). auto.
    - simpl. split; [exact CS|]. split; [reflexivity|].
      apply holds_ext with (m := mm t); [|exact M].
      destruct o as [s0|s1].
      + destruct k; [|destruct (KO eq_refl) as (? & ?); discriminate].
        destruct IH as (M0 & HD & t0 & T0 & f0 & E0 & SM0 & MEM). rewrite HD in AP, MEM.
        destruct (jump_fresh s0 t0 s T0 f0 M0 E0 SM0 CS HD MEM AP)
          as (t' & T & _ & _ & SW' & _ & _ & _ & _ & _ & _ & _ & _ & HL & _).
        rewrite SW in SW'. injection SW' as _ <-. exact HL.
      + destruct IH as (CS1 & HD & HL1). destruct k.
        * destruct (jump_susp s s1 CS CS1 HD HL1 AP) as (t' & SW' & _ & _ & _ & _ & HL & _).
          rewrite SW in SW'. injection SW' as _ <-. exact HL.
        * assert (HO : has_ontop A).
          { intros Q. unfold switch in SW. rewrite Q in SW. discriminate. }
          destruct (ontop_susp s s1 CS CS1 HD HL1 AP HO) as (t' & SW' & _ & _ & _ & _ & _ & _ & _ & HL & _).
          rewrite SW in SW'. injection SW' as _ <-. exact HL.
  Qed.
End Facts.
