(** * C54: fibers with the stack allocators of the library

    The allocator classes (C23, C24), the histories of fibers (C05) and the machine (C53) fit together. *)
From Coq Require Import ZArith List String Lia Bool Permutation.
From Verif Require Import ListUtil Fiber FiberSpec LinkHist P_Fiber3 Layout LayoutFacts Alloc AllocFacts P_Memory.
From Verif Require Import Word AsmMachine AsmSym AsmAbi AsmCheck AsmCode AsmCode2 AsmFacts AsmHist P_Asm AsmWit Link P_Link LinkMem P_LinkMem LinkOs.
Import ListNotations.
Open Scope list_scope.
Open Scope Z_scope.

Lemma alloc_of_in tr c a : alloc_of tr c = Some a -> In (EvAlloc c a) tr.
Proof.
  induction tr as [|e tr IH]; cbn; [discriminate|]. intros H. destruct e; try (right; apply IH; exact H).
  destruct (Nat.eqb_spec c0 c) as [->|_]; [injection H as ->; left; reflexivity|right; apply IH; exact H].
Qed.
Lemma alloc_of_none tr c : alloc_of tr c = None -> forall a, ~ In (EvAlloc c a) tr.
Proof.
  induction tr as [|e tr IH]; cbn; [intros _ a []|]. intros H a.
  destruct e; try (intros [Q|Q]; [discriminate|]; exact (IH H a Q)).
  destruct (Nat.eqb_spec c0 c) as [->|N]; [discriminate|]. intros [Q|Q]; [injection Q as -> _; congruence|exact (IH H a Q)].
Qed.
Lemma alloc_of_good n tr c a : good n tr -> In (EvAlloc c a) tr -> alloc_of tr c = Some a.
Proof.
  induction tr as [|e tr IH]; intros G [].
  - subst e. cbn. rewrite Nat.eqb_refl. reflexivity.
  - specialize (IH (good_tl _ _ _ G) H). destruct e; cbn; try exact IH.
    destruct (Nat.eqb_spec c0 c) as [->|_]; [|exact IH]. exfalso.
    destruct (good_hd _ _ _ G) as (_ & _ & (_ & _ & NEW) & _). apply (NEW _ H). reflexivity.
Qed.

Lemma bits_pos A : In A ports -> 0 <= bits A.
Proof. intros IN. unfold bits. pose proof (words A IN) as (W & _). unfold cpu_of in W. lia. Qed.
Lemma entry_bounds A pg w e : In A ports -> rinv (bits A) pg w -> In e (w_out w) ->
  0 < sc_sp (snd e) - sc_size (snd e) <= sc_sp (snd e) /\ 0 <= sc_size (snd e) /\ sc_sp (snd e) < space (ab_cpu (p_abi A)).
Proof.
  intros IN R H. pose proof (wi_ok _ _ (ri_w _ _ _ R)) as O. rewrite Forall_forall in O. destruct (O _ H) as (O1 & O2 & O3).
  rewrite (bits_space A IN) in O3. unfold cpu_of in O3. lia.
Qed.

Section P.
  Variable A : port.
  Variable L : string -> Z.
  Variable n : nat.
  Variables rs off : nat -> Z.
  Variable keep : nat -> Z -> Prop.
  Variable pg : Z.
  Variable kind : nat -> akind.
  Variable ssize : nat -> Z.
  Hypothesis IN : In A ports.
  Hypothesis LAB : labels_ok A L.
  Hypothesis KO : keep_ok A rs off keep.
  Hypothesis PG : 0 < pg.
  Notation oexec := (oexec A L n rs off keep pg kind ssize).
  Notation lexec := (lexec A L n rs off keep).
  Notation entry := (entry kind).

  Record oinv (tr : list event) (M : mach) (blk : nat -> preallocated) (w : world) (oth : list (akind * stack_context)) : Prop := {
    o_lexec : lexec tr M blk;
    o_rinv : rinv (bits A) pg w;
    o_all : exists l, NoDup l /\ (forall c, In c l <-> has_stack n tr c) /\ Permutation (w_out w) (map (entry tr blk) l ++ oth)
  }.

  Lemma alloc_apart w k sz p w' e : rinv (bits A) pg w -> sane (bits A) pg (OAlloc k sz (Some p) true) ->
    wstep (bits A) w (OAlloc k sz (Some p) true) = WOk w' -> In e (w_out w) ->
    exists s, w_out w' = (k, s) :: w_out w /\
      (sc_sp s <= sc_sp (snd e) - sc_size (snd e) \/ sc_sp (snd e) <= sc_sp s - sc_size s).
  Proof.
    intros R SN ST HI. pose proof (sane_request _ _ _ PG SN) as RO. cbn [request_ok] in RO.
    pose proof (out_block _ _ _ (ri_w _ _ _ R) HI) as HB.
    pose proof (C24_allocate (bits A) w k sz (Some p) true RO) as X. cbv beta iota in X. rewrite ST in X. destruct X as (s & E1 & E2 & E3 & _).
    exists s. split; [exact E1|]. cbn [wstep] in ST.
    destruct (answer_ok (bits A) w k (request (bits A) k sz) p) eqn:Ea; [|discriminate].
    destruct (answer_ok_spec _ _ _ _ _ Ea) as (_ & _ & A3).
    assert (O : overlap (p, request (bits A) k sz) (block_of e) = false).
    { destruct (overlap _ _) eqn:Eo; [|reflexivity]. rewrite <- A3. symmetry. apply existsb_exists. exists (block_of e). auto. }
    assert (SZ : sc_size s = request (bits A) k sz).
    { destruct (page_of k); injection ST as <-; cbn in E2; injection E2 as E2; auto. }
    unfold overlap, block_of, LinkOs.entry in O. cbn [fst snd] in O. apply andb_false_iff in O. rewrite !Z.ltb_ge in O. lia.
  Qed.

  Lemma oexec_inv tr M blk w oth : oexec tr M blk w oth -> good n tr -> oinv tr M blk w oth.
  Proof.
    intros X. pose proof (bits_pos A IN) as BP.
    induction X as [M blk boot w oth W Bd SN RN PE|tr M blk w oth t s X IH Ht W U K|tr M blk w oth o w' oth' X IH SN ST OT
                   |tr M blk w oth e X IH Q|tr M blk w oth c a p w' b X IH SN ST WO LG|tr M blk w oth c a on i w' X IH EI ST
                   |tr M blk w oth t from me to pc s0 s pc' t' X IH Ht s00 d p SC MT O1 O2 R W U U' K CS AT AD OS SW
                   |tr M blk w oth t from me to k pc t' X IH Ht K s CS AT OS AD SW]; intros G.
    - (* start *)
      pose proof (wrun_rinv _ _ _ BP PG _ _ (rinv0 (bits A) pg) SN RN) as RI.
      assert (IL : forall c, (c < n)%nat -> In (entry [] blk c) (w_out w)).
      { intros c Hc. eapply Permutation_in; [apply Permutation_sym; exact PE|]. apply in_or_app. left. apply in_map. apply in_seq. lia. }
      split; [|exact RI|].
      + apply l_start; [exact W| |].
        * intros c Hc. destruct (Bd c Hc) as (-> & ->). destruct (entry_bounds A pg w _ IN RI (IL c Hc)) as (E1 & E2 & E3). cbn in E1, E2, E3.
          unfold blk_lo, blk_hi. split; [reflexivity|]. split; [reflexivity|]. split; [lia|exact E3].
        * intros c d Hc Hd N. pose proof (wi_disj _ _ (ri_w _ _ _ RI)) as D.
          assert (P2 : Permutation (w_live w) (map block_of (map (entry [] blk) (seq 0 n) ++ oth))).
          { eapply perm_trans; [apply (wi_perm _ _ (ri_w _ _ _ RI))|]. apply Permutation_map. exact PE. }
          pose proof (disjoint_perm _ _ P2 D) as D2.
          assert (NT : forall e, (e < n)%nat -> nth_error (map block_of (map (entry [] blk) (seq 0 n) ++ oth)) e = Some (block_of (entry [] blk e))).
          { intros e He. rewrite map_app, nth_error_app1 by (rewrite !map_length, seq_length; lia).
            rewrite map_map. rewrite nth_error_map, nth_error_nth' with (d := 0%nat) by (rewrite seq_length; lia). rewrite seq_nth by lia. reflexivity. }
          pose proof (D2 c d _ _ N (NT c Hc) (NT d Hd)) as O. unfold overlap, block_of, LinkOs.entry in O. cbn [fst snd] in O. apply andb_false_iff in O. rewrite !Z.ltb_ge in O.
          unfold bdisj, blk_lo, blk_hi. lia.
      + exists (seq 0 n). split; [apply seq_NoDup|]. split; [|exact PE]. intros c. rewrite in_seq. unfold has_stack. split.
        * intros H. split; [left; lia|]. intros (a & on & []).
        * intros ([H|(a & [])] & _). lia.
    - destruct (IH G) as [I1 I2 I3]. split; [apply l_code; auto|exact I2|exact I3].
    - destruct (IH G) as [I1 I2 I3]. split; [exact I1|eapply rinv_step; eauto|].
      destruct I3 as (l & N & HL & PE). exists l. split; [exact N|]. split; [exact HL|].
      destruct o as [k sz [p|] ok|i|a q].
      + destruct OT as (e & -> & ->). eapply perm_trans; [apply perm_skip; exact PE|]. apply Permutation_middle.
      + subst oth'. cbn [wstep] in ST. destruct ST as [ST|[ST|ST]]; try discriminate. injection ST as <-. exact PE.
      + destruct OT as (e & EI & PO). cbn [wstep] in ST. rewrite EI in ST.
        assert (RM : Permutation (w_out w) (e :: w_out w')).
        { destruct e as [k s]. destruct (match k with KSegmented _ => false | _ => sc_sp s =? 0 end); [destruct ST as [ST|[ST|ST]]; discriminate|].
          destruct (take_block _ _ _ _) as [[[q len] r]|]; destruct ST as [ST|[ST|ST]]; try discriminate. injection ST as <-. cbn [w_out].
          apply remove_nth_perm. exact EI. }
        apply (Permutation_cons_inv (a := e)). eapply perm_trans; [apply Permutation_sym; exact RM|].
        eapply perm_trans; [exact PE|]. eapply perm_trans; [apply Permutation_app_head; exact PO|]. apply Permutation_sym, Permutation_middle.
      + subst oth'. replace (w_out w') with (w_out w); [exact PE|]. cbn [wstep] in ST. destruct (w_perm w a); destruct ST as [ST|[ST|ST]]; try discriminate; injection ST as <-; reflexivity.
    - (* event *)
      pose proof (good_tl _ _ _ G) as G'. destruct (IH G') as [I1 I2 I3]. split; [apply l_event; auto; destruct e; auto|exact I2|].
      destruct I3 as (l & N & HL & PE). exists l. split; [exact N|]. split.
      + intros c. rewrite HL. unfold has_stack, freed. split; intros (H1 & H2); (split; [|]).
        * destruct H1 as [H1|(a & H1)]; [left; exact H1|right; exists a; right; exact H1].
        * intros (a & on & [Z|Z]); [subst e; exact Q|]. apply H2. eauto.
        * destruct H1 as [H1|(a & [H1|H1])]; [left; exact H1|subst e; contradiction|right; eauto].
        * intros (a & on & Z). apply H2. exists a, on. right. exact Z.
      + replace (map (entry (e :: tr) blk) l) with (map (entry tr blk) l); [exact PE|]. apply map_ext. intros c. unfold LinkOs.entry. destruct e; try contradiction; reflexivity.
    - (* alloc *)
      pose proof (good_tl _ _ _ G) as G'. destruct (IH G') as [I1 I2 I3]. destruct I3 as (l & N & HL & PE).
      destruct (good_hd _ _ _ G) as (_ & _ & (_ & _ & NEW) & AL). cbn in AL.
      assert (NC : ~ has_stack n tr c).
      { intros ([H|(a' & H)] & _); [lia|]. apply (NEW _ H). reflexivity. }
      assert (NF : ~ freed tr c). { intros (a' & on & H). apply (NEW _ H). cbn. auto. }
      assert (IE : In (kind a, pa_sctx b) (w_out w')) by (rewrite WO; left; reflexivity).
      assert (RI : rinv (bits A) pg w') by (eapply rinv_step; eauto).
      destruct (entry_bounds A pg w' _ IN RI IE) as (E1 & E2 & E3). cbn in E1, E2, E3.
      split; [|exact RI|].
      + apply l_alloc; [exact I1| |].
        * unfold block_ok, large, blk_lo, blk_hi in *. lia.
        * intros d HD. assert (ID : In (entry tr blk d) (w_out w)).
          { eapply Permutation_in; [apply Permutation_sym; exact PE|]. apply in_or_app. left. apply in_map. apply HL. exact HD. }
          destruct (alloc_apart w _ _ _ _ _ I2 SN ST ID) as (s & WO' & D). rewrite WO in WO'. injection WO' as <-.
          cbn in D. unfold bdisj, blk_lo, blk_hi. exact D.
      + exists (c :: l). split; [constructor; [rewrite HL; exact NC|exact N]|]. split.
        * intros d. cbn [In]. rewrite HL. unfold has_stack. split.
          -- intros [<-|([H|(a' & H)] & F)].
             ++ split; [right; exists a; left; reflexivity|]. intros (a' & on & [Z|Z]); [discriminate|]. apply NF. exists a', on. exact Z.
             ++ split; [left; exact H|]. intros (a2 & on & [Z|Z]); [discriminate|]. apply F. exists a2, on. exact Z.
             ++ split; [right; exists a'; right; exact H|]. intros (a2 & on & [Z|Z]); [discriminate|]. apply F. exists a2, on. exact Z.
          -- intros (H & F). destruct (Nat.eq_dec c d) as [->|ND]; [left; reflexivity|right].
             assert (F' : ~ freed tr d) by (intros (a2 & on & Z); apply F; exists a2, on; right; exact Z).
             destruct H as [H|(a' & [H|H])]; [split; auto|injection H as -> _; congruence|split; eauto].
        * rewrite WO. cbn [map app].
          replace (entry (EvAlloc c a :: tr) (fun d => if Nat.eqb d c then b else blk d) c) with (kind a, pa_sctx b)
            by (unfold LinkOs.entry; cbn; rewrite Nat.eqb_refl; reflexivity).
          apply perm_skip.
          replace (map (entry (EvAlloc c a :: tr) (fun d => if Nat.eqb d c then b else blk d)) l) with (map (entry tr blk) l); [exact PE|].
          apply map_ext_in. intros d Hd. assert (ND : d <> c) by (intros ->; apply NC, HL; exact Hd).
          unfold LinkOs.entry. cbn. rewrite (proj2 (Nat.eqb_neq d c) ND), (proj2 (Nat.eqb_neq c d) (not_eq_sym ND)). reflexivity.
    - (* free *)
      pose proof (good_tl _ _ _ G) as G'. destruct (IH G') as [I1 I2 I3]. destruct I3 as (l & N & HL & PE).
      destruct (good_hd _ _ _ G) as (_ & _ & (_ & _ & AL & _ & NFR & t & me & to & SE & TO & ON) & _).
      assert (HC : has_stack n tr c) by (split; [right; eauto|exact NFR]).
      assert (HR : has_record tr c).
      { split; [|exact NFR]. apply in_split in SE as (l1 & l2 & E').
        assert (G2 : good n (EvSwitch t c me to SwExit :: l2)) by (apply (good_app n l1); rewrite <- E'; exact G').
        destruct (exit_record A n _ _ _ _ _ G2) as (((t1 & f1 & m1 & to1 & H & E1) & _) & _).
        exists t1, f1, m1, to1. split; [|exact E1]. rewrite E'. apply in_or_app. right. right. exact H. }
      pose proof (lexec_inv A L n rs off keep IN LAB KO _ _ _ I1 G') as V.
      rewrite (q_sctx _ _ _ _ _ _ _ _ V c HR) in EI.
      assert (EC : entry tr blk c = (kind a, pa_sctx (blk c))) by (unfold LinkOs.entry; rewrite (alloc_of_good n _ _ _ G' AL); reflexivity).
      split; [apply l_event; auto; exact Logic.I|eapply rinv_step; eauto; exact Logic.I|].
      assert (IL : In c l) by (apply HL; exact HC). apply in_split in IL as (l1 & l2 & ->).
      exists (l1 ++ l2). split; [eapply NoDup_remove_1; exact N|]. pose proof (NoDup_remove_2 _ _ _ N) as NI. split.
      + intros d. assert (X1 : In d (l1 ++ l2) <-> In d (l1 ++ c :: l2) /\ d <> c).
        { rewrite !in_app_iff. cbn. split; [|intuition congruence]. intros H. split; [tauto|]. intros ->. apply NI. apply in_or_app. exact H. }
        rewrite X1, HL. unfold has_stack. split.
        * intros ((H & F) & ND). split.
          -- destruct H as [H|(a' & H)]; [left; exact H|right; exists a'; right; exact H].
          -- intros (a2 & on2 & [Z|Z]); [injection Z as -> _; congruence|]. apply F. exists a2, on2. exact Z.
        * intros (H & F). split; [split|].
          -- destruct H as [H|(a' & [H|H])]; [left; exact H|discriminate|right; eauto].
          -- intros (a2 & on2 & Z). apply F. exists a2, on2. right. exact Z.
          -- intros ->. apply F. exists a, on. left. reflexivity.
      + cbn [wstep] in ST. rewrite EI in ST. 
        destruct (match kind a with KSegmented _ => false | _ => sc_sp (pa_sctx (blk c)) =? 0 end); [discriminate|].
        destruct (take_block _ _ _ _) as [[[q len] r]|]; [|discriminate]. injection ST as <-. cbn [w_out].
        apply (Permutation_cons_inv (a := (kind a, pa_sctx (blk c)))).
        eapply perm_trans; [apply Permutation_sym, remove_nth_perm; exact EI|]. eapply perm_trans; [exact PE|].
        rewrite !map_app. cbn [map]. rewrite EC. rewrite <- !app_assoc. cbn [app].
        eapply perm_trans; [apply Permutation_sym, Permutation_middle|]. apply perm_skip. 
        change (map (entry (EvFree c a on :: tr) blk)) with (map (entry tr blk)). apply Permutation_refl.
    - pose proof (good_tl _ _ _ G) as G'. destruct (IH G') as [I1 I2 I3]. split; [eapply l_create; eauto|exact I2|].
      destruct I3 as (l & N & HL & PE). exists l. split; [exact N|]. split; [|exact PE].
      intros c. rewrite HL. unfold has_stack, freed. split; intros (H1 & H2); (split; [|]).
      + destruct H1 as [H1|(a & H1)]; [left; exact H1|right; exists a; right; exact H1].
      + intros (a & on & [Z|Z]); [discriminate|]. apply H2. eauto.
      + destruct H1 as [H1|(a & [H1|H1])]; [left; exact H1|discriminate|right; eauto].
      + intros (a & on & Z). apply H2. exists a, on. right. exact Z.
    - pose proof (good_tl _ _ _ G) as G'. destruct (IH G') as [I1 I2 I3]. split; [eapply l_switch; eauto|exact I2|].
      destruct I3 as (l & N & HL & PE). exists l. split; [exact N|]. split; [|exact PE].
      intros c. rewrite HL. unfold has_stack, freed. split; intros (H1 & H2); (split; [|]).
      + destruct H1 as [H1|(a & H1)]; [left; exact H1|right; exists a; right; exact H1].
      + intros (a & on & [Z|Z]); [discriminate|]. apply H2. eauto.
      + destruct H1 as [H1|(a & [H1|H1])]; [left; exact H1|discriminate|right; eauto].
      + intros (a & on & Z). apply H2. exists a, on. right. exact Z.
  Qed.
End P.

(** ** The statements

    In all of them: [s] is a reachable state of the fiber machine, [old] the beginning of its history, and
    [M], [blk], [w], [oth] are the state of the machine, the blocks of the contexts, the state of the memory source
    and the blocks of the rest of the program after [old]. *)

(** Everything that C53 says holds, without any assumption about where the blocks are. *)
Theorem C54_refines A L n rs off keep pg kind ssize s new old M blk w oth :
  In A ports -> labels_ok A L -> keep_ok A rs off keep -> 0 < pg -> reachable n s -> s_tr s = new ++ old ->
  oexec A L n rs off keep pg kind ssize old M blk w oth -> lexec A L n rs off keep old M blk.
Proof.
  intros IN LAB KO PG R E X. assert (G : good n old) by (apply (good_app n new); rewrite <- E; apply good_reach; exact R).
  apply (oexec_inv A L n rs off keep pg kind ssize IN LAB KO PG _ _ _ _ _ X G).
Qed.
Print Assumptions C54_refines.

(** Nothing leaks and nothing is given back too early: at all times the blocks that the allocators have got from the
    memory source are those of the contexts whose stacks have not been given back, one each, and those of the
    rest of the program. Blocks do not overlap. *)
Theorem C54_accounting A L n rs off keep pg kind ssize s new old M blk w oth :
  In A ports -> labels_ok A L -> keep_ok A rs off keep -> 0 < pg -> reachable n s -> s_tr s = new ++ old ->
  oexec A L n rs off keep pg kind ssize old M blk w oth ->
  (exists l, NoDup l /\ (forall c, In c l <-> has_stack n old c) /\
     Permutation (w_out w) (map (fun c => (match alloc_of old c with Some a => kind a | None => KFixedMmap end, pa_sctx (blk c))) l ++ oth) /\
     Permutation (w_live w) (map (fun c => (blk_lo (blk c), sc_size (pa_sctx (blk c)))) l ++
                             map (fun e => (sc_sp (snd e) - sc_size (snd e), sc_size (snd e))) oth)) /\
  (forall c d, has_stack n old c -> has_stack n old d -> c <> d -> bdisj (blk c) (blk d)) /\
  (forall c e, has_stack n old c -> In e oth ->
     blk_hi (blk c) <= sc_sp (snd e) - sc_size (snd e) \/ sc_sp (snd e) <= blk_lo (blk c)).
Proof.
  intros IN LAB KO PG R E X. assert (G : good n old) by (apply (good_app n new); rewrite <- E; apply good_reach; exact R).
  destruct (oexec_inv A L n rs off keep pg kind ssize IN LAB KO PG _ _ _ _ _ X G) as [I1 I2 (l & N & HL & PE)].
  pose proof (perm_trans (wi_perm _ _ (ri_w _ _ _ I2)) (Permutation_map block_of PE)) as P2.
  split; [|split].
  - exists l. split; [exact N|]. split; [exact HL|]. split; [exact PE|].
    rewrite map_app, map_map in P2. exact P2.
  - apply (lexec_inv A L n rs off keep IN LAB KO _ _ _ I1 G).
  - intros c e HC HE. apply HL in HC. pose proof (disjoint_perm _ _ P2 (wi_disj _ _ (ri_w _ _ _ I2))) as D.
    apply In_nth_error in HC as (i & Hi). apply In_nth_error in HE as (j & Hj).
    assert (Li : (i < List.length l)%nat) by (eapply nth_some_lt; eauto).
    specialize (D i (List.length l + j)%nat (block_of (entry kind old blk c)) (block_of e)). rewrite map_app in D.
    assert (O : overlap (block_of (entry kind old blk c)) (block_of e) = false).
    { apply D; [lia| |].
      - rewrite nth_error_app1 by (rewrite !map_length; exact Li). rewrite !nth_error_map, Hi. reflexivity.
      - rewrite nth_error_app2 by (rewrite !map_length; lia). rewrite !map_length. replace (List.length l + j - List.length l)%nat with j by lia. rewrite nth_error_map, Hj. reflexivity. }
    unfold overlap, block_of, LinkOs.entry in O. cbn [fst snd] in O. apply andb_false_iff in O. rewrite !Z.ltb_ge in O. unfold blk_hi, blk_lo. lia.
Qed.
Print Assumptions C54_accounting.

(** Construction: whatever admissible address the memory source answers, if the size is large enough for
    record, gap, alignment and context data, the machine goes on with the stack placed in that block. *)
Theorem C54_allocate A L n rs off keep pg kind ssize s new c a old M blk w oth p :
  In A ports -> labels_ok A L -> keep_ok A rs off keep -> 0 < pg -> reachable n s -> s_tr s = new ++ EvAlloc c a :: old ->
  oexec A L n rs off keep pg kind ssize old M blk w oth ->
  sane (bits A) pg (OAlloc (kind a) (ssize a) (Some p) true) ->
  answer_ok (bits A) w (kind a) (request (bits A) (kind a) (ssize a)) p = true ->
  rs c + 64 + 255 + c_need (p_code A) <= request (bits A) (kind a) (ssize a) ->
  exists w' M' blk', wstep (bits A) w (OAlloc (kind a) (ssize a) (Some p) true) = WOk w' /\
    oexec A L n rs off keep pg kind ssize (EvAlloc c a :: old) M' blk' w' oth /\
    blk_lo (blk' c) = p /\ sc_size (pa_sctx (blk' c)) = request (bits A) (kind a) (ssize a) /\
    pa_sp (blk' c) = blk_hi (blk' c) /\ blk_hi (blk' c) = p + request (bits A) (kind a) (ssize a) /\
    m_mem M' = m_mem M /\ (forall d, d <> c -> blk' d = blk d).
Proof.
  intros IN LAB KO PG R E X SN AO SZ.
  assert (G1 : good n (EvAlloc c a :: old)) by (apply (good_app n new); rewrite <- E; apply good_reach; exact R).
  pose proof (good_tl _ _ _ G1) as G.
  destruct (oexec_inv A L n rs off keep pg kind ssize IN LAB KO PG _ _ _ _ _ X G) as [I1 I2 _].
  pose proof (sane_request _ _ _ PG SN) as RO. cbn [request_ok] in RO.
  assert (ST : exists w', wstep (bits A) w (OAlloc (kind a) (ssize a) (Some p) true) = WOk w').
  { cbn [wstep]. rewrite AO. destruct (page_of (kind a)); eauto. }
  destruct ST as (w' & ST).
  pose proof (C24_allocate (bits A) w (kind a) (ssize a) (Some p) true RO) as Y. cbv beta iota in Y. rewrite ST in Y. destruct Y as (sc & WO & WL & SP & SS).
  assert (SS' : sc_size sc = request (bits A) (kind a) (ssize a)) by (rewrite SS; destruct (kind a); reflexivity).
  exists w', (put_stack M c (lo_bottom (lay A rs c (whole sc))) (lo_top (lay A rs c (whole sc)))), (fun d => if Nat.eqb d c then whole sc else blk d).
  rewrite Nat.eqb_refl. unfold blk_lo, blk_hi, whole. cbn [pa_sctx pa_sp].
  split; [exact ST|]. split.
  - eapply o_alloc; eauto. unfold large, blk_lo, blk_hi. cbn [pa_sctx pa_sp]. lia.
  - split; [lia|]. split; [exact SS'|]. split; [reflexivity|]. split; [lia|]. split; [reflexivity|].
    intros d ND. rewrite (proj2 (Nat.eqb_neq d c) ND). reflexivity.
Qed.
Print Assumptions C54_allocate.

(** Giving back the stack of c with allocator a: c's stack came from a; the stack_context in the record is the
    one that a's class handed out; it is still outstanding; deallocate succeeds (free/munmap/VirtualFree get
    exactly the block that malloc/mmap/VirtualAlloc returned), the bytes of this block become inaccessible, and no other. *)
Theorem C54_deallocate A L n rs off keep pg kind ssize s new c a on old M blk w oth :
  In A ports -> labels_ok A L -> keep_ok A rs off keep -> 0 < pg -> reachable n s -> s_tr s = new ++ EvFree c a on :: old ->
  oexec A L n rs off keep pg kind ssize old M blk w oth ->
  alloc_of old c = Some a /\
  sctx_in A off (m_mem M) c (rec_at A rs c (blk c)) = pa_sctx (blk c) /\
  release_addr (bits A) (pa_sctx (blk c)) = blk_lo (blk c) /\
  In (blk_lo (blk c), sc_size (pa_sctx (blk c))) (w_live w) /\
  exists i w', nth_error (w_out w) i = Some (kind a, pa_sctx (blk c)) /\
    wstep (bits A) w (ODealloc i) = WOk w' /\ 
    Permutation (w_live w) ((blk_lo (blk c), sc_size (pa_sctx (blk c))) :: w_live w') /\
    (forall x, blk_lo (blk c) <= x < blk_hi (blk c) -> w_perm w' x = PUnmapped) /\
    (forall x, ~ (blk_lo (blk c) <= x < blk_hi (blk c)) -> w_perm w' x = w_perm w x) /\
    oexec A L n rs off keep pg kind ssize (EvFree c a on :: old) M blk w' oth.
Proof.
  intros IN LAB KO PG R E X.
  assert (G1 : good n (EvFree c a on :: old)) by (apply (good_app n new); rewrite <- E; apply good_reach; exact R).
  pose proof (good_tl _ _ _ G1) as G. pose proof (bits_pos A IN) as BP.
  destruct (oexec_inv A L n rs off keep pg kind ssize IN LAB KO PG _ _ _ _ _ X G) as [I1 I2 (l & N & HL & PE)].
  destruct (C53_free A L n rs off keep s new c a on old M blk IN LAB KO R E I1) as (AL & SX & _).
  destruct (good_hd _ _ _ G1) as (_ & _ & (_ & _ & _ & _ & NFR & _) & _).
  assert (HC : has_stack n old c) by (split; [right; eauto|exact NFR]).
  assert (EC : entry kind old blk c = (kind a, pa_sctx (blk c))) by (unfold LinkOs.entry; rewrite (alloc_of_good n _ _ _ G AL); reflexivity).
  assert (IE : In (kind a, pa_sctx (blk c)) (w_out w)).
  { eapply Permutation_in; [apply Permutation_sym; exact PE|]. apply in_or_app. left. rewrite <- EC. apply in_map. apply HL. exact HC. }
  destruct (entry_bounds A pg w _ IN I2 IE) as (E1 & E2 & E3). cbn [snd] in *.
  split; [apply (alloc_of_good n _ _ _ G AL)|]. split; [exact SX|]. split.
  { unfold release_addr, blk_lo. apply wsub_small. rewrite (bits_space A IN). unfold cpu_of. lia. }
  assert (IB : In (blk_lo (blk c), sc_size (pa_sctx (blk c))) (w_live w)) by exact (out_block _ _ _ (ri_w _ _ _ I2) IE).
  split; [exact IB|].
  apply In_nth_error in IE as (i & EI). exists i.
  pose proof (wstep_safe (bits A) w (ODealloc i) BP (ri_w _ _ _ I2)) as (S1 & S2).
  assert (ST : exists w', wstep (bits A) w (ODealloc i) = WOk w' /\ w_out w' = remove_nth i (w_out w)).
  { cbn [wstep] in *. rewrite EI in *.
    destruct (match kind a with KSegmented _ => false | _ => sc_sp (pa_sctx (blk c)) =? 0 end).
    { destruct (S2 eq_refl) as (? & ? & ? & ?). discriminate. }
    destruct (take_block _ _ _ _) as [[[q len] r]|]; [|contradiction]. eauto. }
  destruct ST as (w' & ST & WO'). exists w'. split; [exact EI|]. split; [exact ST|].
  destruct (rinv_dealloc _ _ _ _ _ BP PG I2 ST) as (I2' & k' & s' & En & D1 & D2). rewrite EI in En. injection En as <- <-.
  split; [|split; [exact D1|split; [exact D2|]]].
  - eapply perm_trans; [apply (wi_perm _ _ (ri_w _ _ _ I2))|].
    eapply perm_trans; [|apply perm_skip; apply Permutation_sym, (wi_perm _ _ (ri_w _ _ _ I2'))].
    rewrite WO'. apply (Permutation_map block_of (remove_nth_perm i _ _ EI)).
  - eapply o_free; [exact X| |exact ST]. rewrite SX. exact EI.
Qed.
Print Assumptions C54_deallocate.

(** While a context has its stack, every byte of the block (record, gap and stack) can be accessed, except for the guard
    page of the protected allocators; with posix/protected_fixedsize_stack every access to that page is stopped. *)
Theorem C54_stack_accessible A L n rs off keep pg kind ssize s new old M blk w oth c x :
  In A ports -> labels_ok A L -> keep_ok A rs off keep -> 0 < pg -> reachable n s -> s_tr s = new ++ old ->
  oexec A L n rs off keep pg kind ssize old M blk w oth -> has_stack n old c -> blk_lo (blk c) <= x < blk_hi (blk c) ->
  let k := match alloc_of old c with Some a => kind a | None => KFixedMmap end in
  match k with
  | KProtPosix _ => if x <? blk_lo (blk c) + pg then wstep (bits A) w (OAccess x pg) = WFault w else wstep (bits A) w (OAccess x pg) = WOk w
  | KProtWin _ => blk_lo (blk c) + pg <= x -> wstep (bits A) w (OAccess x pg) = WOk w
  | _ => wstep (bits A) w (OAccess x pg) = WOk w
  end.
Proof.
  intros IN LAB KO PG R E X HC Hx k. assert (G : good n old) by (apply (good_app n new); rewrite <- E; apply good_reach; exact R).
  destruct (oexec_inv A L n rs off keep pg kind ssize IN LAB KO PG _ _ _ _ _ X G) as [I1 I2 (l & N & HL & PE)].
  assert (IE : In (k, pa_sctx (blk c)) (w_out w)).
  { eapply Permutation_in; [apply Permutation_sym; exact PE|]. apply in_or_app. left. apply (in_map (entry kind old blk)). apply HL. exact HC. }
  destruct (ri_r _ _ _ I2 _ IE) as (R1 & R2 & R3 & R4). cbn [fst snd] in *. unfold blk_lo, blk_hi in *. unfold guard_size in *.
  assert (ACC : w_perm w x = PRW -> wstep (bits A) w (OAccess x pg) = WOk w) by (intros H; cbn [wstep]; rewrite H; reflexivity).
  clearbody k. destruct k as [| | |q|q|q]; cbn [page_of] in *; try (apply ACC, R3; lia).
  - destruct R1 as (R1 & _); [discriminate|]. injection R1 as ->.
    destruct (Z.ltb_spec x (sc_sp (pa_sctx (blk c)) - sc_size (pa_sctx (blk c)) + pg)).
    + cbn [wstep]. rewrite R4 by lia. reflexivity.
    + apply ACC, R3. lia.
  - destruct R1 as (R1 & _); [discriminate|]. injection R1 as ->. intros H. apply ACC, R3. lia.
Qed.
Print Assumptions C54_stack_accessible.

(** ** Every placement occurs

    Conversely, no execution of C53's machine is lost: if all allocators are fixedsize_stack (malloc) and the
    blocks have the allocators' sizes, every execution of the machine of LinkMem.v is one with the memory source: whatever
    disjoint addresses the blocks have, malloc may answer them. *)
Lemma wrun_snoc b w ops o w1 : wrun b w ops = WOk w1 -> wrun b w (ops ++ [o]) = match wstep b w1 o with WOk w' | WBadAlloc w' | WFault w' => WOk w' | r => r end.
Proof.
  revert w. induction ops as [|x ops IH]; intros w H.
  - cbn in H. injection H as ->. cbn. destruct (wstep b w1 o); reflexivity.
  - cbn [wrun app] in *. destruct (wstep b w x); try discriminate; apply IH; exact H.
Qed.

Lemma alloc_answer A pg w k b : In A ports -> rinv (bits A) pg w -> page_of k = None ->
  request (bits A) k (sc_size (pa_sctx b)) = sc_size (pa_sctx b) ->
  0 < blk_lo b < blk_hi b -> blk_hi b < space (ab_cpu (p_abi A)) ->
  (forall e, In e (w_out w) -> sc_sp (snd e) - sc_size (snd e) < sc_sp (snd e) /\
     (blk_hi b <= sc_sp (snd e) - sc_size (snd e) \/ sc_sp (snd e) <= blk_lo b)) ->
  exists w', wstep (bits A) w (OAlloc k (sc_size (pa_sctx b)) (Some (blk_lo b)) true) = WOk w' /\ w_out w' = (k, pa_sctx b) :: w_out w.
Proof.
  intros IN RI PK RQ B1 B2 D. pose proof (bits_space A IN) as BS. unfold cpu_of in BS.
  assert (AO : answer_ok (bits A) w k (sc_size (pa_sctx b)) (blk_lo b) = true).
  { unfold answer_ok. rewrite PK, andb_true_r, !andb_true_iff, negb_true_iff, !Z.ltb_lt. unfold blk_lo, blk_hi in *. split; [split; lia|].
    apply not_true_is_false. intros Ex. apply existsb_exists in Ex as (x & Hx & O).
    apply (Permutation_in x (wi_perm _ _ (ri_w _ _ _ RI))) in Hx. apply in_map_iff in Hx as (e & <- & He). destruct (D e He) as (D1 & D2).
    unfold overlap, block_of in O. cbn [fst snd] in O. apply andb_true_iff in O. rewrite !Z.ltb_lt in O. lia. }
  cbn [wstep]. rewrite RQ, AO, PK. eexists. split; [reflexivity|]. cbn [w_out]. unfold sctx_of. rewrite RQ. f_equal. f_equal.
  unfold blk_lo, blk_hi in *. rewrite wadd_small by lia. destruct (pa_sctx b) as [z1 z2]. cbn [sc_size sc_sp] in *. f_equal. lia.
Qed.

Lemma boot_threads A pg kind (blk : nat -> preallocated) n : In A ports -> 0 < pg ->
  (forall c, (c < n)%nat -> 0 < blk_lo (blk c) < blk_hi (blk c) /\ blk_hi (blk c) < space (ab_cpu (p_abi A))) ->
  (forall c d, (c < n)%nat -> (d < n)%nat -> c <> d -> bdisj (blk c) (blk d)) ->
  exists boot w, Forall (sane (bits A) pg) boot /\ wrun (bits A) world0 boot = WOk w /\
    Permutation (w_out w) (map (entry kind [] blk) (seq 0 n)).
Proof.
  intros IN PG Bd D. pose proof (bits_pos A IN) as BP.
  assert (X : forall k, (k <= n)%nat -> exists boot w, Forall (sane (bits A) pg) boot /\ wrun (bits A) world0 boot = WOk w /\
    Permutation (w_out w) (map (entry kind [] blk) (seq 0 k))); [|apply X; lia].
  induction k as [|k IH]; intros Hk.
  - exists [], world0. split; [constructor|]. split; [reflexivity|]. constructor.
  - destruct IH as (boot & w & SN & RN & PE); [lia|].
    pose proof (wrun_rinv _ _ _ BP PG _ _ (rinv0 (bits A) pg) SN RN) as RI.
    destruct (Bd k ltac:(lia)) as (B1 & B2).
    destruct (alloc_answer A pg w KFixedMmap (blk k) IN RI eq_refl eq_refl B1 B2) as (w' & ST & WO).
    { intros e He. apply (Permutation_in e PE) in He. apply in_map_iff in He as (c & <- & Hc). apply in_seq in Hc. cbn [LinkOs.entry snd].
      pose proof (D k c ltac:(lia) ltac:(lia) ltac:(lia)) as D1. destruct (Bd c ltac:(lia)) as (B3 & _). unfold bdisj, blk_lo, blk_hi in *. lia. }
    exists (boot ++ [OAlloc KFixedMmap (sc_size (pa_sctx (blk k))) (Some (blk_lo (blk k))) true]), w'. split; [|split].
    + apply Forall_app. split; [exact SN|]. constructor; [|constructor]. cbn. unfold blk_lo, blk_hi in B1. lia.
    + rewrite (wrun_snoc _ _ _ _ _ RN), ST. reflexivity.
    + rewrite WO, seq_S, map_app. cbn [plus map]. eapply perm_trans; [apply perm_skip; exact PE|]. apply Permutation_cons_append.
Qed.

Theorem C54_every_placement A L n rs off keep pg ssize s new old M blk :
  In A ports -> labels_ok A L -> keep_ok A rs off keep -> 0 < pg -> reachable n s -> s_tr s = new ++ old ->
  lexec A L n rs off keep old M blk ->
  (forall c, (c < n)%nat -> blk_lo (blk c) < blk_hi (blk c)) ->
  (forall c a, In (EvAlloc c a) old -> sc_size (pa_sctx (blk c)) = ssize a) ->
  exists w, oexec A L n rs off keep pg (fun _ => KFixedMalloc) ssize old M blk w [].
Proof.
  intros IN LAB KO PG R E X. revert new E.
  induction X as [M blk W Bd D|tr M blk t s1 X IH Ht W U K|tr M blk e X IH Q|tr M blk c1 a1 b X IH OK D
                   |tr M blk t from me to pc s0 s1 pc' t' X IH Ht s00 d p SC MT O1 O2 RM W U U' K CS AT AD OS SW
                   |tr M blk t from me to k pc t' X IH Ht K s1 CS AT OS AD SW]; intros new E NE SZ.
  - destruct (boot_threads A pg (fun _ => KFixedMalloc) blk n IN PG) as (boot & w & SN & RN & PE).
    { intros c Hc. destruct (Bd c Hc) as (_ & _ & B1 & B2). specialize (NE c Hc). split; [lia|exact B2]. }
    { exact D. }
    exists w. eapply o_start; eauto.
    + intros c Hc. destruct (Bd c Hc) as (B1 & B2 & _). auto.
    + rewrite app_nil_r. exact PE.
  - destruct (IH new E NE SZ) as (w & O). exists w. apply o_code; auto.
  - assert (E' : s_tr s = (new ++ [e]) ++ tr) by (rewrite E, <- app_assoc; reflexivity).
    destruct (IH _ E' NE) as (w & O). { intros c a H. apply SZ. right. exact H. }
    destruct e; try contradiction; try (exists w; apply o_event; [exact O|exact Logic.I]).
    destruct (C54_deallocate A L n rs off keep pg _ ssize s new c a on tr M blk w [] IN LAB KO PG R E O) as (_ & _ & _ & _ & i & w' & _ & _ & _ & _ & _ & O').
    exists w'. exact O'.
  - assert (E' : s_tr s = (new ++ [EvAlloc c1 a1]) ++ tr) by (rewrite E, <- app_assoc; reflexivity).
    assert (G1 : good n (EvAlloc c1 a1 :: tr)) by (apply (good_app n new); rewrite <- E; apply good_reach; exact R).
    pose proof (good_tl _ _ _ G1) as G. destruct (good_hd _ _ _ G1) as (_ & _ & (_ & _ & NEW) & AL). cbn in AL.
    destruct (IH _ E') as (w & O).
    { intros c Hc. specialize (NE c Hc). cbn in NE. destruct (Nat.eqb_spec c c1); [lia|exact NE]. }
    { intros c a H. specialize (SZ c a (or_intror H)). cbn in SZ. destruct (Nat.eqb_spec c c1) as [->|_]; [|exact SZ]. exfalso. apply (NEW _ H). reflexivity. }
    pose proof (SZ c1 a1 (or_introl eq_refl)) as S1. cbn in S1. rewrite Nat.eqb_refl in S1.
    destruct (oexec_inv A L n rs off keep pg _ ssize IN LAB KO PG _ _ _ _ _ O G) as [I1 I2 (l & N & HL & PE)].
    pose proof (lexec_inv A L n rs off keep IN LAB KO _ _ _ I1 G) as V.
    destruct OK as (K1 & K2 & K3 & K4). pose proof (words A IN) as (_ & W2 & _). destruct (KO c1) as (KO1 & KO2 & _). pose proof (words A IN) as (W1 & _). unfold cpu_of in W1.
    destruct (alloc_answer A pg w KFixedMalloc b IN I2 eq_refl eq_refl) as (w' & ST & WO); [lia|exact K3| |].
    { intros e He. apply (Permutation_in e PE) in He. rewrite app_nil_r in He. apply in_map_iff in He as (c & <- & Hc). apply HL in Hc. cbn [LinkOs.entry snd].
      pose proof (D c Hc) as D1. unfold bdisj in D1. split; [|exact D1]. fold (blk_lo (blk c)) (blk_hi (blk c)).
      destruct (Nat.ltb_spec c n) as [LT|GE].
      - specialize (NE c LT). cbn in NE. destruct (Nat.eqb_spec c c1); [lia|exact NE].
      - destruct (q_fib _ _ _ _ _ _ _ _ V c Hc GE) as ((Q1 & Q2 & Q3 & Q4) & _). destruct (KO c) as (KO3 & KO4 & _). lia. }
    rewrite S1 in ST. exists w'. eapply o_alloc; eauto.
    + cbn. lia.
  - assert (E' : s_tr s = (new ++ [EvSwitch t from me to SwCreate]) ++ tr) by (rewrite E, <- app_assoc; reflexivity).
    destruct (IH _ E' NE) as (w & O). { intros c a H. apply SZ. right. exact H. }
    exists w. eapply o_create; eauto.
  - assert (E' : s_tr s = (new ++ [EvSwitch t from me to k]) ++ tr) by (rewrite E, <- app_assoc; reflexivity).
    destruct (IH _ E' NE) as (w & O). { intros c a H. apply SZ. right. exact H. }
    exists w. eapply o_switch; eauto.
Qed.
Print Assumptions C54_every_placement.
