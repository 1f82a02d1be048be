(** C56, converse: the machine with weak memory admits all executions of the machine with
    immediate stores; and it is really weaker. *)
From Coq Require Import ZArith List String Lia Bool Arith.
From Verif Require Import ListUtil Fiber FiberSpec LinkHist LinkShuffle.
From Verif Require Import Word AsmMachine AsmSym AsmAbi AsmCheck AsmCode AsmCode2 AsmFacts AsmHist P_Asm AsmWit AsmIl Link P_Link.
From Verif Require Import LinkStep LinkStepInv LinkStepInv2 LinkStepInv3 P_LinkStep LinkStepConv LinkStepWit LinkWeak LinkWeakInv P_LinkWeak.
Import ListNotations.
Open Scope list_scope.
Open Scope Z_scope.

Section Conv.
  Variable A : port.
  Variable L : string -> Z.
  Variable n : nat.
  Hypothesis IN : In A ports.
  Hypothesis LAB : labels_ok A L.
  Local Notation B := (p_abi A).
  Local Notation C := (p_code A).
  Local Notation P := (ab_cpu (p_abi A)).
  Let CHK : check A = true := port_checked A IN.

  Definition all_seen (W : weak) (top : Z -> nat) : Prop := forall t a, k_seen W t a = top a.

  (** all threads see all stores *)
  Lemma see_all tr F W top : wexec A L n tr W -> wrel A F W top -> let W2 := Weak (k_m W) (k_msg W) (fun _ => top) (k_ph W) in
    wexec A L n tr W2 /\ wrel A F W2 top /\ all_seen W2 top.
  Proof.
    intros X Y W2. split; [|split].
    - apply w_see; [exact X|]. intros t a. destruct (y_top _ _ _ _ Y a) as [T1 T2]. split; [|congruence].
      pose proof (y_seen _ _ _ _ Y t a) as S. destruct (Nat.le_gt_cases (k_seen W t a) (top a)) as [|Q]; [assumption|].
      rewrite (T2 _ Q) in S. congruence.
    - constructor; try apply Y; intros t a; [cbn [W2 k_msg k_seen]; rewrite (proj1 (y_top _ _ _ _ Y a)); discriminate|reflexivity].
    - intros t a. reflexivity.
  Qed.

  Lemma seen_agree F W top t : wrel A F W top -> all_seen W top -> agree (fun _ => True) (wcpu W t) (cpu_at (f_m F) t).
  Proof. intros Y S. apply (cpu_agree A F W top t _ Y). intros a _. apply S. Qed.
  Lemma seen_latest F W top t a : wrel A F W top -> all_seen W top -> latest W t a.
  Proof. intros Y S p Hp. rewrite S in Hp. apply (y_top _ _ _ _ Y a). exact Hp. Qed.

  Lemma sim_free M q : ph_sim A M Free q -> q = Free.
  Proof. destruct q; cbn; tauto. Qed.
  Lemma sim_between M d h c q : ph_sim A M (Between d h c) q -> exists c', q = Between d h c' /\ agree (foot_make A c) c c'.
  Proof. destruct q; cbn; try tauto. intros (<- & <- & H). eauto. Qed.
  Lemma sim_inside M r rest b s q : ph_sim A M (Inside r rest b s) q ->
    exists r' s', q = Inside r' rest b s' /\ r_sim A r r' /\ agree (foot A M (Inside r rest b s)) s s' /\ wf P s'.
  Proof. destruct q; cbn [ph_sim]; try tauto. intros (H1 & <- & <- & H2 & H3). eauto 10. Qed.

  Definition diff (F : fine) (m : Z -> Z) (a : Z) : option Z := if m a =? m_mem (f_m F) a then None else Some (m a).
  Lemma diff_mem F m top a : m a = match diff F m a with Some x => if Nat.ltb (top a) (S (top a)) then x else m_mem (f_m F) a | None => m_mem (f_m F) a end.
  Proof.
    unfold diff. destruct (Z.eqb_spec (m a) (m_mem (f_m F) a)) as [E|E]; [exact E|]. destruct (Nat.ltb_spec (top a) (S (top a))); [reflexivity|lia].
  Qed.

  Lemma wconv tr F : fexec A L n tr F -> good n tr -> exists W top, wexec A L n tr W /\ wrel A F W top /\ all_seen W top.
  Proof.
    induction 1 as [M Wf Bd D|tr F t s X IH Ht NI Ws U1 U2|tr F e X IH Q|tr F c a lo hi X IH B0 B1 D
      |tr F t d X IH Ht FR s c UT UC MS O1 O2 T1 T2|tr F t me to h c0 X IH Ht FR s c CS AT OS
      |tr F t me to k X IH Ht FR K s c S UC HO CS AT OS|tr F t r i rest b s v X IH Ht FR E
      |tr F t r x rest b s X IH Ht FR GO|tr F t d x rest b s X IH Ht FR
      |tr F t r me to k c0 x rest b s X IH Ht FR GO KK]; intros G.
    - pose proof (w_start A L n M Wf Bd D) as XW. 
      assert (Y : wrel A (Fine M (fun _ => Free)) (Weak M (fun a p => match p with O => Some (m_mem M a) | _ => None end) (fun _ _ => O) (fun _ => Free)) (fun _ => O)).
      { constructor; cbn; auto.
        + intros h. apply agree_refl.
        + intros a. split; [reflexivity|]. intros [|p] Hp; [lia|reflexivity].
        + discriminate.
        + intros a [|p] x; [intros [= <-]; apply (Wf O)|discriminate]. }
      eexists _, _. split; [exact XW|]. split; [exact Y|]. intros t a. reflexivity.
    - destruct (IH G) as (W & top & XW & Y & SE). destruct (fgets A L n IN LAB tr F X G) as (N & XN & R & V).
      pose proof (y_ph _ _ _ _ Y t) as PS. pose proof (fun t' a => foot_same A L n IN LAB tr F N W top t' a R V Y) as FS.
      assert (DN : forall a, mm s a = m_mem (f_m F) a -> diff F (mm s) a = None) by (intros a E; unfold diff; rewrite E, Z.eqb_refl; reflexivity).
      assert (VB : forall a x, diff F (mm s) a = Some x -> 0 <= x < 256).
      { intros a x. unfold diff. destruct (_ =? _); [discriminate|]. intros [= <-]. apply Ws. }
      assert (PL : places W t (diff F (mm s)) (fun a => S (top a))).
      { intros a x _. rewrite SE. split; [lia|]. apply (y_top _ _ _ _ Y a). lia. }
      pose proof (w_code A L n tr W t (rg s) (diff F (mm s)) (fun a => S (top a)) XW Ht) as XC.
      specialize (XC ltac:(intros I; apply NI; apply (inside_same A _ _ _ PS); exact I) (proj2 Ws) VB).
      specialize (XC ltac:(intros h a SU O; apply DN; apply (U1 h a SU); unfold owned in *; rewrite <- (y_at _ _ _ _ Y); exact O)).
      specialize (XC ltac:(intros t' a Q; apply DN; apply (U2 t' a); apply FS; exact Q) PL).
      destruct (wrel_stores A F W top t (rg s) (diff F (mm s)) (fun a => S (top a)) (f_ph F t) (k_ph W t) (mm s) Y VB PL) as (top2 & Y2).
      + intros t' a _ Q. apply DN. apply (U2 t' a Q).
      + exact PS.
      + intros a _ _. apply SE.
      + intros a x _ _. apply SE.
      + intros a. apply diff_mem.
      + assert (Y3 : wrel A (Fine (put_cpu (f_m F) t s) (f_ph F)) (put_stores W t (rg s) (diff F (mm s)) (fun a => S (top a)) (k_ph W t)) top2).
        { constructor; cbn [f_m f_ph]; try apply Y2.
          - intros t'. pose proof (y_ph _ _ _ _ Y2 t') as Z. cbn [set_ph f_m f_ph] in Z. destruct (Nat.eqb_spec t' t) as [E|]; [subst t'|]; exact Z.
          - intros t' a Q. apply (y_upd _ _ _ _ Y2). cbn [set_ph f_m f_ph]. destruct (Nat.eqb_spec t' t) as [E|]; [subst t'|]; exact Q. }
        eexists _, top2. apply see_all; [exact XC|exact Y3].
    - destruct (IH (good_tl _ _ _ G)) as (W & top & XW & Y & SE). exists W, top. split; [apply w_event; assumption|auto].
    - destruct (IH (good_tl _ _ _ G)) as (W & top & XW & Y & SE).
      exists (Weak (put_stack (k_m W) c lo hi) (k_msg W) (k_seen W) (k_ph W)), top. split; [|split; [|exact SE]].
      + apply w_alloc; auto. intros d HD. destruct (y_geo _ _ _ _ Y d) as [-> ->]. apply D. exact HD.
      + constructor; [intros d; cbn [k_m f_m put_stack m_lo m_hi]; destruct (Nat.eqb d c); [auto|apply (y_geo _ _ _ _ Y)]|..]; apply Y.
    - (* make *)
      destruct (IH G) as (W & top & XW & Y & SE). pose proof (y_ph _ _ _ _ Y t) as PS. rewrite FR in PS. apply sim_free in PS.
      pose proof (agree_sym _ _ _ (seen_agree F W top t Y SE)) as AG. fold s in AG.
      pose proof (wf_view A F W top t Y (proj2 (proj1 MS))) as WF.
      destruct (make_agree A CHK _ _ _ MS AG WF (fun _ _ => Logic.I)) as (MS' & TE & _ & SPE).
      destruct (y_geo _ _ _ _ Y c) as [E1 E2], (y_geo _ _ _ _ Y d) as [E3 E4].
      exists (wset_ph W (k_m W) t (Inside (RMake d) (rcode A (RMake d)) (rtramp (RMake d)) (wcpu W t))), top. split; [|split; [|exact SE]].
      + apply w_make; auto; fold c; rewrite ?SPE, ?TE, ?E1, ?E2, ?E3, ?E4; auto.
        * intros t' NE Q. apply (UC t' NE). rewrite <- (goal_same A _ _ _ (y_ph _ _ _ _ Y t')). exact Q.
        * intros a _. eapply seen_latest; eauto.
      + apply wrel_phase; [exact Y| |intros a _; apply SE].
        cbn [ph_sim r_sim]. split; [reflexivity|]. split; [reflexivity|]. split; [reflexivity|]. split; [|exact WF].
        eapply agree_sub; [|exact AG]. intros; exact Logic.I.
    - (* first *)
      destruct (IH G) as (W & top & XW & Y & SE). pose proof (y_ph _ _ _ _ Y t) as PS. rewrite FR in PS. apply sim_between in PS as (c1 & FR' & AC).
      pose proof (agree_sym _ _ _ (seen_agree F W top t Y SE)) as AG. fold s in AG.
      pose proof (wf_view A F W top t Y (proj2 (proj1 CS))) as WF.
      destruct (call_agree A L CHK _ _ _ CS AG WF (fun _ _ => Logic.I)) as (CS' & AT' & _ & HI' & _).
      destruct (call_same A L IN _ _ _ CS AG (fun _ _ => Logic.I)) as (HA' & _ & _ & _ & _ & _ & SP').
      destruct (y_geo _ _ _ _ Y c) as [E1 E2].
      exists (wset_ph W (k_m W) t (Inside (RFirst me to c1) (rcode A (RFirst me to c1)) (rtramp (RFirst me to c1)) (wcpu W t))), top. split; [|split; [|exact SE]].
      + eapply w_first; eauto; fold c; [rewrite AT'; exact AT| |intros a _; eapply seen_latest; eauto].
        rewrite E1, E2. unfold on_stack in *. rewrite HI', HA', SP'. exact OS.
      + apply wrel_phase; [exact Y| |intros a _; apply SE].
        cbn [ph_sim r_sim]. split; [auto|]. split; [reflexivity|]. split; [reflexivity|]. split; [|exact WF].
        eapply agree_sub; [|exact AG]. intros; exact Logic.I.
    - (* call *)
      destruct (IH G) as (W & top & XW & Y & SE). pose proof (y_ph _ _ _ _ Y t) as PS. rewrite FR in PS. apply sim_free in PS.
      pose proof (agree_sym _ _ _ (seen_agree F W top t Y SE)) as AG. fold s in AG.
      pose proof (wf_view A F W top t Y (proj2 (proj1 CS))) as WF.
      destruct (call_agree A L CHK _ _ _ CS AG WF (fun _ _ => Logic.I)) as (CS' & AT' & _ & HI' & _).
      destruct (call_same A L IN _ _ _ CS AG (fun _ _ => Logic.I)) as (HA' & _ & _ & _ & _ & _ & SP').
      destruct (y_geo _ _ _ _ Y c) as [E1 E2].
      exists (wset_ph W (k_m W) t (Inside (RSwitch me to k) (rcode A (RSwitch me to k)) (rtramp (RSwitch me to k)) (wcpu W t))), top. split; [|split; [|exact SE]].
      + apply w_call; auto; fold c.
        * intros t' NE Q. apply (UC t' NE). rewrite <- (goal_same A _ _ _ (y_ph _ _ _ _ Y t')). exact Q.
        * rewrite AT', AT. symmetry. apply (y_at _ _ _ _ Y).
        * rewrite E1, E2. unfold on_stack in *. rewrite HI', HA', SP'. exact OS.
        * intros a _. eapply seen_latest; eauto.
      + apply wrel_phase; [exact Y| |intros a _; apply SE].
        cbn [ph_sim r_sim]. split; [auto|]. split; [reflexivity|]. split; [reflexivity|]. split; [|exact WF].
        eapply agree_sub; [|exact AG]. intros; exact Logic.I.
    - (* step *)
      destruct (IH G) as (W & top & XW & Y & SE). destruct (fgets A L n IN LAB tr F X G) as (N & XN & R & V).
      pose proof (y_ph _ _ _ _ Y t) as PS. rewrite FR in PS. apply sim_inside in PS as (r' & s' & FR' & RS & AS & WS).
      pose proof (agree_sym _ _ _ (seen_agree F W top t Y SE)) as AG.
      destruct (step_agree P L _ i _ _ v AG (fun _ _ => Logic.I) E) as (v' & E' & AV & _).
      (* what the instruction does not access it does not change *)
      destruct (step_agree P L (touched P i (cpu_at (f_m F) t)) i _ _ v (agree_refl _ _) (fun _ H => H) E) as (_ & _ & _ & UN & _).
      assert (TD : forall a x, diff F (mm v) a = Some x -> touched P i (cpu_at (f_m F) t) a /\ x = mm v a).
      { intros a x. unfold diff. destruct (Z.eqb_spec (mm v a) (m_mem (f_m F) a)) as [|NE]; [discriminate|]. intros [= <-]. split; [|reflexivity].
        assert (D : {touched P i (cpu_at (f_m F) t) a} + {~ touched P i (cpu_at (f_m F) t) a}).
        { assert (RW : forall o k, {within o k a} + {~ within o k a}).
          { intros [y|] k; cbn [within]; [|right; tauto]. destruct (Z_le_dec y a), (Z_lt_dec a (y + k)); first [left; lia|right; lia]. }
          destruct i; cbn [touched]; try (right; tauto); try apply RW.
          destruct (Z.eq_dec (rg (cpu_at (f_m F) t) c) 0); [right; tauto|]. destruct (RW (ea P (cpu_at (f_m F) t) b0 o n0) n0); [left; auto|right; tauto]. }
        destruct D as [D|D]; [exact D|]. destruct NE. apply (UN a D). }
      assert (PL : places W t (diff F (mm v)) (fun a => S (top a))).
      { intros a x _. rewrite SE. split; [lia|]. apply (y_top _ _ _ _ Y a). lia. }
      pose proof (w_step A L n tr W t r' i rest b s' v' (diff F (mm v)) (fun a => S (top a)) XW Ht FR' E') as XS.
      assert (TF : forall a, touched P i (cpu_at (f_m F) t) a -> foot A (f_m F) (f_ph F t) a).
      { intros a. exact (next_in A L n tr F N t r i rest b s a R FR). }
      assert (C1 : forall a x, diff F (mm v) a = Some x -> touched P i (wcpu W t) a /\ x = mm v' a).
      { intros a x Q. destruct (TD a x Q) as [Q1 ->]. split; [|apply (proj2 AV a Logic.I)].
        apply (touched_agree _ _ _ _ _ _ (agree_sym _ _ _ AG)). exact Q1. }
      assert (VV : forall a, view W t a = m_mem (f_m F) a) by (intros a; apply (top_view A F W top t a Y); apply SE).
      assert (C2 : forall a, diff F (mm v) a = None -> mm v' a = view W t a).
      { intros a Q. rewrite VV, <- (proj2 AV a Logic.I). unfold diff in Q. destruct (Z.eqb_spec (mm v a) (m_mem (f_m F) a)) as [Z|]; [exact Z|discriminate]. }
      specialize (XS C1 C2 PL).
      assert (VB : forall a x, diff F (mm v) a = Some x -> 0 <= x < 256).
      { intros a x Q. destruct (TD a x Q) as [_ ->].
        assert (WB : forall a, 0 <= mm (cpu_at (f_m F) t) a < 256) by (intros c; cbn [cpu_at mm]; eapply (y_byte _ _ _ _ Y); apply (proj1 (y_top _ _ _ _ Y c))).
        clear - E WB. destruct i; cbn [step1] in E; try discriminate E;
          repeat match type of E with
          | Some _ = Some _ => injection E as <-
          | (match ea ?p ?q ?x ?y ?z with _ => _ end) = _ => destruct (ea p q x y z); [|discriminate E]
          | (if ?q then _ else _) = _ => destruct q; try discriminate E
          end; try apply WB; cbn [mm]; apply store_byte; exact WB. }
      destruct (wrel_stores A F W top t (rg v') (diff F (mm v)) (fun a => S (top a)) (Inside r rest b s) (Inside r' rest b s') (mm v) Y VB PL) as (top2 & Y2).
      + intros t' a NE Q. destruct (diff F (mm v) a) as [x|] eqn:Z; [|reflexivity]. exfalso. destruct (TD a x Z) as [T _].
        exact (feet_disj A L n IN LAB tr F N t' t a R V G NE Q (TF a T)).
      + cbn [ph_sim]. split; [exact RS|]. split; [reflexivity|]. split; [reflexivity|]. split; [|exact WS]. exact AS.
      + intros a _ _. apply SE.
      + intros a x _ _. apply SE.
      + intros a. apply diff_mem.
      + assert (Y3 : wrel A (set_ph F (put_cpu (f_m F) t v) t (Inside r rest b s)) (put_stores W t (rg v') (diff F (mm v)) (fun a => S (top a)) (Inside r' rest b s')) top2).
        { constructor; try apply Y2.
          intros t' y. rewrite (y_reg _ _ _ _ Y2 t' y). cbn [set_ph f_m put_cpu m_reg rg]. destruct (Nat.eqb t' t); [symmetry; apply (proj1 AV)|reflexivity]. }
        eexists _, top2. apply see_all; [exact XS|exact Y3].
    - (* trampoline *)
      destruct (IH G) as (W & top & XW & Y & SE).
      pose proof (y_ph _ _ _ _ Y t) as PS. rewrite FR in PS. apply sim_inside in PS as (r' & s' & FR' & RS & AS & WS).
      exists (wset_ph W (k_m W) t (Inside r' (c_tramp C) false s')), top. split; [|split; [|exact SE]].
      + eapply w_tramp; eauto. rewrite (y_reg _ _ _ _ Y). exact GO.
      + apply wrel_phase; [exact Y| |intros a _; apply SE].
        cbn [ph_sim]. split; [exact RS|]. split; [reflexivity|]. split; [reflexivity|]. split; [|exact WS]. exact AS.
    - (* made *)
      destruct (IH G) as (W & top & XW & Y & SE).
      pose proof (y_ph _ _ _ _ Y t) as PS. rewrite FR in PS. apply sim_inside in PS as (r' & s' & FR' & RS & AS & WS).
      destruct r' as [d'| |]; cbn [r_sim] in RS; try contradiction. subst d'.
      exists (wset_ph W (k_m W) t (Between d (m_reg (k_m W) t (ab_mkres B)) s')), top. split; [eapply w_made; eauto|split; [|exact SE]].
      apply wrel_phase; [exact Y| |intros a _; apply SE].
      cbn [ph_sim]. split; [reflexivity|]. split; [symmetry; apply (y_reg _ _ _ _ Y)|]. exact AS.
    - (* done *)
      destruct (IH (good_tl _ _ _ G)) as (W & top & XW & Y & SE). destruct (fgets A L n IN LAB tr F X (good_tl _ _ _ G)) as (N & XN & R & V).
      pose proof (y_ph _ _ _ _ Y t) as PS. rewrite FR in PS. apply sim_inside in PS as (r' & s' & FR' & RS & AS & WS).
      assert (HE : handle A s' = handle A s) by exact (handle_agree A _ _ _ AS).
      assert (OWN : forall a, own_foot A s a -> foot A (f_m F) (Inside r (Go x :: rest) b s) a).
      { destruct KK as [[-> ->]| ->]; intros a Ha; left; exact Ha. }
      exists (wset_ph W (put_susp (k_m W) me (handle A s') s') t Free), top. split; [|split; [|exact SE]].
      + assert (KF : exists c1, r' = RFirst me to c1 /\ k = SwCreate \/ r' = RSwitch me to k).
        { destruct KK as [[-> ->]| ->], r' as [d|me' to' c1|me' to' k']; cbn [r_sim] in RS; try contradiction.
          - destruct RS as (<- & <- & _). exists c1. auto.
          - destruct RS as (<- & <- & <-). exists s. auto. }
        destruct KF as (c1 & KF). eapply w_done; eauto. rewrite (y_reg _ _ _ _ Y). exact GO.
      + assert (GS : forall h, suspended tr h -> h <> me).
        { intros h S ->. destruct (good_hd _ _ _ G) as ((M1 & _) & _).
          apply (proj2 (proj2 (f_susp _ _ (good_facts _ _ (good_tl _ _ _ G)) _ S)) t Ht). auto. }
        assert (FE : forall t' a, t' <> t -> foot A (put_susp (f_m F) me (handle A s) s) (f_ph F t') a -> foot A (f_m F) (f_ph F t') a).
        { intros t' a NE Q. destruct (Nat.lt_ge_cases t' n) as [Ht'|Ht']; [|rewrite (l_idle _ _ _ _ _ _ R t' Ht') in Q; destruct Q].
          pose proof (l_ph _ _ _ _ _ _ R t' Ht') as PH.
          destruct (f_ph F t') as [|d h c|[d|me' to' c1|me' to' k'] rest' b' s2]; try exact Q. cbn [ph_ok entry] in PH.
          destruct PH as (_ & _ & (_ & S & _) & _). cbn [foot put_susp m_st] in Q |- *.
          rewrite fc_eqb_ne in Q by (apply GS; exact S). exact Q. }
        constructor; cbn [set_ph wset_ph k_m k_msg k_seen k_ph f_m f_ph put_susp m_lo m_hi m_at m_st m_reg m_mem]; try apply Y.
        * intros h. rewrite HE. destruct (fc_eqb h me); [reflexivity|apply (y_at _ _ _ _ Y)].
        * intros h. destruct (fc_eqb h me); [|apply (y_st _ _ _ _ Y)]. eapply agree_sub; [exact OWN|exact AS].
        * intros t'. destruct (Nat.eqb_spec t' t) as [-> |NE]; [exact Logic.I|].
          eapply ph_sim_mach; [apply (y_ph _ _ _ _ Y)|]. intros a. apply FE. exact NE.
        * intros t' a. destruct (Nat.eqb_spec t' t) as [-> |NE]; [intros []|]. intros Q. apply (y_upd _ _ _ _ Y). apply FE; assumption.
  Qed.
End Conv.

(** Nothing is lost: the executions of the machine in which stores are seen at once (C55) are executions
    of this one. *)
Theorem C56_includes_immediate A L n s new tr F :
  In A ports -> labels_ok A L -> reachable n s -> shuffled (s_tr s) (new ++ tr) -> fexec A L n tr F ->
  exists W, wexec A L n tr W /\
    (forall t x, m_reg (k_m W) t x = m_reg (f_m F) t x) /\ (forall t a, view W t a = m_mem (f_m F) a) /\
    (forall c, m_lo (k_m W) c = m_lo (f_m F) c /\ m_hi (k_m W) c = m_hi (f_m F) c) /\
    (forall h, m_at (k_m W) h = m_at (f_m F) h) /\
    (forall t r c pc, leaving A L F t r c pc -> exists r' c', wleaving A L W t r' c' pc /\ r_sim A r r').
Proof.
  intros IN LAB RE ET X.
  destruct (wconv A L n IN LAB tr F X ltac:(apply (good_app n new); eapply shuffled_good; eauto)) as (W & top & XW & Y & SE).
  exists W. split; [exact XW|]. split; [apply (y_reg _ _ _ _ Y)|]. split; [intros t a; apply (top_view A F W top t a Y), SE|].
  split; [apply (y_geo _ _ _ _ Y)|]. split; [apply (y_at _ _ _ _ Y)|].
  intros t r c pc (x & rest & b & FR & GO & ->). pose proof (y_ph _ _ _ _ Y t) as PS. rewrite FR in PS.
  apply sim_inside in PS as (r' & c' & FR' & RS & _). exists r', c'. split; [|exact RS].
  exists x, rest, b. rewrite (y_reg _ _ _ _ Y). auto.
Qed.
