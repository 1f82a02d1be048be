(** The hypotheses of the C56 theorems can be met on every port, and the memory of LinkWeak.v is really
    weaker than that of LinkStep.v. *)
From Coq Require Import ZArith List String Lia Bool Arith.
From Verif Require Import ListUtil Fiber FiberSpec LinkHist LinkShuffle.
From Verif Require Import Word AsmMachine AsmSym AsmAbi AsmCheck AsmCode AsmCode2 AsmFacts AsmHist P_Asm AsmWit AsmIl Link P_Link.
From Verif Require Import LinkStep LinkStepInv LinkStepInv2 LinkStepInv3 P_LinkStep LinkStepConv LinkStepWit LinkWeak LinkWeakInv P_LinkWeak LinkWeakConv LinkWeakHand.
Import ListNotations.
Open Scope list_scope.
Open Scope Z_scope.

Lemma leaving_weak A L n tr F : In A ports -> labels_ok A L -> good n tr -> fexec A L n tr F ->
  exists W, wexec A L n tr W /\ (forall t r c pc, leaving A L F t r c pc -> exists r' c', wleaving A L W t r' c' pc /\ r_sim A r r').
Proof.
  intros IN LAB G X. destruct (wconv A L n IN LAB tr F X G) as (W & top & XW & Y & SE). exists W. split; [exact XW|].
  intros t r c pc (x & rest & b & FR & GO & ->). pose proof (y_ph _ _ _ _ Y t) as PS. rewrite FR in PS.
  apply sim_inside in PS as (r' & c' & FR' & RS & _). exists r', c'. split; [|exact RS].
  exists x, rest, b. rewrite (y_reg _ _ _ _ Y). auto.
Qed.

(** the hypotheses of C56_make, C56_enter, C56_resume, C56_inject and C56_result *)
Example C56_hypotheses_met A : In A ports ->
  labels_ok A wL /\ reachable 1 lk_s /\
  exists new1 new2 new3 W1 pc1 W2 pc2 W3 pc3 c1 c1' c2 c3,
    (shuffled (s_tr lk_s) (new1 ++ lk_t1) /\ wexec A wL 1 lk_t1 W1 /\ wleaving A wL W1 0 (RMake 1) c1 pc1) /\
    (wexec A wL 1 lk_t1 W2 /\ wleaving A wL W2 0 (RFirst (mk_fc 0 1) (mk_fc 1 0) c1') c2 pc2) /\
    (shuffled (s_tr lk_s) (new2 ++ lk_t2) /\ wexec A wL 1 lk_t2 W3 /\ wleaving A wL W3 0 (RSwitch (mk_fc 1 1) (mk_fc 0 1) SwJump) c3 pc3) /\
    (has_ontop A -> exists W4 pc4 c4, shuffled (s_tr lk_s) (new3 ++ lk_t3) /\ wexec A wL 1 lk_t3 W4 /\
       wleaving A wL W4 0 (RSwitch (mk_fc 0 2) (mk_fc 1 1) (SwOntop 9)) c4 pc4).
Proof.
  intros IN. destruct (C55_hypotheses_met A IN) as (LAB & RE & new1 & new2 & new3 & F1 & pc1 & F2 & pc2 & F3 & pc3 & c1 & c2 & c3 & (S1 & X1 & L1) & (X2 & L2) & (S3 & X3 & L3) & H4).
  split; [exact LAB|]. split; [exact RE|].
  assert (GG : forall new tr, shuffled (s_tr lk_s) (new ++ tr) -> good 1 tr) by (intros new tr S; apply (good_app 1 new); eapply shuffled_good; eauto).
  destruct (leaving_weak A wL 1 lk_t1 F1 IN LAB (GG _ _ S1) X1) as (W1 & XW1 & LW1).
  destruct (leaving_weak A wL 1 lk_t1 F2 IN LAB (GG _ _ S1) X2) as (W2 & XW2 & LW2).
  destruct (leaving_weak A wL 1 lk_t2 F3 IN LAB (GG _ _ S3) X3) as (W3 & XW3 & LW3).
  destruct (LW1 _ _ _ _ L1) as (r1 & d1 & K1 & R1). destruct r1; cbn [r_sim] in R1; try contradiction. subst.
  destruct (LW2 _ _ _ _ L2) as (r2 & d2 & K2 & R2). destruct r2 as [|m2 t2 e2|]; cbn [r_sim] in R2; try contradiction. destruct R2 as (<- & <- & _).
  destruct (LW3 _ _ _ _ L3) as (r3 & d3 & K3 & R3). destruct r3 as [| |m3 t3 k3]; cbn [r_sim] in R3; try contradiction. destruct R3 as (<- & <- & <-).
  exists new1, new2, new3, W1, pc1, W2, pc2, W3, pc3, d1, e2, d2, d3. split; [auto|]. split; [auto|]. split; [auto|].
  intros HO. destruct (H4 HO) as (F4 & pc4 & c4 & S4 & X4 & L4).
  destruct (leaving_weak A wL 1 lk_t3 F4 IN LAB (GG _ _ S4) X4) as (W4 & XW4 & LW4).
  destruct (LW4 _ _ _ _ L4) as (r4 & d4 & K4 & R4). destruct r4 as [| |m4 t4 k4]; cbn [r_sim] in R4; try contradiction. destruct R4 as (<- & <- & <-).
  exists W4, pc4, d4. auto.
Qed.

(** the hypotheses of C56_refines, C56_never_stuck and C56_reads_latest *)
Example C56_two_threads A : In A ports ->
  labels_ok A wL /\ reachable 2 two_s /\ shuffled (s_tr two_s) (two_new ++ two_tr) /\
  exists W i rest c i' rest' c' a a', wexec A wL 2 two_tr W /\
    k_ph W 0 = Inside (RMake 2) (i :: rest) false c /\ k_ph W 1 = Inside (RMake 3) (i' :: rest') false c' /\
    touched (cpu_of A) i (wcpu W 0) a /\ touched (cpu_of A) i' (wcpu W 1) a'.
Proof.
  intros IN. destruct (C55_two_threads A IN) as (LAB & RE & SH & F & i & rest & c & i' & rest' & c' & a & a' & X & F0 & F1 & T0 & T1).
  split; [exact LAB|]. split; [exact RE|]. split; [exact SH|].
  destruct (wconv A wL 2 IN LAB two_tr F X ltac:(apply (good_app 2 two_new); eapply shuffled_good; eauto)) as (W & top & XW & Y & SE).
  pose proof (y_ph _ _ _ _ Y 0%nat) as P0. rewrite F0 in P0. apply sim_inside in P0 as (r0 & s0 & K0 & R0 & _).
  pose proof (y_ph _ _ _ _ Y 1%nat) as P1. rewrite F1 in P1. apply sim_inside in P1 as (r1 & s1 & K1 & R1 & _).
  destruct r0, r1; cbn [r_sim] in R0, R1; try contradiction. subst.
  exists W, i, rest, s0, i', rest', s1, a, a'. split; [exact XW|]. split; [exact K0|]. split; [exact K1|].
  split; eapply touched_agree; try eassumption; apply (seen_agree A F W top _ Y SE).
Qed.

Lemma own_pos A : In A ports -> 0 < own_len A.
Proof.
  intros IN. assert (H : forallb (fun A => 0 <? own_len A) ports = true) by (vm_compute; reflexivity).
  rewrite forallb_forall in H. apply Z.ltb_lt. apply H. exact IN.
Qed.

(** the hypotheses of C56_handover: the main program of a thread is suspended while its fiber runs *)
Example C56_handover_met A : In A ports ->
  labels_ok A wL /\ reachable 1 lk_s /\
  exists new W a, shuffled (s_tr lk_s) (new ++ lk_t2) /\ wexec A wL 1 lk_t2 W /\
    In (EvSwitch 0 0 (mk_fc 0 1) (mk_fc 1 0) SwCreate) lk_t2 /\ suspended lk_t2 (mk_fc 0 1) /\
    (forall t', goal (k_ph W t') <> Some 0%nat) /\ owned A (k_m W) (mk_fc 0 1) a.
Proof.
  intros IN. destruct (C52_hypotheses_met A IN) as (new1 & new2 & new3 & LAB & RE & _ & (R2 & E2 & _) & _).
  split; [exact LAB|]. split; [exact RE|].
  pose proof (good_reach _ _ RE) as G.
  assert (G2 : good 1 (EvSwitch 0 1 (mk_fc 1 1) (mk_fc 0 1) SwJump :: lk_t2)) by (apply (good_app 1 new2); rewrite <- R2; exact G).
  destruct (next_switch 1 _ _ _ _ _ _ G2 ltac:(discriminate)) as (ST2 & _).
  destruct (conv A wL 1 lk_t2 (lk_M2 A) E2 (good_tl _ _ _ G2)) as (F & X & AF & _).
  destruct (wconv A wL 1 IN LAB lk_t2 F X (good_tl _ _ _ G2)) as (W & top & XW & Y & SE).
  exists (new2 ++ [EvSwitch 0 1 (mk_fc 1 1) (mk_fc 0 1) SwJump]), W, (m_at (k_m W) (mk_fc 0 1)).
  split; [rewrite <- app_assoc; cbn [app]; rewrite <- R2; apply sh_refl|]. split; [exact XW|].
  split; [cbn; tauto|]. split; [exact ST2|]. split.
  - intros t'. pose proof (y_ph _ _ _ _ Y t') as PS. rewrite AF in PS. apply sim_free in PS. rewrite PS. discriminate.
  - unfold owned. pose proof (own_pos A IN). lia.
Qed.

(** A thread stores data and then sets a flag; another thread sees the flag set and the data old. *)
Example C56_weak_memory A : In A ports ->
  exists W, wexec A wL 2 [] W /\ view W 0 0x20 = 42 /\ view W 0 0x30 = 1 /\ view W 1 0x30 = 1 /\ view W 1 0x20 = 0.
Proof.
  intros IN. pose proof wit_ports as WP. rewrite forallb_forall in WP. specialize (WP A IN).
  destruct (witness A [] [] [] WP IN) as (LAB & MK & _).
  pose proof tw_ports as TW. rewrite forallb_forall in TW. specialize (TW A IN).
  unfold tw_ok in TW. do 11 (let X := fresh "X" in apply andb_true_iff in TW as [TW X]). rewrite ?Z.leb_le in *.
  set (M := Mach (fun _ => 0) (fun _ => rg (w0 A [])) (m_lo (tw_M A)) (m_hi (tw_M A)) (fun _ => 0) (fun _ => tw_0 A) (fun _ => clean)).
  assert (E0 : wexec A wL 2 [] (Weak M (fun a p => match p with O => Some 0 | _ => None end) (fun _ _ => O) (fun _ => Free))).
  { apply (w_start A wL 2 M).
    - intros t. split; [cbn; lia|]. apply MK.
    - intros c Hc. cbn. unfold cpu_of in *. destruct (Nat.eqb c 0); lia.
    - intros c d Hc Hd NE. cbn. unfold sdisj. destruct (Nat.eqb_spec c 0), (Nat.eqb_spec d 0); lia. }
  set (W0 := Weak M _ _ _) in E0.
  set (val1 := fun a => if a =? 0x20 then Some 42 else None). set (val2 := fun a => if a =? 0x30 then Some 1 else None).
  assert (NS : forall h, ~ suspended [] h) by (intros h [(? & ? & ? & ? & [] & _) _]).
  assert (E1 : wexec A wL 2 [] (put_stores W0 0 (rg (w0 A [])) val1 (fun _ => 1%nat) (k_ph W0 0))).
  { apply w_code; auto.
    - apply MK.
    - intros a x. unfold val1. destruct (a =? 0x20); [intros [= <-]; lia|discriminate].
    - intros h a S. destruct (NS h S).
    - intros t' a [].
    - intros a x _. cbn. auto. }
  set (W1 := put_stores W0 0 _ _ _ _) in E1.
  assert (E2 : wexec A wL 2 [] (put_stores W1 0 (rg (w0 A [])) val2 (fun _ => 1%nat) (k_ph W1 0))).
  { apply w_code; auto.
    - apply MK.
    - intros a x. unfold val2. destruct (a =? 0x30); [intros [= <-]; lia|discriminate].
    - intros h a S. destruct (NS h S).
    - intros t' a. cbn. destruct (Nat.eqb t' 0); intros [].
    - intros a x. unfold val2. destruct (Z.eqb_spec a 0x30) as [-> |]; [|discriminate]. intros _. cbn. auto. }
  set (W2 := put_stores W1 0 _ _ _ _) in E2.
  exists (Weak (k_m W2) (k_msg W2) (fun t a => if Nat.eqb t 1 && (a =? 0x30) then 1%nat else k_seen W2 t a) (k_ph W2)).
  split; [|repeat split; reflexivity].
  apply w_see; [exact E2|]. intros t a. cbn. unfold val1, val2.
  destruct (Z.eqb_spec a 0x30) as [-> |NE]; cbn.
  - destruct t as [|[|t]]; cbn; split; try lia; discriminate.
  - rewrite andb_false_r. split; [lia|]. destruct (a =? 0x20); cbn; [destruct (Nat.eqb t 0); cbn; discriminate|discriminate].
Qed.
