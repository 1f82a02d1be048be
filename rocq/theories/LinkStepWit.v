(** The hypotheses of the C55 theorems can be met on every port: two threads that create fibers at
    the same time, both inside make_fcontext and about to access memory; and a thread at the last
    instruction of each of the routines. *)
From Coq Require Import ZArith List String Lia Bool.
From Verif Require Import ListUtil Fiber FiberSpec LinkHist LinkShuffle.
From Verif Require Import Word AsmMachine AsmSym AsmAbi AsmCheck AsmCode AsmCode2 AsmFacts AsmHist P_Asm AsmWit AsmIl Link P_Link.
From Verif Require Import LinkStep LinkStepInv LinkStepInv2 LinkStepInv3 P_LinkStep LinkStepConv.
Import ListNotations.
Open Scope list_scope.
Open Scope Z_scope.

(** execute until the next instruction accesses memory *)
Fixpoint upto (P : cpu) (L : string -> Z) (c : list instr) (s : mst) : option (mst * list instr) :=
  match c with
  | [] => None
  | i :: rest =>
      match i with
      | Ld _ _ _ _ | Sto _ _ _ _ | Stonz _ _ _ _ _ => Some (s, c)
      | _ => match step1 P L i s with Some v => upto P L rest v | None => None end
      end
  end.
Definition taddr (P : cpu) (i : instr) (s : mst) : option Z :=
  match i with
  | Ld n _ b o | Sto n _ b o => if 0 <? n then ea P s b o n else None
  | _ => None
  end.
Lemma taddr_touched P i s a : taddr P i s = Some a -> touched P i s a.
Proof.
  destruct i; cbn [taddr touched]; try discriminate; destruct (0 <? n) eqn:E; try discriminate; apply Z.ltb_lt in E; intros ->; cbn [within]; lia.
Qed.

Lemma upto_mem P L c : forall s v rest, upto P L c s = Some (v, rest) -> mm v = mm s.
Proof.
  induction c as [|i c IH]; intros s v rest E; [discriminate|].
  destruct i; cbn [upto step1] in E; try discriminate E; try (injection E as <- _; reflexivity); try (apply IH in E; exact E).
  - destruct (rg s c0 =? 0); apply IH in E; exact E.
  - destruct (rg s c0 =? 0); [discriminate|]. apply IH in E; exact E.
  - destruct (rg s r =? L l); [|discriminate]. apply IH in E; exact E.
Qed.

Lemma run_upto A L n tr : forall c F t r b s v rest, (t < n)%nat -> fexec A L n tr F -> f_ph F t = Inside r c b s ->
  upto (ab_cpu (p_abi A)) L c (cpu_at (f_m F) t) = Some (v, rest) ->
  exists F', fexec A L n tr F' /\ f_ph F' t = Inside r rest b s /\
    mach_eq (f_m F') (put_cpu (f_m F) t v) /\ forall t', t' <> t -> f_ph F' t' = f_ph F t'.
Proof.
  induction c as [|i c IH]; intros F t r b s v rest Ht X FR U; [discriminate|].
  assert (Z : match step1 (ab_cpu (p_abi A)) L i (cpu_at (f_m F) t) with Some v => upto (ab_cpu (p_abi A)) L c v | None => None end = Some (v, rest) ->
    exists F', fexec A L n tr F' /\ f_ph F' t = Inside r rest b s /\ mach_eq (f_m F') (put_cpu (f_m F) t v) /\ forall t', t' <> t -> f_ph F' t' = f_ph F t').
  { destruct (step1 _ L i _) as [w|] eqn:ST; [|discriminate]. intros U'.
    pose proof (i_step A L n tr F t r i c b s w X Ht FR ST) as X1.
    destruct (IH (set_ph F (put_cpu (f_m F) t w) t (Inside r c b s)) t r b s v rest Ht X1) as (F' & X' & FR' & ME & OT).
    - rewrite set_ph_eq. reflexivity.
    - cbn [set_ph f_m]. rewrite put_cpu_at. exact U'.
    - exists F'. split; [exact X'|]. split; [exact FR'|]. split.
      + eapply mach_eq_trans; [exact ME|]. cbn [set_ph f_m]. apply put_twice.
      + intros t' NE. rewrite OT by exact NE. apply set_ph_ne. exact NE. }
  assert (Z0 : Some (cpu_at (f_m F) t, i :: c) = Some (v, rest) ->
    exists F', fexec A L n tr F' /\ f_ph F' t = Inside r rest b s /\ mach_eq (f_m F') (put_cpu (f_m F) t v) /\ forall t', t' <> t -> f_ph F' t' = f_ph F t').
  { intros [= <- <-]. exists F. split; [exact X|]. split; [exact FR|]. split; [|auto].
    unfold mach_eq. cbn. split; [reflexivity|]. split; [|auto]. intros t'. destruct (Nat.eqb_spec t' t) as [->|]; reflexivity. }
  destruct i; cbn [upto] in U; first [apply Z; exact U|apply Z0; exact U].
Qed.

(** ** Two threads create a fiber each *)
Definition two_ops : list (nat * label) := [(0%nat, LUser (UCreate 0 [] true)); (1%nat, LUser (UCreate 0 [] true))].
Definition two_s : state := Eval vm_compute in match Fiber.run (init 2) two_ops with Next s => s | _ => init 0 end.
Lemma two_reach : reachable 2 two_s.
Proof. exists two_ops. vm_compute. reflexivity. Qed.

Definition two_tr : list event := [EvAlloc 3 0; EvAlloc 2 0].
Definition two_new : list event :=
  [EvSwitch 1 1 (mk_fc 1 1) (mk_fc 3 0) SwCreate; EvSwitch 0 0 (mk_fc 0 1) (mk_fc 2 0) SwCreate].
Lemma two_shuffled : shuffled (s_tr two_s) (two_new ++ two_tr).
Proof.
  apply (sh_swap (s_tr two_s) [EvSwitch 1 1 (mk_fc 1 1) (mk_fc 3 0) SwCreate] (EvSwitch 0 0 (mk_fc 0 1) (mk_fc 2 0) SwCreate) (EvAlloc 3 0) [EvAlloc 2 0]).
  - intros c. cbn. lia.
  - apply sh_refl.
Qed.

Section Two.
  Variable A : port.
  Local Notation P := (ab_cpu (p_abi A)).
  Definition tw_sp : Z := 0xd800 - ab_bias (p_abi A).
  Definition tw_args : list (AsmAbi.place * Z) := [(ab_ret (p_abi A), 0x77b); (ab_mksp (p_abi A), 0x4000); (ab_mkfn (p_abi A), 0x1235)].
  Definition tw_mem1 : Z -> Z :=
    fold_right (fun x m => let '(a, n, v) := x in store (cbig P) m a n v) (fun _ => 7) (flat_map (fun x => pmem (fst x) tw_sp (snd x)) tw_args).
  Definition tw_mem (a : Z) : Z := if 0xc000 <=? a then tw_mem1 a else mm (w0 A []) a.
  Definition tw_0 : mst := St (rg (w0 A [])) tw_mem.
  Definition tw_1 : mst := St (wreg A tw_sp tw_args []) tw_mem.
  Definition tw_next (s : mst) : bool :=
    match upto P wL (c_make (p_code A)) s with
    | Some (v, i :: _) => match taddr P i v with Some _ => true | None => false end
    | _ => false
    end.
  Definition tw_ok : bool :=
    make_okb A tw_0 && make_okb A tw_1 && tw_next tw_0 && tw_next tw_1 && (0xe000 <=? space P) &&
    (0x8000 <=? sp A tw_0 - c_mkscr (p_code A)) && (sp A tw_0 + ab_up (p_abi A) <=? 0xa000) &&
    (0xc000 <=? sp A tw_1 - c_mkscr (p_code A)) && (sp A tw_1 + ab_up (p_abi A) <=? 0xe000) &&
    (mk_top A tw_0 =? 0x6000) && (mk_top A tw_1 =? 0x4000) && (c_need (p_code A) <=? 0x2000).
  Definition tw_M : mach :=
    Mach tw_mem (fun t => if Nat.eqb t 0 then rg tw_0 else rg tw_1)
      (fun c => if Nat.eqb c 0 then 0x8000 else 0xc000) (fun c => if Nat.eqb c 0 then 0xa000 else 0xe000)
      (fun _ => 0) (fun _ => tw_0) (fun _ => clean).
End Two.
Lemma tw_ports : forallb tw_ok ports = true.
Proof. vm_compute. reflexivity. Qed.

(** the hypotheses of C55_refines, C55_never_stuck, C55_private, C55_changes_own and C55_no_race *)
Example C55_two_threads A : In A ports ->
  labels_ok A wL /\ reachable 2 two_s /\ shuffled (s_tr two_s) (two_new ++ two_tr) /\
  exists F i rest c i' rest' c' a a', fexec A wL 2 two_tr F /\
    f_ph F 0 = Inside (RMake 2) (i :: rest) false c /\ f_ph F 1 = Inside (RMake 3) (i' :: rest') false c' /\
    touched (cpu_of A) i (cpu_at (f_m F) 0) a /\ touched (cpu_of A) i' (cpu_at (f_m F) 1) a'.
Proof.
  intros IN. pose proof wit_ports as WP. rewrite forallb_forall in WP. specialize (WP A IN).
  destruct (witness A [] [] [] WP IN) as (LAB & MK & _).
  pose proof tw_ports as TW. rewrite forallb_forall in TW. specialize (TW A IN).
  unfold tw_ok in TW. do 11 (let X := fresh "X" in apply andb_true_iff in TW as [TW X]).
  rewrite ?Z.leb_le, ?Z.eqb_eq in *.
  split; [exact LAB|]. split; [exact two_reach|]. split; [exact two_shuffled|].
  assert (WM : forall a, 0 <= tw_mem A a < 256).
  { intros a. unfold tw_mem. destruct (0xc000 <=? a); [|apply (proj1 (proj1 MK))].
    unfold tw_mem1. generalize a. clear a. induction (flat_map _ _) as [|[[b k] v] l IH]; intros a; simpl; [lia|]. apply store_byte. exact IH. }
  assert (W0 : wf (ab_cpu (p_abi A)) (tw_0 A)) by (split; [exact WM|apply (proj2 (proj1 MK))]).
  assert (W1 : wf (ab_cpu (p_abi A)) (tw_1 A)) by (split; [exact WM|apply (wreg_ok A [] [] [] WP)]).
  pose proof (make_okb_ok A _ W0 TW) as M0. pose proof (make_okb_ok A _ W1 X9) as M1.
  assert (E0 : fexec A wL 2 [] (Fine (tw_M A) (fun _ => Free))).
  { apply i_start.
    - intros t. split; [exact WM|]. intros r. cbn. destruct (Nat.eqb t 0); [apply W0|apply W1].
    - intros c Hc. cbn. unfold cpu_of in *. destruct (Nat.eqb c 0); lia.
    - intros c d Hc Hd NE. cbn. unfold sdisj. destruct (Nat.eqb_spec c 0), (Nat.eqb_spec d 0); lia. }
  assert (E1 : fexec A wL 2 [EvAlloc 2 0] (Fine (put_stack (tw_M A) 2 0x4000 0x6000) (fun _ => Free))).
  { refine (i_alloc A wL 2 [] _ 2 0 0x4000 0x6000 E0 _ _ _); [lia|unfold cpu_of in *; lia|].
    intros d _. unfold sdisj. cbn. destruct (Nat.eqb d 0); lia. }
  assert (E2 : fexec A wL 2 two_tr (Fine (put_stack (put_stack (tw_M A) 2 0x4000 0x6000) 3 0x2000 0x4000) (fun _ => Free))).
  { refine (i_alloc A wL 2 [EvAlloc 2 0] _ 3 0 0x2000 0x4000 E1 _ _ _); [lia|unfold cpu_of in *; lia|].
    intros d _. unfold sdisj. cbn. destruct (Nat.eqb d 2); [lia|]. destruct (Nat.eqb d 0); lia. }
  set (M2 := put_stack (put_stack (tw_M A) 2 0x4000 0x6000) 3 0x2000 0x4000) in *.
  assert (C0 : cpu_at M2 0 = tw_0 A) by reflexivity.
  assert (C1 : cpu_at M2 1 = tw_1 A) by reflexivity.
  assert (U2 : untried two_tr 2) by (split; [exists 0%nat; right; left; reflexivity|]; intros e [<-|[<-|[]]]; discriminate).
  assert (U3 : untried two_tr 3) by (split; [exists 0%nat; left; reflexivity|]; intros e [<-|[<-|[]]]; discriminate).
  pose proof (i_make A wL 2 two_tr _ 0 2 E2 ltac:(lia) eq_refl) as E3. cbv zeta in E3. cbn [f_m] in E3. rewrite C0 in E3.
  specialize (E3 U2 ltac:(intros q _; discriminate) M0 X5 X4 ltac:(rewrite X1; unfold M2; cbn [put_stack m_lo m_hi Nat.eqb]; lia) ltac:(rewrite X1; unfold M2; cbn [put_stack m_lo m_hi Nat.eqb]; lia)).
  cbn [rcode rtramp] in E3. set (F3 := set_ph _ _ _ _) in E3.
  assert (E4 : fexec A wL 2 two_tr (set_ph F3 (f_m F3) 1 (Inside (RMake 3) (c_make (p_code A)) false (tw_1 A)))).
  { pose proof (i_make A wL 2 two_tr F3 1 3 E3 ltac:(lia) eq_refl) as E4. cbv zeta in E4. change (f_m F3) with M2 in *. rewrite C1 in E4.
    refine (E4 U3 _ M1 X3 X2 _ _); [|rewrite X0; unfold M2; cbn [put_stack m_lo m_hi Nat.eqb]; lia|rewrite X0; unfold M2; cbn [put_stack m_lo m_hi Nat.eqb]; lia].
    intros q NE. unfold F3, set_ph. cbn [f_ph]. destruct (Nat.eqb q 0); cbn; discriminate. }
  set (F4 := set_ph F3 (f_m F3) 1 _) in *. change (f_m F3) with M2 in *.
  assert (NX : forall s, tw_next A s = true -> exists v i rest a, upto (ab_cpu (p_abi A)) wL (c_make (p_code A)) s = Some (v, i :: rest) /\ touched (ab_cpu (p_abi A)) i v a).
  { intros s H. unfold tw_next in H. destruct (upto _ _ _ s) as [[v [|i rest]]|]; try discriminate.
    destruct (taddr _ i v) as [a|] eqn:TA; [|discriminate]. exists v, i, rest, a. split; [reflexivity|apply taddr_touched; exact TA]. }
  destruct (NX _ X8) as (v & i & rest & a & UP & TO), (NX _ X7) as (v' & i' & rest' & a' & UP' & TO').
  destruct (run_upto A wL 2 two_tr (c_make (p_code A)) F4 0 (RMake 2) false (tw_0 A) v (i :: rest) ltac:(lia) E4 eq_refl UP) as (F5 & E5 & P5 & ME5 & OT5).
  assert (C5 : cpu_at (f_m F5) 1 = tw_1 A).
  { rewrite (mach_eq_cpu _ _ 1 ME5). unfold cpu_at. cbn. rewrite (upto_mem _ _ _ _ _ _ UP). reflexivity. }
  destruct (run_upto A wL 2 two_tr (c_make (p_code A)) F5 1 (RMake 3) false (tw_1 A) v' (i' :: rest') ltac:(lia) E5) as (F6 & E6 & P6 & ME6 & OT6).
  { rewrite OT5 by discriminate. reflexivity. }
  { rewrite C5. exact UP'. }
  exists F6, i, rest, (tw_0 A), i', rest', (tw_1 A), a, a'. split; [exact E6|]. split; [rewrite OT6 by discriminate; exact P5|]. split; [exact P6|]. unfold cpu_of.
  rewrite (mach_eq_cpu _ _ 1 ME6), put_cpu_at. split; [|exact TO'].
  assert (C6 : cpu_at (f_m F6) 0 = v).
  { rewrite (mach_eq_cpu _ _ 0 ME6). unfold cpu_at. cbn. rewrite (upto_mem _ _ _ _ _ _ UP').
    destruct ME5 as (Z1 & Z2 & _). rewrite Z2. cbn. change (St (rg v) (mm (tw_0 A)) = v). rewrite <- (upto_mem _ _ _ _ _ _ UP). apply eta. }
  rewrite C6. exact TO.
Qed.

(** the hypotheses of C55_make, C55_enter, C55_resume, C55_inject and C55_result *)
Example C55_hypotheses_met A : In A ports ->
  labels_ok A wL /\ reachable 1 lk_s /\
  exists new1 new2 new3 F1 pc1 F2 pc2 F3 pc3 c1 c2 c3,
    (shuffled (s_tr lk_s) (new1 ++ lk_t1) /\ fexec A wL 1 lk_t1 F1 /\ leaving A wL F1 0 (RMake 1) c1 pc1) /\
    (fexec A wL 1 lk_t1 F2 /\ leaving A wL F2 0 (RFirst (mk_fc 0 1) (mk_fc 1 0) c1) c2 pc2) /\
    (shuffled (s_tr lk_s) (new2 ++ lk_t2) /\ fexec A wL 1 lk_t2 F3 /\ leaving A wL F3 0 (RSwitch (mk_fc 1 1) (mk_fc 0 1) SwJump) c3 pc3) /\
    (has_ontop A -> exists F4 pc4 c4, shuffled (s_tr lk_s) (new3 ++ lk_t3) /\ fexec A wL 1 lk_t3 F4 /\
       leaving A wL F4 0 (RSwitch (mk_fc 0 2) (mk_fc 1 1) (SwOntop 9)) c4 pc4).
Proof.
  intros IN. pose proof wit_ports as WP. rewrite forallb_forall in WP. specialize (WP A IN).
  pose proof wit3_ports as W3. rewrite forallb_forall in W3. specialize (W3 A IN).
  destruct (witness A [] [] [] WP IN) as (_ & _ & (_ & CS1 & OS1 & _ & _) & _ & _ & _ & AT2' & _ & _).
  unfold wit3 in W3. do 8 (let X := fresh "X" in apply andb_true_iff in W3 as [W3 X]).
  rewrite ?Z.leb_le, ?Z.eqb_eq in *.
  destruct (C52_hypotheses_met A IN) as (new1 & new2 & new3 & LAB & RE & (R1 & E1 & MK & O1 & O2 & T1 & T2) & (R2 & E2 & CS2 & AT2 & OS2) & (R3 & E3 & CS3 & AT3 & OS3)).
  pose proof (good_reach _ _ RE) as G.
  assert (G1 : good 1 (EvSwitch 0 0 (mk_fc 0 1) (mk_fc 1 0) SwCreate :: lk_t1)) by (apply (good_app 1 new1); rewrite <- R1; exact G).
  assert (G2 : good 1 (EvSwitch 0 1 (mk_fc 1 1) (mk_fc 0 1) SwJump :: lk_t2)) by (apply (good_app 1 new2); rewrite <- R2; exact G).
  assert (G3 : good 1 (EvSwitch 0 0 (mk_fc 0 2) (mk_fc 1 1) (SwOntop 9) :: lk_t3)) by (apply (good_app 1 new3); rewrite <- R3; exact G).
  split; [exact LAB|]. split; [exact RE|].
  exists (new1 ++ [EvSwitch 0 0 (mk_fc 0 1) (mk_fc 1 0) SwCreate]), (new2 ++ [EvSwitch 0 1 (mk_fc 1 1) (mk_fc 0 1) SwJump]), (new3 ++ [EvSwitch 0 0 (mk_fc 0 2) (mk_fc 1 1) (SwOntop 9)]).
  (* make, enter *)
  destruct (conv A wL 1 lk_t1 (lk_M1 A) E1 (good_tl _ _ _ G1)) as (Fa & Xa & AFa & MEa).
  pose proof MEa as (_ & _ & La & Ha & _).
  assert (Ca : cpu_at (f_m Fa) 0 = w0 A []).
  { rewrite (mach_eq_cpu _ _ 0 MEa). apply eta. }
  assert (UT : untried lk_t1 1) by (split; [exists 0%nat; left; reflexivity|]; intros e [<-|[]]; discriminate).
  pose proof (i_make A wL 1 lk_t1 Fa 0 1 Xa ltac:(lia) (AFa 0%nat)) as Xb. cbv zeta in Xb. rewrite Ca, La, Ha in Xb.
  specialize (Xb UT ltac:(intros q _; rewrite AFa; discriminate) MK O1 O2 T1 T2). cbn [rcode rtramp] in Xb.
  destruct (C27_make_returns A wL (w0 A []) IN LAB MK) as (q & RM & _). unfold cpu_of in RM.
  assert (QV : q = v0 A []) by (unfold v0; rewrite RM; reflexivity). subst q.
  destruct (run_out A wL 1 lk_t1 (c_make (p_code A)) _ 0 (RMake 1) false (w0 A []) (ret_addr A (w0 A [])) (v0 A []) ltac:(lia) Xb) as (Fb & Xc & LVb & MEb & OTb).
  { rewrite set_ph_eq. reflexivity. }
  { cbn [set_ph f_m]. rewrite Ca. unfold rest_run. rewrite RM. reflexivity. }
  exists Fb, (ret_addr A (w0 A [])). pose proof LVb as (x & rest & b & FRb & _).
  pose proof (i_made A wL 1 lk_t1 Fb 0 1 x rest b (w0 A []) Xc ltac:(lia) FRb) as Xd.
  cbn [set_ph f_m] in MEb.
  assert (HE : m_reg (f_m Fb) 0 (ab_mkres (p_abi A)) = arg_to A (w1 A [] [])).
  { destruct MEb as (_ & Z & _). rewrite Z. cbn. exact X. }
  rewrite HE in Xd. set (Fd := set_ph Fb (f_m Fb) 0 _) in Xd.
  assert (MMb : m_mem (f_m Fd) = mm (v0 A [])) by (destruct MEb as (Z & _); exact Z).
  assert (Xe : fexec A wL 1 lk_t1 (Fine (put_cpu (f_m Fd) 0 (w1 A [] [])) (f_ph Fd))).
  { apply i_code; auto.
    - apply CS1.
    - intros h a _ _. rewrite MMb. reflexivity.
    - intros t' a _. rewrite MMb. reflexivity. }
  set (Fe := Fine (put_cpu (f_m Fd) 0 (w1 A [] [])) (f_ph Fd)) in *.
  assert (Ce : cpu_at (f_m Fe) 0 = w1 A [] []) by apply put_cpu_at.
  assert (Le : m_lo (f_m Fe) = m_lo (lk_M1 A)) by (destruct MEb as (_ & _ & Z & _); exact (eq_trans Z La)).
  assert (He : m_hi (f_m Fe) = m_hi (lk_M1 A)) by (destruct MEb as (_ & _ & _ & Z & _); exact (eq_trans Z Ha)).
  pose proof (i_first A wL 1 lk_t1 Fe 0 (mk_fc 0 1) (mk_fc 1 0) (arg_to A (w1 A [] [])) (w0 A []) Xe ltac:(lia) eq_refl) as Xf.
  cbv zeta in Xf. rewrite Ce, Le, He in Xf. specialize (Xf CS1 eq_refl OS1).
  destruct (ends A wL 1 IN LAB lk_t1 _ 0 (RFirst (mk_fc 0 1) (mk_fc 1 0) (w0 A [])) (rcode A (RFirst (mk_fc 0 1) (mk_fc 1 0) (w0 A []))) (rtramp (RFirst (mk_fc 0 1) (mk_fc 1 0) (w0 A []))) (w1 A [] []) (good_tl _ _ _ G1) Xf) as (F2 & pc2 & X2' & LV2 & _).
  { rewrite set_ph_eq. reflexivity. }
  exists F2, pc2.
  (* resume *)
  destruct (conv A wL 1 lk_t2 (lk_M2 A) E2 (good_tl _ _ _ G2)) as (Fg & Xg & AFg & MEg).
  pose proof MEg as (_ & _ & Lg & Hg & Ag & _).
  assert (Cg : cpu_at (f_m Fg) 0 = w2 A [] [] []) by (rewrite (mach_eq_cpu _ _ 0 MEg); reflexivity).
  destruct (next_switch 1 _ _ _ _ _ _ G2 ltac:(discriminate)) as (ST2 & _ & _ & RT2).
  pose proof (i_call A wL 1 lk_t2 Fg 0 (mk_fc 1 1) (mk_fc 0 1) SwJump Xg ltac:(lia) (AFg 0%nat) ltac:(discriminate)) as Xh.
  cbv zeta in Xh. rewrite Cg, Lg, Hg, Ag, RT2 in Xh.
  specialize (Xh ST2 ltac:(intros q _; rewrite AFg; discriminate) ltac:(discriminate) CS2 AT2 OS2).
  destruct (ends A wL 1 IN LAB lk_t2 _ 0 (RSwitch (mk_fc 1 1) (mk_fc 0 1) SwJump) (rcode A (RSwitch (mk_fc 1 1) (mk_fc 0 1) SwJump)) (rtramp (RSwitch (mk_fc 1 1) (mk_fc 0 1) SwJump)) (w2 A [] [] []) (good_tl _ _ _ G2) Xh) as (F3 & pc3 & X3' & LV3 & _).
  { rewrite set_ph_eq. reflexivity. }
  exists F3, pc3, (w0 A []), (w1 A [] []), (w2 A [] [] []).
  split; [|split; [auto|split]].
  - split; [|auto]. rewrite <- app_assoc. cbn [app]. rewrite <- R1. apply sh_refl.
  - split; [|auto]. rewrite <- app_assoc. cbn [app]. rewrite <- R2. apply sh_refl.
  - intros HO.
    destruct (conv A wL 1 lk_t3 (lk_M3 A) E3 (good_tl _ _ _ G3)) as (Fk & Xk & AFk & MEk).
    pose proof MEk as (_ & _ & Lk & Hk & Ak & _).
    assert (Ck : cpu_at (f_m Fk) 0 = w3 A) by (rewrite (mach_eq_cpu _ _ 0 MEk); reflexivity).
    destruct (next_switch 1 _ _ _ _ _ _ G3 ltac:(discriminate)) as (ST3 & _ & _ & RT3).
    pose proof (i_call A wL 1 lk_t3 Fk 0 (mk_fc 0 2) (mk_fc 1 1) (SwOntop 9) Xk ltac:(lia) (AFk 0%nat) ltac:(discriminate)) as Xl.
    cbv zeta in Xl. rewrite Ck, Lk, Hk, Ak, RT3 in Xl.
    specialize (Xl ST3 ltac:(intros q _; rewrite AFk; discriminate) ltac:(auto) CS3 AT3 OS3).
    destruct (ends A wL 1 IN LAB lk_t3 _ 0 (RSwitch (mk_fc 0 2) (mk_fc 1 1) (SwOntop 9)) (rcode A (RSwitch (mk_fc 0 2) (mk_fc 1 1) (SwOntop 9))) (rtramp (RSwitch (mk_fc 0 2) (mk_fc 1 1) (SwOntop 9))) (w3 A) (good_tl _ _ _ G3) Xl) as (F4 & pc4 & X4' & LV4 & _).
    { rewrite set_ph_eq. reflexivity. }
    exists F4, pc4, (w3 A). split; [|auto]. rewrite <- app_assoc. cbn [app]. rewrite <- R3. apply sh_refl.
Qed.
