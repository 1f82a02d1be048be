(** * The hypotheses of C54 are met, on every port

    The program of LinkMemWit.v, with a stack allocator of class basic_fixedsize_stack and size 0x2100: thread 0
    constructs a fiber, which comes back, is resumed and ends; its stack is given back. *)
From Coq Require Import ZArith List String Lia Bool Permutation.
From Verif Require Import ListUtil Fiber FiberSpec LinkHist Layout Alloc AllocFacts.
From Verif Require Import Word AsmMachine AsmSym AsmAbi AsmCheck AsmCode AsmCode2 AsmFacts AsmHist P_Asm AsmWit Link P_Link LinkMem P_LinkMem LinkMemWit LinkOs P_LinkOs.
Import ListNotations.
Open Scope list_scope.
Open Scope Z_scope.

Definition q_size (_ : nat) : Z := 0x2100.
Notation q_oexec A := (oexec A wL 1 q_rs q_off q_keep 4096 (fun _ => KFixedMalloc) q_size).

Example C54_hypotheses_met A : In A ports ->
  labels_ok A wL /\ keep_ok A q_rs q_off q_keep /\ reachable 1 q_s /\
  (* C54_allocate: before the construction; malloc may answer 0x4000 *)
  (s_tr q_s = firstn 14 (s_tr q_s) ++ EvAlloc 1 7 :: [] /\
   exists w, q_oexec A [] (q_M0 A) q_blk0 w [] /\
     sane (bits A) 4096 (OAlloc KFixedMalloc 0x2100 (Some 0x4000) true) /\
     answer_ok (bits A) w KFixedMalloc (request (bits A) KFixedMalloc 0x2100) 0x4000 = true /\
     q_rs 1 + 64 + 255 + c_need (p_code A) <= request (bits A) KFixedMalloc 0x2100) /\
  (* C54_refines, C54_accounting, C54_stack_accessible: the fiber is about to end *)
  (s_tr q_s = firstn 5 (s_tr q_s) ++ q_t4 /\ has_stack 1 q_t4 1 /\
   exists w, q_oexec A q_t4 (q_M4 A) q_blk1 w []) /\
  (* C54_deallocate *)
  (has_ontop A -> s_tr q_s = firstn 2 (s_tr q_s) ++ EvFree 1 7 0 :: q_t5 /\ exists M5 w, q_oexec A q_t5 M5 q_blk1 w []).
Proof.
  intros IN. destruct (C53_hypotheses_met A IN) as (LAB & KO & RE & (_ & E1 & _) & (T4 & E4 & _) & F5).
  assert (NE : forall c, (c < 1)%nat -> blk_lo (q_blk1 c) < blk_hi (q_blk1 c)).
  { intros c Hc. assert (c = 0%nat) by lia. subst c. vm_compute. reflexivity. }
  assert (OK : q_rs 1 + 64 + 255 + c_need (p_code A) <= 0x2100 /\ 2 ^ 16 < 2 ^ bits A).
  { assert (Q : forallb (fun A => (q_rs 1 + 64 + 255 + c_need (p_code A) <=? 0x2100) && (2 ^ 16 <? 2 ^ bits A)) ports = true) by (vm_compute; reflexivity).
    rewrite forallb_forall in Q. specialize (Q A IN). apply andb_true_iff in Q as [Q1 Q2]. rewrite Z.leb_le in Q1. rewrite Z.ltb_lt in Q2. lia. }
  assert (T1 : s_tr q_s = firstn 14 (s_tr q_s) ++ EvAlloc 1 7 :: []) by reflexivity.
  assert (SZ : forall old, (forall c a, In (EvAlloc c a) old -> c = 1%nat) -> forall c a, In (EvAlloc c a) old -> sc_size (pa_sctx (q_blk1 c)) = q_size a).
  { intros old H c a I. rewrite (H c a I). reflexivity. }
  split; [exact LAB|]. split; [exact KO|]. split; [exact RE|]. split; [|split].
  - split; [exact T1|].
    assert (X0 : q_lexec A [] (q_M0 A) q_blk0).
    { apply l_start; cbn [q_M0 m_lo m_hi].
      - intros t. split.
        + intros a. cbn [cpu_at q_M0 mm m_mem c0]. unfold mem0. apply store_byte. intros y. apply store_byte. intros z. apply stores_ok. lia.
        + pose proof wit_ports as WP0. rewrite forallb_forall in WP0. specialize (WP0 A IN). intros r. apply (wreg_ok A [] [] [] WP0).
      - intros c _. change (blk_lo (q_blk0 c)) with 0x8000. change (blk_hi (q_blk0 c)) with 0xa000. destruct OK as (_ & OK).
        assert (SPC : space (ab_cpu (p_abi A)) = 2 ^ bits A).
        { assert (Q : forallb (fun A => space (ab_cpu (p_abi A)) =? 2 ^ bits A) ports = true) by (vm_compute; reflexivity).
          rewrite forallb_forall in Q. specialize (Q A IN). apply Z.eqb_eq. exact Q. }
        rewrite SPC. change (2 ^ 16) with 65536 in OK. lia.
      - intros c d H1 H2 N. exfalso. lia. }
    assert (T0 : s_tr q_s = s_tr q_s ++ []) by (symmetry; apply app_nil_r).
    destruct (C54_every_placement A wL 1 q_rs q_off q_keep 4096 q_size q_s (s_tr q_s) [] (q_M0 A) q_blk0 IN LAB KO ltac:(lia) RE T0 X0) as (w & O).
    { intros c Hc. vm_compute. reflexivity. }
    { intros c a []. }
    exists w. split; [exact O|]. split; [vm_compute; discriminate|]. split; [|apply OK].
    destruct (C54_accounting A wL 1 q_rs q_off q_keep 4096 _ q_size q_s (s_tr q_s) [] (q_M0 A) q_blk0 w [] IN LAB KO ltac:(lia) RE T0 O) as ((l & N & HL & _ & PW) & _).
    destruct OK as (_ & OK). change (2 ^ 16) with 65536 in OK.
    unfold answer_ok. cbn [page_of request].
    apply andb_true_iff. split; [|reflexivity]. apply andb_true_iff. split.
    { apply andb_true_iff. split; [reflexivity|]. apply Z.ltb_lt. change (Z.max 1 (q_size 0)) with 8448. change (Z.max 1 0x2100) with 0x2100. lia. }
    apply negb_true_iff. apply not_true_is_false. intros EX. apply existsb_exists in EX as (x & Hx & OV).
    eapply Permutation_in in Hx; [|exact PW]. rewrite app_nil_r in Hx. apply in_map_iff in Hx as (c & <- & _).
    vm_compute in OV. discriminate.
  - split; [|split].
    + etransitivity; [exact T4|]. reflexivity.
    + split; [right; exists 7%nat; vm_compute; tauto|]. intros (a & on & H). vm_compute in H. repeat (destruct H as [H|H]; [discriminate|]). exact H.
    + apply (C54_every_placement A wL 1 q_rs q_off q_keep 4096 q_size q_s (firstn 5 (s_tr q_s)) q_t4 (q_M4 A) q_blk1 IN LAB KO ltac:(lia) RE); auto.
      apply SZ. intros c a H. vm_compute in H. repeat (destruct H as [H|H]; [try discriminate; injection H; auto|]). destruct H.
  - intros HO. destruct (F5 HO) as (T5 & M5 & E5). split; [exact T5|]. exists M5.
    apply (C54_every_placement A wL 1 q_rs q_off q_keep 4096 q_size q_s (firstn 3 (s_tr q_s)) q_t5 M5 q_blk1 IN LAB KO ltac:(lia) RE); auto.
    apply SZ. intros c a H. vm_compute in H. repeat (destruct H as [H|H]; [try discriminate; injection H; auto|]). destruct H.
Qed.
