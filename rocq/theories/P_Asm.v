(** * C26-C30, C40: the assembler stubs

    Every theorem ranges over all ports of [AsmCode2.ports].  The machine, the
    calling conventions and the notions used in the statements ([call_ok],
    [context], [returned], ...) are defined in AsmMachine.v and AsmAbi.v;
    nothing here mentions the checker. *)
From Coq Require Import ZArith List String Lia Bool Permutation.
From Verif Require Import Word AsmMachine AsmSym AsmAbi AsmCheck AsmCode AsmCode2 AsmFacts AsmHist.
Import ListNotations.
Open Scope Z_scope.

Lemma ports_checked : forallb check ports = true.
Proof. vm_compute. reflexivity. Qed.

Lemma port_checked A : In A ports -> check A = true.
Proof. intros I. pose proof ports_checked as H. rewrite forallb_forall in H. auto. Qed.

Definition cpu_of (A : port) : cpu := ab_cpu (p_abi A).

Definition str_in (r : string) (l : list string) : bool := existsb (String.eqb r) l.
Lemma str_in_ok r l : str_in r l = true -> In r l.
Proof.
  unfold str_in. rewrite existsb_exists. intros (x & I & E).
  apply String.eqb_eq in E. subst x. exact I.
Qed.

(** ** C26 *)

(** A jump from [s2] to the context that was suspended by a call in state [s1]
    makes that call return: same return address, same stack pointer (as after a
    return), same callee-saved registers; its transfer_t is the handle and the
    data pointer of the jumper; and the only memory written is the frame below
    the jumper's stack pointer and the result object of the resumed call. *)
Theorem C26_jump_resumes_suspended_call A L s1 s2 :
  In A ports -> labels_ok A L -> call_ok A L s2 ->
  context A L (mm s2) (arg_to A s2) (Susp s1) -> apart A s2 (arg_to A s2) (Susp s1) ->
  exists t,
    returned A s1 (switch A L Jump s2) t /\
    result A s1 t = (handle A s2, arg_data A s2) /\
    (forall r H, ab_hidret (p_abi A) = Some r -> hidden A s1 = Some H -> rg t r = H) /\
    (forall a, ~ (handle A s2 <= a < sp A s2 + ab_wr (p_abi A)) ->
               (forall H, hidden A s1 = Some H -> ~ (H <= a < H + 2 * cwb (cpu_of A))) ->
               mm t a = mm s2 a) /\
    wf (cpu_of A) t.
Proof.
  intros I LAB CS CX AP. pose proof (port_checked A I) as CHK.
  destruct (context_facts A L LAB CHK _ _ _ CX) as (CS1 & HD & HL).
  destruct (jump_susp A L LAB CHK s2 s1 CS CS1 HD HL AP) as (t & _ & W & R & RES & HR & _ & U).
  exists t. split; [exact R|]. split; [exact RES|]. split; [exact HR|]. split; [|exact W].
  intros a N1 N2. apply U. split; [exact N1|]. split; [|discriminate].
  destruct (hidden A s1) as [H|]; [|exact Logic.I]. apply N2. reflexivity.
Qed.

(** Suspending never faults, and the suspended call is a context afterwards,
    under the handle that the other side was given. *)
Theorem C26_switch_creates_context A L k s o :
  In A ports -> labels_ok A L -> call_ok A L s ->
  context A L (mm s) (arg_to A s) o -> apart A s (arg_to A s) o ->
  (k = Ontop -> has_ontop A /\ exists s', o = Susp s') ->
  exists pc t, switch A L k s = Goto pc t /\ context A L (mm t) (handle A s) (Susp s) /\ wf (cpu_of A) t.
Proof.
  intros I LAB CS CX AP KO. pose proof (port_checked A I) as CHK.
  pose proof (context_facts A L LAB CHK _ _ _ CX) as CF.
  assert (Q : exists pc t, switch A L k s = Goto pc t /\ wf (cpu_of A) t).
  { destruct o as [s0|s1].
    - destruct k; [|destruct (KO eq_refl) as (_ & ? & ?); discriminate].
      destruct CF as (M0 & HD & t0 & T0 & f0 & E0 & SM0 & MEM). rewrite HD in MEM, AP.
      destruct (jump_fresh A L LAB CHK s0 t0 s T0 f0 M0 E0 SM0 CS HD MEM AP)
        as (t & T & _ & _ & SW & Wt & _). eauto.
    - destruct CF as (CS1 & HD & HL). destruct k.
      + destruct (jump_susp A L LAB CHK s s1 CS CS1 HD HL AP) as (t & SW & Wt & _). eauto.
      + destruct (ontop_susp A L LAB CHK s s1 CS CS1 HD HL AP (proj1 (KO eq_refl))) as (t & SW & Wt & _). eauto. }
  destruct Q as (pc & t & SW & W). exists pc, t. split; [exact SW|]. split; [|exact W].
  econstructor; eauto. intros K. apply (KO K).
Qed.

(** ** C27 *)

(** make_fcontext itself returns to its caller with the callee-saved registers
    and the stack pointer intact, yields a handle inside the given stack, and
    writes only the top of that stack (and, on i386, below its own stack
    pointer). *)
Theorem C27_make_returns A L s :
  In A ports -> labels_ok A L -> make_ok A s ->
  exists t,
    run (cpu_of A) L (c_make (p_code A)) s = Goto (ret_addr A s) t /\
    sp A t = sp A s + ab_pop0 (p_abi A) /\
    (forall r, In r (ab_saved (p_abi A)) -> rg t r = rg s r) /\
    (let h := rg t (ab_mkres (p_abi A)) in
     context A L (mm t) h (Made s) /\
     mk_top A s - c_need (p_code A) <= h /\ h + c_size (p_code A) <= mk_top A s /\
     (forall a, ~ (sp A s - c_mkscr (p_code A) <= a < sp A s) ->
                ~ (h <= a < h + c_size (p_code A)) -> mm t a = mm s a)) /\
    wf (cpu_of A) t.
Proof.
  intros I LAB MS. pose proof (port_checked A I) as CHK.
  destruct (make_runs A L LAB CHK s MS) as (t & T & pcv & E & R & W & SM & SP & RS & RES & U).
  destruct (top_range A L CHK s MS) as (T1 & T2 & _ & _).
  exists t. split; [exact R|]. split; [exact SP|]. split; [exact RS|]. split; [|exact W].
  cbv zeta. split; [econstructor; eauto|]. rewrite RES. split; [exact T1|]. split; [lia|].
  intros a U1 U2. apply U; [exact U1|]. lia.
Qed.

(** The first jump to the new context enters the function given to make: with
    the jumper's handle and data pointer as its argument, with an aligned stack
    pointer inside the given stack, with the area the function may write above
    its return address inside it too, with the address of [finish] as its return
    address, and without writing anything but the jumper's frame and the context
    data. *)
Theorem C27_first_jump_enters_function A L s0 s :
  In A ports -> labels_ok A L -> call_ok A L s ->
  context A L (mm s) (arg_to A s) (Made s0) -> apart A s (arg_to A s) (Made s0) ->
  exists t,
    switch A L Jump s = Goto (mk_fn A s0) t /\
    pair_at A t (ab_ent (p_abi A)) = (handle A s, arg_data A s) /\
    ret_addr A t = L "finish"%string /\
    (sp A t + ab_bias (p_abi A)) mod ab_align (p_abi A) = 0 /\
    mk_top A s0 - c_need (p_code A) <= sp A t <= mk_top A s0 /\
    sp A t + ab_pop0 (p_abi A) + ab_home (p_abi A) <= mk_top A s0 /\
    (forall r, In r (ab_ctl (p_abi A)) -> rg t r = rg s0 r) /\
    (forall a, ~ (handle A s <= a < sp A s + ab_wr (p_abi A)) ->
               ~ (arg_to A s <= a < arg_to A s + c_size (p_code A)) -> mm t a = mm s a) /\
    wf (cpu_of A) t.
Proof.
  intros I LAB CS CX AP. pose proof (port_checked A I) as CHK.
  destruct (context_facts A L LAB CHK _ _ _ CX) as (M0 & HD & t0 & T0 & f0 & E0 & SM0 & MEM).
  rewrite HD in *.
  destruct (jump_fresh A L LAB CHK s0 t0 s T0 f0 M0 E0 SM0 CS HD MEM AP)
    as (t & T & _ & _ & SW & Wt & ENT & RET & SPT & OFF & HOME & AL & CTL & _ & U).
  destruct (top_range A L CHK s0 M0) as (T1 & T2 & _ & _).
  exists t. split; [exact SW|]. split; [exact ENT|]. split; [exact RET|]. split; [exact AL|].
  split; [lia|]. split; [lia|]. split; [exact CTL|]. split; [|exact Wt].
  intros a U1 U2. apply U. split; [exact U1|exact U2].
Qed.

(** An argument that is passed in memory, by a pointer in a register: where it is *)
Definition mem_args (A : port) : list (string * Z * Z) :=
  flat_map (fun p => match p with
    | PMem r o n => if String.eqb r (ab_sp (p_abi A)) then [] else [(r, o, n)]
    | PReg _ => []
    end) [fst (ab_ent (p_abi A)); snd (ab_ent (p_abi A))].

Definition marg_okb (A : port) : bool :=
  match fresh_s A with
  | Some (T, _) => forallb (fun x => let '(r, o, n) := x in
      root_eqb (fst (get T r)) (tgt A) &&
      (ent_off A T + ab_pop0 (p_abi A) + ab_home (p_abi A) <=? snd (get T r) + o) &&
      (0 <=? snd (get T r)) && (snd (get T r) <=? c_size (p_code A)) && (0 <=? o) &&
      (snd (get T r) + o + n <=? c_size (p_code A))) (mem_args A)
  | None => false
  end.
Lemma marg_checked : forallb marg_okb ports = true.
Proof. vm_compute. reflexivity. Qed.

(** It is inside the given stack and outside the area the function may write above
    its return address, so the function can use that area without losing its own
    argument. *)
Theorem C27_argument_in_memory_is_safe A L s0 s pc t r o n :
  In A ports -> labels_ok A L -> call_ok A L s ->
  context A L (mm s) (arg_to A s) (Made s0) -> apart A s (arg_to A s) (Made s0) ->
  switch A L Jump s = Goto pc t ->
  In (PMem r o n) [fst (ab_ent (p_abi A)); snd (ab_ent (p_abi A))] -> r <> ab_sp (p_abi A) ->
  sp A t + ab_pop0 (p_abi A) + ab_home (p_abi A) <= rg t r + o /\ rg t r + o + n <= mk_top A s0.
Proof.
  intros I LAB CS CX AP SW J NS. pose proof (port_checked A I) as CHK.
  pose proof marg_checked as MC. rewrite forallb_forall in MC. specialize (MC _ I).
  destruct (context_facts A L LAB CHK _ _ _ CX) as (M0 & HD & t0 & T0 & f0 & E0 & SM0 & MEM).
  rewrite HD in MEM, AP.
  destruct (jump_fresh A L LAB CHK s0 t0 s T0 f0 M0 E0 SM0 CS HD MEM AP)
    as (t' & T & FS & SM & SW' & _ & _ & _ & SPT & _).
  rewrite SW in SW'. injection SW' as -> <-.
  unfold marg_okb in MC. rewrite FS in MC. rewrite forallb_forall in MC.
  assert (IN : In (r, o, n) (mem_args A)).
  { unfold mem_args. apply in_flat_map. exists (PMem r o n). split; [exact J|].
    destruct (String.eqb_spec r (ab_sp (p_abi A))); [contradiction|]. left. reflexivity. }
  specialize (MC _ IN). cbn beta iota in MC.
  repeat (apply andb_true_iff in MC as [MC ?]).
  repeat match goal with H : (_ <=? _) = true |- _ => apply Z.leb_le in H end.
  apply root_eqb_eq in MC.
  destruct (fresh_tgt A L CHK s0 s CS HD) as [TE TW].
  destruct (top_range A L CHK s0 M0) as (T1 & T2 & T3 & T4).
  pose proof M0 as (_ & _ & _ & M2 & _).
  assert (RT : rg t r = aligned_top A L s0 - c_size (p_code A) + snd (get T r)).
  { rewrite (proj1 SM).
    rewrite (evs_word (ab_cpu (p_abi A)) L (V1 A L s0) s (fresh_env A L LAB CHK s0 s M0 CS)) by (rewrite MC, TW; lia).
    rewrite MC, TE. apply Z.mod_small. lia. }
  lia.
Qed.

(** Where a debugger or an exception unwinder finds the back chain (sparc64: the
    saved frame pointer) of the frame in which the function is entered: offset from
    the stack pointer and length *)
Definition back_chain : list (port * Z * Z) :=
  [(port_ppc32 true, 0, 4); (port_ppc32 false, 0, 4); (port_ppc32_macho, 0, 4);
   (port_ppc64 true, 0, 8); (port_ppc64 false, 0, 8); (port_sparc64, 2047 + 112, 8);
   (port_ppc64d false, 0, 8); (port_ppc64d true, 0, 8); (port_ppc32_xcoff, 0, 4)].

Definition bc_okb (x : port * Z * Z) : bool :=
  let '(A, o, n) := x in
  (0 <? n) && str_in (p_name A) (map p_name ports) &&
  match fresh_s A with
  | Some (T, FGo _) =>
      (0 <=? ent_off A T + o) && (ent_off A T + o + n <=? c_size (p_code A)) &&
      is (slook (known_fresh A) (sl T) (tgt A) (ent_off A T + o) n) (RCst, 0)
  | _ => false
  end.
Lemma bc_checked : forallb bc_okb back_chain = true.
Proof. vm_compute. reflexivity. Qed.

Lemma bc_ports A o n : In (A, o, n) back_chain -> In A ports.
Proof.
  intros H. unfold back_chain in H. simpl in H. unfold ports.
  repeat (destruct H as [H|H]; [injection H as <- _ _; simpl; auto 60|]). destruct H.
Qed.

(** The back chain of a new context ends there: it is zero when the function is
    entered. *)
Theorem C27_backtrace_ends_at_entry A L s0 s pc t o n :
  In (A, o, n) back_chain -> labels_ok A L -> call_ok A L s ->
  context A L (mm s) (arg_to A s) (Made s0) -> apart A s (arg_to A s) (Made s0) ->
  switch A L Jump s = Goto pc t ->
  load (cbig (cpu_of A)) (mm t) (sp A t + o) n = 0.
Proof.
  intros J LAB CS CX AP SW. pose proof (bc_ports _ _ _ J) as I. pose proof (port_checked A I) as CHK.
  pose proof bc_checked as BC. rewrite forallb_forall in BC. specialize (BC _ J).
  destruct (context_facts A L LAB CHK _ _ _ CX) as (M0 & HD & t0 & T0 & f0 & E0 & SM0 & MEM).
  rewrite HD in MEM, AP.
  destruct (jump_fresh A L LAB CHK s0 t0 s T0 f0 M0 E0 SM0 CS HD MEM AP)
    as (t' & T & FS & SM & SW' & _ & _ & _ & SPT & _).
  rewrite SW in SW'. injection SW' as -> <-.
  unfold bc_okb in BC. rewrite FS in BC. apply andb_true_iff in BC as [BC0 BC].
  apply andb_true_iff in BC0 as [BN _]. apply andb_true_iff in BC as [BC B3].
  apply andb_true_iff in BC as [B1 B2]. apply Z.ltb_lt in BN. apply Z.leb_le in B1, B2. apply is_some in B3.
  destruct (fresh_tgt A L CHK s0 s CS HD) as [TE _].
  replace (sp A t + o) with (ev (ab_cpu (p_abi A)) L (V1 A L s0) s (tgt A) + (ent_off A T + o))
    by (rewrite TE, SPT; lia).
  change 0 with (evs (ab_cpu (p_abi A)) L (V1 A L s0) s (RCst, 0)).
  eapply sim_load; eauto.
  - apply fresh_env; auto.
  - eapply fresh_regions; eauto.
  - eapply fresh_known; eauto.
  - eapply in_region_intro; [unfold reg_fresh; right; left; reflexivity|lia|lia].
Qed.

(** Position-independent code on mips and ppc64 (ELFv2) computes its own address from
    this register at function entry. *)
Definition entry_reg : list (port * string) :=
  [(port_mips64 true true, "t9"); (port_mips64 true false, "t9"); (port_mips64 false true, "t9");
   (port_mips64 false false, "t9"); (port_mips32 true true, "t9"); (port_mips32 true false, "t9");
   (port_mips32 false true, "t9"); (port_mips32 false false, "t9");
   (port_ppc64 true, "r12"); (port_ppc64 false, "r12")]%string.

Definition er_okb (x : port * string) : bool :=
  let '(A, r) := x in
  match fresh_s A with
  | Some (T, FGo _) => sval_eqb (get T r) (RVar (vroot (ab_mkfn (p_abi A))), 0)
  | _ => false
  end &&
  match ontop_s A with
  | Some (T, FGo _) => sval_eqb (get T r) (vroot (ab_fn (p_abi A)), 0)
  | _ => false
  end.
Lemma er_checked : forallb er_okb entry_reg = true.
Proof. vm_compute. reflexivity. Qed.

Lemma er_ports A r : In (A, r) entry_reg -> In A ports.
Proof.
  intros H. unfold entry_reg in H. simpl in H. unfold ports.
  repeat (destruct H as [H|H]; [injection H as <- _; simpl; auto 60|]). destruct H.
Qed.

Theorem C27_entry_address_register A L s0 s pc t r :
  In (A, r) entry_reg -> labels_ok A L -> call_ok A L s ->
  context A L (mm s) (arg_to A s) (Made s0) -> apart A s (arg_to A s) (Made s0) ->
  switch A L Jump s = Goto pc t -> rg t r = mk_fn A s0 /\ pc = mk_fn A s0.
Proof.
  intros J LAB CS CX AP SW. pose proof (er_ports _ _ J) as I. pose proof (port_checked A I) as CHK.
  pose proof er_checked as BC. rewrite forallb_forall in BC. specialize (BC _ J).
  destruct (context_facts A L LAB CHK _ _ _ CX) as (M0 & HD & t0 & T0 & f0 & E0 & SM0 & MEM).
  rewrite HD in MEM, AP.
  destruct (jump_fresh A L LAB CHK s0 t0 s T0 f0 M0 E0 SM0 CS HD MEM AP)
    as (t' & T & FS & SM & SW' & _).
  rewrite SW in SW'. injection SW' as -> <-. split; [|reflexivity].
  unfold er_okb in BC. rewrite FS in BC. apply andb_true_iff in BC as [BC _]. apply sval_eqb_eq in BC.
  rewrite (proj1 SM), BC. apply fresh_fn; auto.
Qed.

(** On sparc64 the source rounds with the mask -0xf where the verified code has
    -16: the same for every even stack address. *)
Theorem C27_sparc64_source L s :
  wf (cpu_of port_sparc64) s -> Z.even (mk_top port_sparc64 s) = true ->
  run (cpu_of port_sparc64) L make_sparc64_src s = run (cpu_of port_sparc64) L (c_make (p_code port_sparc64)) s.
Proof.
  intros W E. change (mk_top port_sparc64 s) with (rg s "o0") in E.
  change (cpu_of port_sparc64) with (cpu_64 true) in *.
  unfold make_sparc64_src, port_sparc64, p_code, c_make, make_sparc64, make_sparc64_with.
  cbn [run step1].
  change (rg (set_reg (cpu_64 true) s "nsp" ((rg s "sp" + -176) mod space (cpu_64 true))) "o0") with (rg s "o0").
  replace (Z.land (rg s "o0") (-15 mod space (cpu_64 true))) with (Z.land (rg s "o0") (-16 mod space (cpu_64 true)));
    [reflexivity|].
  change (-16 mod space (cpu_64 true)) with (2 ^ 64 - 16). change (-15 mod space (cpu_64 true)) with (2 ^ 64 - 16 + 1).
  apply Z.bits_inj'. intros n Hn. rewrite !Z.land_spec.
  destruct (Z.eq_dec n 0) as [->|N].
  - rewrite Z.bit0_odd, <- Z.negb_even, E. reflexivity.
  - f_equal. replace (2 ^ 64 - 16 + 1) with (2 * (2 ^ 63 - 8) + 1) by reflexivity.
    replace (2 ^ 64 - 16) with (2 * (2 ^ 63 - 8)) by reflexivity.
    replace n with (Z.succ (n - 1)) by lia.
    rewrite Z.testbit_odd_succ, Z.testbit_even_succ by lia. reflexivity.
Qed.

(** ** C28 *)

(** ontop_fcontext(to, data, fn) enters fn exactly as if the suspended caller had
    called it: on its stack, with its callee-saved registers, with its return
    address and with its result object; the argument is the handle and the data
    pointer of the caller of ontop. *)
Theorem C28_ontop_enters_function_on_target A L s1 s2 :
  In A ports -> has_ontop A -> labels_ok A L -> call_ok A L s2 ->
  context A L (mm s2) (arg_to A s2) (Susp s1) -> apart A s2 (arg_to A s2) (Susp s1) ->
  exists t,
    switch A L Ontop s2 = Goto (ontop_pc A L s2) t /\ ontop_fn A s2 t /\
    pair_at A t (ab_ont (p_abi A)) = (handle A s2, arg_data A s2) /\
    sp A t = sp A s1 /\ (forall r, In r (ab_saved (p_abi A)) -> rg t r = rg s1 r) /\
    ret_addr A t = ret_addr A s1 /\ hidden A t = hidden A s1 /\
    (forall a, ~ (handle A s2 <= a < sp A s2 + ab_wr (p_abi A)) ->
               ~ (arg_to A s2 <= a < arg_to A s2 + own_len A) ->
               (forall H, hidden A s1 = Some H -> ~ (H <= a < H + 2 * cwb (cpu_of A))) ->
               mm t a = mm s2 a) /\
    wf (cpu_of A) t.
Proof.
  intros I HO LAB CS CX AP. pose proof (port_checked A I) as CHK.
  destruct (context_facts A L LAB CHK _ _ _ CX) as (CS1 & HD & HL).
  destruct (ontop_susp A L LAB CHK s2 s1 CS CS1 HD HL AP HO)
    as (t & SW & W & FN & SP & RS & RET & HID & ONT & _ & U).
  exists t. do 7 (split; [eassumption|]). split; [|exact W].
  intros a N1 N2 N3. apply U. split; [exact N1|]. split; [|intros _; exact N2].
  destruct (hidden A s1) as [H|]; [|exact Logic.I]. apply N3. reflexivity.
Qed.

Theorem C28_entry_address_register A L s1 s2 pc t r :
  In (A, r) entry_reg -> labels_ok A L -> call_ok A L s2 ->
  context A L (mm s2) (arg_to A s2) (Susp s1) -> apart A s2 (arg_to A s2) (Susp s1) ->
  switch A L Ontop s2 = Goto pc t -> rg t r = arg_fn A s2.
Proof.
  intros J LAB CS CX AP SW. pose proof (er_ports _ _ J) as I. pose proof (port_checked A I) as CHK.
  pose proof er_checked as BC. rewrite forallb_forall in BC. specialize (BC _ J).
  destruct (context_facts A L LAB CHK _ _ _ CX) as (CS1 & HD & HL).
  unfold er_okb in BC. apply andb_true_iff in BC as [_ BC].
  destruct (ontop_s A) as [[T [v|]]|] eqn:E; try discriminate. apply sval_eqb_eq in BC.
  eapply (ontop_reg A L LAB CHK s2 s1); eauto.
Qed.

(** When fn returns as its calling convention demands ([returned A t]), the
    suspended call of the target has returned as its calling convention demands,
    and fn's transfer_t is its result. *)
Theorem C28_ontop_return_completes_suspended_call A L s1 s2 t :
  In A ports -> has_ontop A -> labels_ok A L -> call_ok A L s2 ->
  context A L (mm s2) (arg_to A s2) (Susp s1) -> apart A s2 (arg_to A s2) (Susp s1) ->
  switch A L Ontop s2 = Goto (ontop_pc A L s2) t ->
  forall o u, returned A t o u -> returned A s1 o u /\ result A s1 u = result A t u.
Proof.
  intros I HO LAB CS CX AP SW o u (R1 & R2 & R3).
  destruct (C28_ontop_enters_function_on_target A L s1 s2 I HO LAB CS CX AP)
    as (t' & SW' & _ & _ & SP & RS & RET & HID & _).
  rewrite SW in SW'. injection SW' as <-. split.
  - split; [rewrite <- RET; exact R1|]. split; [rewrite <- SP; exact R2|].
    intros r J. rewrite <- RS by exact J. apply R3. exact J.
  - unfold result. rewrite HID. reflexivity.
Qed.

(** Which ports have ontop code that these theorems cover: all except the Windows
    ports for arm and arm64. *)
Lemma ontop_ports A : In A ports ->
  has_ontop A \/ p_name A = p_name (port_arm_pe false) \/ p_name A = p_name (port_arm64_pe false).
Proof.
  unfold ports, has_ontop. intros H. simpl in H.
  repeat (destruct H as [<-|H]; [first [left; discriminate | right; left; reflexivity | right; right; reflexivity]|]).
  destruct H.
Qed.

(** ** C29 *)

(** In every history of any number of contexts: switching to any other context
    never faults; a context resumed by a jump finds the registers of its call and
    every byte of its stack above its stack pointer as it left them, except its
    result object and what code of other contexts has written there ([x_w]); the
    switch changes no byte of any other suspended context's stack. *)
Theorem C29_history_resume A L c x l1 l2 s1 :
  In A ports -> labels_ok A L -> hist A L c -> others c = (l1 ++ x :: l2)%list -> x_o x = Susp s1 ->
  call_ok A L (now c) -> arg_to A (now c) = x_h x -> on_stack A (now c) (n_lo c) (n_hi c) ->
  exists t,
    returned A s1 (switch A L Jump (now c)) t /\
    result A s1 t = (handle A (now c), arg_data A (now c)) /\
    (forall a, x_lo x <= a < x_hi x ->
       ~ (handle A s1 <= a < sp A s1 + ab_wr (p_abi A)) -> ~ x_w x a ->
       (forall H, hidden A s1 = Some H -> ~ (H <= a < H + 2 * cwb (cpu_of A))) ->
       mm t a = mm s1 a) /\
    (forall a, n_lo c <= a < n_hi c -> ~ (handle A (now c) <= a < sp A (now c) + ab_wr (p_abi A)) ->
       mm t a = mm (now c) a) /\
    (forall y a, In y (l1 ++ l2)%list -> x_lo y <= a < x_hi y -> mm t a = mm (now c) a).
Proof.
  intros I LAB H EO XO CS AT OS. pose proof (port_checked A I) as CHK.
  pose proof (in_mid x l1 l2) as J. rewrite <- EO in J.
  pose proof (hist_inv A L LAB CHK c H) as IV.
  pose proof (inv_apart A L c x IV J OS CS) as AP.
  pose proof IV as (W & N0 & N1 & (PW & PWo) & XI).
  destruct (XI x J) as (CX & X0 & X1 & X2).
  rewrite XO in *. rewrite <- AT in CX, AP.
  destruct (C26_jump_resumes_suspended_call A L s1 (now c) I LAB CS CX AP) as (t & R & RES & _ & U & _).
  destruct X2 as ((Y1 & Y2 & Y3) & HH & LIVE).
  pose proof (wr_up A CHK) as WU. destruct OS as (O1 & O2 & O3).
  assert (DX : sdisj (n_lo c) (n_hi c) (x_lo x) (x_hi x)) by exact (PW _ (in_map stk _ _ J)).
  unfold sdisj in *. fold (cpu_of A) in *.
  exists t. split; [exact R|]. split; [exact RES|]. split; [|split].
  - intros a Ha Hf Hw Hr. rewrite U; [apply LIVE; auto|lia|exact Hr].
  - intros a Ha Hf. apply U; [exact Hf|]. intros Hd EH. rewrite EH in Y3. lia.
  - intros y a Jo Ha.
    assert (Jy : In y (others c)).
    { rewrite EO. apply in_app_or in Jo as [Q|Q]; apply in_or_app; [left|right; right]; exact Q. }
    assert (D : x_hi x <= x_lo y \/ x_hi y <= x_lo x).
    { assert (Q : pw (map stk (x :: l1 ++ l2)%list)).
      { eapply pw_perm; [|exact PWo]. rewrite EO. apply Permutation_map.
        symmetry. apply Permutation_middle. }
      exact (proj1 Q _ (in_map stk _ _ Jo)). }
    pose proof (PW _ (in_map stk _ _ Jy)) as DY. unfold sdisj, stk in DY. cbn [fst snd] in DY.
    apply U; [lia|]. intros Hd EH. rewrite EH in Y3. lia.
Qed.

Theorem C29_history_ontop A L c x s1 :
  In A ports -> has_ontop A -> labels_ok A L -> hist A L c -> In x (others c) -> x_o x = Susp s1 ->
  call_ok A L (now c) -> arg_to A (now c) = x_h x -> on_stack A (now c) (n_lo c) (n_hi c) ->
  exists t,
    switch A L Ontop (now c) = Goto (ontop_pc A L (now c)) t /\ ontop_fn A (now c) t /\
    sp A t = sp A s1 /\ ret_addr A t = ret_addr A s1 /\ hidden A t = hidden A s1 /\
    (forall r, In r (ab_saved (p_abi A)) -> rg t r = rg s1 r) /\
    (forall a, x_lo x <= a < x_hi x -> ~ (handle A s1 <= a < handle A s1 + own_len A) ->
       ~ x_w x a -> (forall H, hidden A s1 = Some H -> ~ (H <= a < H + 2 * cwb (cpu_of A))) ->
       mm t a = mm s1 a) /\
    (forall a, n_lo c <= a < n_hi c -> ~ (handle A (now c) <= a < sp A (now c) + ab_wr (p_abi A)) ->
       mm t a = mm (now c) a).
Proof.
  intros I HO LAB H J XO CS AT OS. pose proof (port_checked A I) as CHK.
  pose proof (hist_inv A L LAB CHK c H) as IV.
  pose proof (inv_apart A L c x IV J OS CS) as AP.
  pose proof IV as (W & N0 & N1 & (PW & _) & XI).
  destruct (XI x J) as (CX & X0 & X1 & X2).
  rewrite XO in *. rewrite <- AT in CX, AP.
  destruct (C28_ontop_enters_function_on_target A L s1 (now c) I HO LAB CS CX AP)
    as (t & SW & FN & _ & SP & RS & RET & HID & U & _).
  destruct X2 as ((Y1 & Y2 & Y3) & HH & LIVE). rewrite AT, HH in U.
  pose proof (wr_up A CHK) as WU. destruct OS as (O1 & O2 & O3).
  assert (DX : sdisj (n_lo c) (n_hi c) (x_lo x) (x_hi x)) by exact (PW _ (in_map stk _ _ J)).
  unfold sdisj in *. unfold own_len, handle in *. fold (cpu_of A) in *.
  exists t. do 6 (split; [assumption|]). split.
  - intros a Ha Hf Hw Hr. rewrite U; [apply LIVE; [lia| |exact Hw]|lia|lia|exact Hr]. lia.
  - intros a Ha Hf. apply U; [exact Hf|lia|]. intros Hd EH. rewrite EH in Y3. lia.
Qed.

(** and a new context is entered as C27 says, whatever happened since make *)
Theorem C29_history_first_entry A L c x s0 :
  In A ports -> labels_ok A L -> hist A L c -> In x (others c) -> x_o x = Made s0 ->
  call_ok A L (now c) -> arg_to A (now c) = x_h x -> on_stack A (now c) (n_lo c) (n_hi c) ->
  exists t,
    switch A L Jump (now c) = Goto (mk_fn A s0) t /\
    pair_at A t (ab_ent (p_abi A)) = (handle A (now c), arg_data A (now c)) /\
    ret_addr A t = L "finish"%string /\
    x_lo x <= sp A t <= x_hi x /\
    (forall a, n_lo c <= a < n_hi c -> ~ (handle A (now c) <= a < sp A (now c) + ab_wr (p_abi A)) ->
       mm t a = mm (now c) a).
Proof.
  intros I LAB H J XO CS AT OS. pose proof (port_checked A I) as CHK.
  pose proof (hist_inv A L LAB CHK c H) as IV.
  pose proof (inv_apart A L c x IV J OS CS) as AP.
  pose proof IV as (W & N0 & N1 & (PW & _) & XI).
  destruct (XI x J) as (CX & X0 & X1 & X2).
  rewrite XO in *.
  destruct (context_facts A L LAB CHK _ _ _ CX) as (M0 & HD & t0 & T0 & f0 & E0 & SM0 & MEM).
  rewrite HD in AT, AP, MEM, X2.
  destruct (jump_fresh A L LAB CHK s0 t0 (now c) T0 f0 M0 E0 SM0 CS AT MEM AP)
    as (t & T & _ & _ & SW & Wt & ENT & RET & SPT & OFF & HOME & AL & CTL & _ & U).
  pose proof (wr_up A CHK) as WU. destruct OS as (O1 & O2 & O3).
  assert (DX : sdisj (n_lo c) (n_hi c) (x_lo x) (x_hi x)) by exact (PW _ (in_map stk _ _ J)).
  unfold sdisj in *.
  exists t. split; [exact SW|]. split; [exact ENT|]. split; [exact RET|]. split; [lia|].
  intros a Ha Hf. apply U. split; [exact Hf|]. lia.
Qed.

(** ** C30 *)

(** every port with an x87 unit and SSE, unless it is built with BOOST_USE_TSX
    (which leaves the control words alone, see [C30_tsx_refuted]) *)
Definition fpu_ports : list port :=
  [port_x64_elf true; port_x64_macho true; port_x64_ms true false; port_x64_ms true true;
   port_x64_cet true;
   port_x86 true false; port_x86 true true; port_x86_macho true; port_x86_ms true].

(** the control registers a port keeps per context, by name *)
Definition ctl_of : list (port * list string) :=
  map (fun A => (A, ["mxcsr"; "x87cw"]%string)) fpu_ports ++
  [(port_x86 true true, ["gs14"]%string); (port_x86 false true, ["gs14"]%string);
   (port_s390x, ["fpc"]%string);
   (port_ppc32 true, ["fpscr"]%string); (port_ppc32 false, ["fpscr"]%string);
   (port_ppc32_macho, ["fpscr"]%string)].

Definition ctl_okb (x : port * list string) : bool :=
  forallb (fun r => str_in r (ab_saved (p_abi (fst x))) && str_in r (ab_ctl (p_abi (fst x)))) (snd x) &&
  negb match c_ontop (p_code (fst x)) with [] => true | _ => false end.
Lemma ctl_checked : forallb ctl_okb ctl_of = true.
Proof. vm_compute. reflexivity. Qed.

Lemma ctl_ports A l : In (A, l) ctl_of -> In A ports.
Proof.
  intros H. unfold ctl_of in H. apply in_app_or in H as [H|H].
  - apply in_map_iff in H as (B & E & H). injection E as -> _.
    unfold fpu_ports in H. simpl in H. unfold ports.
    repeat (destruct H as [<-|H]; [simpl; auto 45|]). destruct H.
  - simpl in H. unfold ports.
    repeat (destruct H as [H|H]; [injection H as <- _; simpl; auto 45|]). destruct H.
Qed.

Lemma ctl_regs A l r : In (A, l) ctl_of -> In r l ->
  In r (ab_saved (p_abi A)) /\ In r (ab_ctl (p_abi A)) /\ has_ontop A.
Proof.
  intros H J. pose proof ctl_checked as K. rewrite forallb_forall in K. specialize (K _ H).
  unfold ctl_okb in K. cbn [fst snd] in K. apply andb_true_iff in K as [K1 K2].
  rewrite forallb_forall in K1. specialize (K1 _ J). apply andb_true_iff in K1 as [K1 K3].
  split; [apply str_in_ok; exact K1|]. split; [apply str_in_ok; exact K3|].
  intros E. rewrite E in K2. discriminate.
Qed.

(** A resumed context gets its own MXCSR and x87 control word back (on s390x:
    FPC, on ppc32: FPSCR; with the TLS stack protector on i386: its own stack
    guard word), whatever the resumer's are; a new context starts with those of
    its creator, whatever those of the context that first jumps to it. *)
Theorem C30_control_words_per_context A L s2 o t pc l r :
  In (A, l) ctl_of -> In r l -> labels_ok A L -> call_ok A L s2 ->
  context A L (mm s2) (arg_to A s2) o -> apart A s2 (arg_to A s2) o ->
  switch A L Jump s2 = Goto pc t ->
  match o with Susp s1 => rg t r = rg s1 r | Made s0 => rg t r = rg s0 r end.
Proof.
  intros I R LAB CS CX AP SW. pose proof (ctl_ports A l I) as IP.
  destruct (ctl_regs A l r I R) as (R1 & R2 & _).
  destruct o as [s0|s1].
  - destruct (C27_first_jump_enters_function A L s0 s2 IP LAB CS CX AP)
      as (t' & SW' & _ & _ & _ & _ & _ & CTL & _).
    rewrite SW in SW'. injection SW' as _ <-. apply CTL. exact R2.
  - destruct (C26_jump_resumes_suspended_call A L s1 s2 IP LAB CS CX AP) as (t' & (SW' & _ & SV) & _).
    rewrite SW in SW'. injection SW' as _ <-. apply SV. exact R1.
Qed.

(** The same for ontop. *)
Theorem C30_control_words_ontop A L s1 s2 t pc l r :
  In (A, l) ctl_of -> In r l -> labels_ok A L -> call_ok A L s2 ->
  context A L (mm s2) (arg_to A s2) (Susp s1) -> apart A s2 (arg_to A s2) (Susp s1) ->
  switch A L Ontop s2 = Goto pc t -> rg t r = rg s1 r.
Proof.
  intros I R LAB CS CX AP SW. pose proof (ctl_ports A l I) as IP.
  destruct (ctl_regs A l r I R) as (R1 & _ & HO).
  destruct (C28_ontop_enters_function_on_target A L s1 s2 IP HO LAB CS CX AP)
    as (t' & SW' & _ & _ & _ & SV & _).
  rewrite SW in SW'. injection SW' as _ <-. apply SV. exact R1.
Qed.

(** ** C40 *)

(** All ports except mips64, whose [finish] relies on memory below the stack
    pointer (see [C40_mips64_refuted]), and x86_64 with shadow stacks, which enters
    the context-function again (see [C40_x64_cet_refuted]). *)
Definition fin_ports : list port :=
  filter (fun A => negb (str_in (p_name A) (map p_name
    [port_x64_cet true; port_x64_cet false; port_mips64 true true; port_mips64 true false; port_mips64 false true; port_mips64 false false]))) ports.

Lemma fin_checked : forallb chk_fin fin_ports = true.
Proof. vm_compute. reflexivity. Qed.

Lemma fin_in A : In A fin_ports -> In A ports.
Proof. unfold fin_ports. rewrite filter_In. tauto. Qed.

(** If the context-function, entered in state [t] by the first jump, returns (in
    state [u]: anything may have changed except memory above the part of the
    stack a callee may write), then control is at [finish] (the return address at
    entry), and [finish] terminates the process with status 0. *)
Theorem C40_return_terminates_process A L s0 s t pc u :
  In A fin_ports -> labels_ok A L -> call_ok A L s ->
  context A L (mm s) (arg_to A s) (Made s0) -> apart A s (arg_to A s) (Made s0) ->
  switch A L Jump s = Goto pc t ->
  wf (cpu_of A) u -> sp A u = sp A t + ab_pop0 (p_abi A) ->
  64 <= sp A u -> sp A u + 64 <= space (cpu_of A) ->
  (forall a, sp A u + ab_home (p_abi A) <= a < arg_to A s + c_size (p_code A) -> mm u a = mm t a) ->
  pc = mk_fn A s0 /\ ret_addr A t = L "finish"%string /\
  run (cpu_of A) L (c_finish (p_code A)) u = Exited 0.
Proof.
  intros IF LAB CS CX AP SW W SPU S1 S2 MU. pose proof (fin_in A IF) as I.
  pose proof (port_checked A I) as CHK.
  pose proof fin_checked as FC. rewrite forallb_forall in FC. specialize (FC A IF).
  destruct (context_facts A L LAB CHK _ _ _ CX) as (M0 & HD & t0 & T0 & f0 & E0 & SM0 & MEM).
  rewrite HD in MEM, AP, MU.
  destruct (jump_fresh A L LAB CHK s0 t0 s T0 f0 M0 E0 SM0 CS HD MEM AP)
    as (t' & T & FS & SM & SW' & Wt & _ & RET & SPT & OFF & _).
  rewrite SW in SW'. injection SW' as -> <-. split; [reflexivity|]. split; [exact RET|].
  unfold chk_fin in FC. rewrite FS in FC. apply andb_true_iff in FC as [FR FK].
  destruct (srun _ _ _ _ _ _ _) as [[T1 [|v]]|] eqn:ER; try discriminate. apply sval_eqb_eq in FR. subst v.
  pose proof (env0 A L LAB CHK u W) as OK.
  assert (RG : regions_ok (cpu_of A) (reg_fin A) L V0 u).
  { split.
    - intros r lo hi J. unfold reg_fin, fin_space in J. cbn [In] in J. destruct J as [J|[]].
      injection J as <- <- <-. change (ev (cpu_of A) L V0 u (own A)) with (sp A u). lia.
    - intros r lo hi r' lo' hi' J J' NE. unfold reg_fin in J, J'. cbn [In] in J, J'.
      destruct J as [J|[]]; destruct J' as [J'|[]]. injection J as <- <- <-. injection J' as <- <- <-. congruence. }
  assert (KN : known_ok (cpu_of A) (known_fin A) L V0 u).
  { intros e J. unfold known_fin in J. apply in_map_iff in J as ([[o n] l] & <- & J).
    rewrite forallb_forall in FK. specialize (FK _ J). cbn beta iota in FK.
    apply andb_true_iff in FK as [FK F5]. apply andb_true_iff in FK as [FK F4].
    apply andb_true_iff in FK as [FK F3]. apply andb_true_iff in FK as [F1 F2].
    apply Z.ltb_lt in F1. apply Z.leb_le in F2, F3, F4. apply is_some in F5.
    cbn [w_root w_off w_len w_val]. change (ev (cpu_of A) L V0 u (own A)) with (sp A u).
    destruct (fresh_tgt A L CHK s0 s CS HD) as [TE _].
    rewrite (load_ext _ _ (mm t)) by (intros x X; apply MU; rewrite SPU in X |- *; lia).
    replace (sp A u + o) with (ev (ab_cpu (p_abi A)) L (V1 A L s0) s (tgt A) + (ent_off A T + ab_pop0 (p_abi A) + o))
      by (rewrite TE, SPU, SPT; lia).
    change (evs (cpu_of A) L V0 u (RLab l, 0)) with (evs (ab_cpu (p_abi A)) L (V1 A L s0) s (RLab l, 0)).
    eapply sim_load; eauto.
    - apply fresh_env; auto.
    - eapply fresh_regions; eauto.
    - eapply fresh_known; eauto.
    - eapply in_region_intro; [unfold reg_fresh; right; left; reflexivity|lia|lia]. }
  assert (NZ : nz_ok (cpu_of A) [] L V0 u) by (intros ? []).
  assert (AL : al_ok (cpu_of A) [] L V0 u) by (intros ? ? []).
  destruct (srun_sound (cpu_of A) (reg_fin A) (known_fin A) [] [] L V0 u OK RG KN NZ AL _ S0 u T1 _
              (sim_init _ _ _ _ _) (fits_init _) ER) as (v & R & _).
  exact R.
Qed.
