(** * Interrupts: signal handlers between any two instructions of the routines

    The kernel may run a signal handler at any time, also between two instructions of make_fcontext,
    jump_fcontext or ontop_fcontext. The handler restores all registers when it returns, but it runs on
    the stack that the stack pointer designates at that moment: it overwrites what is below the stack
    pointer. (Calling conventions with a red zone forbid this for some bytes below the stack pointer; the
    handlers here do not respect it.) [irun intr c s o]: the code c, started in s and interrupted any
    number of times, ends in o; an interrupt in state u turns the memory into some m with intr u m.

    [sigrun] is a symbolic run that keeps track of the bytes no interrupt so far can have spoiled;
    [sig_sound] says what its success means. *)
From Coq Require Import ZArith List String Lia Bool.
From Verif Require Import Word AsmMachine AsmSym AsmAbi AsmCheck AsmFacts AsmIl.
Import ListNotations.
Open Scope Z_scope.

(** a byte below the stack pointer p, on the stack that p points into *)
Definition below (stacks : list (Z * Z)) (p a : Z) : Prop :=
  exists lo hi, In (lo, hi) stacks /\ lo <= a < p /\ p <= hi.

(** what a handler does in state u (with stack pointer register [spr]): anything that leaves alone the bytes
    [keep], except those below the stack pointer *)
Definition handler (spr : string) (stacks : list (Z * Z)) (keep : Z -> Prop) (u : mst) (m : Z -> Z) : Prop :=
  (forall a, 0 <= m a < 256) /\ forall a, keep a -> ~ below stacks (rg u spr) a -> m a = mm u a.

Section Irun.
  Variable P : cpu.
  Variable L : string -> Z.
  Variable intr : mst -> (Z -> Z) -> Prop.

  Inductive irun : list instr -> mst -> outcome -> Prop :=
  | r_int c s m o : intr s m -> irun c (St (rg s) m) o -> irun c s o
  | r_step i c s s' o : step1 P L i s = Some s' -> irun c s' o -> irun (i :: c) s o
  | r_go r c s : irun (Go r :: c) s (Goto (rg s r) s)
  | r_exit r c s : irun (Exit r :: c) s (Exited (rg s r))
  | r_fault i c s : match i with Go _ | Exit _ => False | _ => True end -> step1 P L i s = None -> irun (i :: c) s Stuck
  | r_end s : irun [] s Stuck.

  (** without interrupts *)
  Lemma run_irun c s : irun c s (run P L c s).
  Proof.
    revert s. induction c as [|i c IH]; intros s; [constructor|].
    assert (G : match i with Go _ | Exit _ => False | _ => True end ->
              irun (i :: c) s (match step1 P L i s with Some s' => run P L c s' | None => Stuck end)).
    { intros H. destruct (step1 P L i s) as [s'|] eqn:E; [eapply r_step; eauto|apply r_fault; auto]. }
    destruct i; try exact (G Logic.I); constructor.
  Qed.
End Irun.

Section Switch.
  Variable A : port.
  Variable L : string -> Z.
  Variable intr : mst -> (Z -> Z) -> Prop.

  (** a call of jump_fcontext or ontop_fcontext in state s, interrupted any number of times, ends in o *)
  Definition iswitch (k : how) (s : mst) (o : outcome) : Prop :=
    exists o1, irun (ab_cpu (p_abi A)) L intr (code_of A k) s o1 /\
      match o1 with
      | Goto pc u => if goes_on A L (tramp_of k) pc then irun (ab_cpu (p_abi A)) L intr (c_tramp (p_code A)) u o else o = o1
      | _ => o = o1
      end.

  Lemma switch_iswitch k s : iswitch k s (switch A L k s).
  Proof.
    exists (run (ab_cpu (p_abi A)) L (code_of A k) s). split; [apply run_irun|].
    rewrite (switch_rest A L k s). unfold rest_run. destruct (run _ L (code_of A k) s) as [pc t|e|]; [|reflexivity|reflexivity].
    destruct (goes_on _ _ _ _); [apply run_irun|reflexivity].
  Qed.
End Switch.

(** ** The symbolic run *)
Section Sig.
  Variable P : cpu.
  Variable spr : string.                (* the stack pointer *)
  Variable sps : list region.           (* where it may point *)
  Variable regions : list region.
  Variable known : list wentry.
  Variable nz : list sval.
  Variable al : list (root * Z).

  (** the bytes of K that are not below v *)
  Definition cut (v : sval) (K : list region) : list region :=
    map (fun g : region => let '(r, lo, hi) := g in
           if root_eqb r (fst v) then (r, Z.max lo (snd v), hi) else g) K.

  (** the bytes that an instruction accesses *)
  Definition tch (i : instr) (S : sst) : option region :=
    match i with
    | Ld n _ b o | Sto n _ b o => let v := get S b in Some (fst v, snd v + o, snd v + o + n)
    | Stonz c n _ b o => if sval_eqb (get S c) (RCst, 0) then None else let v := get S b in Some (fst v, snd v + o, snd v + o + n)
    | _ => None
    end.
  Definition is_load (i : instr) : bool := match i with Ld _ _ _ _ => true | _ => false end.

  (** [K]: bytes that are as in the run without interrupts; [ac]: bytes accessed so far. A value may be
      loaded from a byte of K only. *)
  Fixpoint sigrun (c : list instr) (S : sst) (K ac : list region) : option (sst * sval * list region * list region) :=
    let v := get S spr in
    let K := cut v K in
    if in_region sps (fst v) (snd v) 0 then
      match c with
      | [] | Exit _ :: _ => None
      | Go r :: _ => Some (S, get S r, K, ac)
      | i :: t =>
        match sstep P regions known nz al i S with
        | None => None
        | Some S' =>
          match tch i S with
          | None => sigrun t S' K ac
          | Some (r, lo, hi) =>
              if is_load i then if in_region K r lo (hi - lo) then sigrun t S' K ((r, lo, hi) :: ac) else None
              else sigrun t S' ((r, lo, hi) :: K) ((r, lo, hi) :: ac)
          end
        end
      end
    else None.

  (** every accessed byte is clean, or below the final stack pointer v *)
  Definition offs (lo hi : Z) : list Z := map (fun i => lo + Z.of_nat i) (seq 0 (Z.to_nat (hi - lo))).
  Definition settled (v : sval) (K ac : list region) : bool :=
    forallb (fun g : region => let '(r, lo, hi) := g in
      forallb (fun o => in_region K r o 1 || (root_eqb r (fst v) && (o <? snd v))) (offs lo hi)) ac.

  Lemma offs_in lo hi o : lo <= o < hi -> In o (offs lo hi).
  Proof.
    intros H. unfold offs. apply in_map_iff. exists (Z.to_nat (o - lo)). split; [lia|]. apply in_seq. lia.
  Qed.

  (** *** Meaning *)
  Variable L : string -> Z.
  Variable V : root -> Z.
  Variable s0 : mst.
  Hypothesis OK : env_ok P L V s0.
  Hypothesis RG : regions_ok P regions L V s0.
  Hypothesis KN : known_ok P known L V s0.
  Hypothesis NZ : nz_ok P nz L V s0.
  Hypothesis AL : al_ok P al L V s0.
  Local Notation E := (ev P L V s0).

  Definition covd (K : list region) (a : Z) : Prop :=
    exists r lo hi, In (r, lo, hi) K /\ E r + lo <= a < E r + hi.
  Definition covb (K : list region) (a : Z) : bool :=
    existsb (fun g : region => let '(r, lo, hi) := g in (E r + lo <=? a) && (a <? E r + hi)) K.
  Lemma covb_spec K a : covb K a = true <-> covd K a.
  Proof.
    unfold covb, covd. rewrite existsb_exists. split.
    - intros ([[r lo] hi] & I & H). apply andb_true_iff in H as [H1 H2]. apply Z.leb_le in H1. apply Z.ltb_lt in H2. exists r, lo, hi. auto.
    - intros (r & lo & hi & I & H). exists (r, lo, hi). split; [exact I|]. apply andb_true_iff. rewrite Z.leb_le, Z.ltb_lt. exact H.
  Qed.
  Lemma covd_dec K a : covd K a \/ ~ covd K a.
  Proof. destruct (covb K a) eqn:Q; [left; apply covb_spec; exact Q|right; intros H; apply covb_spec in H; congruence]. Qed.
  Lemma covd_incl K K' a : incl K K' -> covd K a -> covd K' a.
  Proof. intros I (r & lo & hi & H & Ha). exists r, lo, hi. auto. Qed.
  Lemma covd_cons g K a : covd (g :: K) a -> covd [g] a \/ covd K a.
  Proof. intros (r & lo & hi & [H|H] & Ha); [left|right]; exists r, lo, hi; (split; [|exact Ha]); [left; exact H|exact H]. Qed.

  Lemma settled_spec v K ac a : settled v K ac = true -> covd ac a ->
    covd K a \/ a < E (fst v) + snd v /\ exists lo hi, In (fst v, lo, hi) ac /\ E (fst v) + lo <= a < E (fst v) + hi.
  Proof.
    intros H (r & lo & hi & I & Ha). unfold settled in H. rewrite forallb_forall in H. specialize (H _ I). cbv beta iota in H.
    rewrite forallb_forall in H. specialize (H (a - E r) (offs_in lo hi (a - E r) ltac:(lia))).
    apply orb_true_iff in H as [H|H].
    - left. apply in_region_spec in H as (l & h & J & ? & ?). exists r, l, h. split; [exact J|lia].
    - right. apply andb_true_iff in H as [H1 H2]. apply root_eqb_eq in H1. apply Z.ltb_lt in H2. subst r.
      split; [lia|]. exists lo, hi. auto.
  Qed.

  Variable stacks : list (Z * Z).
  Variable keep : Z -> Prop.
  (** the handlers may not touch the regions, except below the stack pointer *)
  Hypothesis KEEP : forall a, covd regions a -> keep a.
  Hypothesis DEAD : forall r k p a r' lo hi, in_region sps r k 0 = true -> p = evs P L V s0 (r, k) -> below stacks p a ->
    In (r', lo, hi) regions -> E r' + lo <= a < E r' + hi -> r' = r /\ a < E r + k.

  (** a byte that is never below the stack pointer *)
  Definition safe (a : Z) : Prop := forall r k, in_region sps r k 0 = true -> ~ below stacks (evs P L V s0 (r, k)) a.

  Definition insub (K : list region) : Prop :=
    forall r lo hi, In (r, lo, hi) K -> lo < hi -> exists lo' hi', In (r, lo', hi') regions /\ lo' <= lo /\ hi <= hi'.

  (** u: interrupted; v: not interrupted *)
  Record rel (S : sst) (K : list region) (u v : mst) : Prop := {
    l_sim : sim P regions L V s0 S v;
    l_fit : fits P S;
    l_reg : forall r, rg u r = rg v r;
    l_byte : forall a, 0 <= mm u a < 256;
    l_mem : forall a, covd K a -> mm u a = mm v a;
    l_sub : insub K;
    l_out : forall a, keep a -> safe a -> ~ covd regions a -> mm u a = mm s0 a
  }.

  Lemma cut_cov v K a : covd (cut v K) a -> exists r lo hi, In (r, lo, hi) K /\ E r + lo <= a < E r + hi /\ (r = fst v -> E r + snd v <= a).
  Proof.
    intros (r & lo & hi & I & Ha). unfold cut in I. apply in_map_iff in I as ([[r' lo'] hi'] & Q & I).
    destruct (root_eqb r' (fst v)) eqn:Z0.
    - injection Q as -> <- ->. exists r, lo', hi. split; [exact I|]. split; [lia|]. intros _. lia.
    - injection Q as -> -> ->. exists r, lo, hi. split; [exact I|]. split; [exact Ha|]. intros ->.
      apply root_eqb_neq in Z0. contradiction.
  Qed.

  Lemma cut_sub v K : insub K -> insub (cut v K).
  Proof.
    intros H r lo hi I W. unfold cut in I. apply in_map_iff in I as ([[r' lo'] hi'] & Q & I).
    destruct (root_eqb r' (fst v)); injection Q as -> <- ->.
    - destruct (H _ _ _ I ltac:(lia)) as (l & h & J & ? & ?). exists l, h. split; [exact J|lia].
    - exact (H _ _ _ I W).
  Qed.

  Lemma cut_rel S K u v w : rel S K u v -> rel S (cut w K) u v.
  Proof.
    intros [H1 H2 H3 H4 H5 H6 H7]. constructor; auto.
    - intros a Ha. apply cut_cov in Ha as (r & lo & hi & I & J & _). apply H5. exists r, lo, hi. auto.
    - apply cut_sub. exact H6.
  Qed.

  Lemma int_rel S K u v m : rel S K u v -> in_region sps (fst (get S spr)) (snd (get S spr)) 0 = true ->
    handler spr stacks keep u m -> rel S (cut (get S spr) K) (St (rg u) m) v.
  Proof.
    intros [H1 H2 H3 H4 H5 H6 H7] SP [HB HM]. constructor; cbn [rg mm]; auto.
    - intros a Ha. apply cut_cov in Ha as (r & lo & hi & I & J & Q). rewrite HM.
      + apply H5. exists r, lo, hi. auto.
      + destruct (H6 _ _ _ I ltac:(lia)) as (l & h & I' & ? & ?). apply KEEP. exists r, l, h. split; [exact I'|lia].
      + intros BL. destruct (H6 _ _ _ I ltac:(lia)) as (l & h & I' & ? & ?).
        assert (EQ : rg u spr = evs P L V s0 (fst (get S spr), snd (get S spr))).
        { rewrite H3, (proj1 H1 spr). destruct (get S spr); reflexivity. }
        destruct (DEAD _ _ _ a r l h SP EQ BL I' ltac:(lia)) as [X Y]. specialize (Q X). subst r. lia.
    - apply cut_sub. exact H6.
    - intros a Ka NB NC. rewrite HM; auto. rewrite H3, (proj1 H1 spr). pose proof (NB _ _ SP) as Q. destruct (get S spr); exact Q.
  Qed.

  Lemma tch_touched i S v a : sim P regions L V s0 S v -> (exists S', sstep P regions known nz al i S = Some S') -> touched P i v a ->
    exists g, tch i S = Some g /\ covd [g] a.
  Proof.
    intros H [S' X].
    assert (Z : forall b o n, access P regions al (fst (get S b)) (snd (get S b) + o) n = true -> within (ea P v b o n) n a ->
               covd [(fst (get S b), snd (get S b) + o, snd (get S b) + o + n)] a).
    { intros b o n AC W. destruct (access_sound P regions al L V s0 OK RG AL S v b o n H AC) as (EA & N & I).
      rewrite EA in W. cbn [within] in W. eexists _, _, _. split; [left; reflexivity|]. lia. }
    destruct i; cbn [touched tch]; try contradiction; cbn [sstep] in X.
    - destruct (access _ _ _ _ _ _) eqn:AC; [|discriminate]. intros W. eexists. split; [reflexivity|]. apply Z; assumption.
    - destruct (access _ _ _ _ _ _) eqn:AC; [|discriminate]. intros W. eexists. split; [reflexivity|]. apply Z; assumption.
    - intros [N W]. destruct (sval_eqb (get S c) (RCst, 0)) eqn:Q.
      + exfalso. apply N. apply sval_eqb_eq in Q. rewrite (proj1 H c), Q. reflexivity.
      + destruct (existsb _ nz); [|discriminate]. destruct (access _ _ _ _ _ _) eqn:AC; [|discriminate].
        eexists. split; [reflexivity|]. apply Z; assumption.
  Qed.

  (** what is accessed is in a region *)
  Lemma tch_sub i S S' r lo hi : sstep P regions known nz al i S = Some S' -> tch i S = Some (r, lo, hi) ->
    exists lo' hi', In (r, lo', hi') regions /\ lo' <= lo /\ hi <= hi'.
  Proof.
    intros X T.
    assert (Z : forall b o n, access P regions al (fst (get S b)) (snd (get S b) + o) n = true ->
      exists lo' hi', In (fst (get S b), lo', hi') regions /\ lo' <= snd (get S b) + o /\ snd (get S b) + o + n <= hi').
    { intros b o n AC. unfold access in AC. apply andb_true_iff in AC as [AC _]. apply andb_true_iff in AC as [_ AC].
      apply in_region_spec in AC. exact AC. }
    destruct i; cbn [tch] in T; try discriminate; cbn [sstep] in X.
    - injection T as <- <- <-. destruct (access _ _ _ _ _ _) eqn:AC; [|discriminate]. auto.
    - injection T as <- <- <-. destruct (access _ _ _ _ _ _) eqn:AC; [|discriminate]. auto.
    - destruct (sval_eqb (get S c) (RCst, 0)); [discriminate|]. injection T as <- <- <-.
      destruct (existsb _ nz); [|discriminate]. destruct (access _ _ _ _ _ _) eqn:AC; [|discriminate]. auto.
  Qed.

  (** the bytes that a store has written *)
  Lemma store_rel S K u v x n w r lo hi S' : rel S K u v ->
    (exists lo' hi', In (r, lo', hi') regions /\ lo' <= lo /\ hi <= hi') ->
    x = E r + lo -> hi = lo + n ->
    sim P regions L V s0 S' (St (rg v) (store (cbig P) (mm v) x n w)) -> fits P S' ->
    rel S' ((r, lo, hi) :: K) (St (rg u) (store (cbig P) (mm u) x n w)) (St (rg v) (store (cbig P) (mm v) x n w)).
  Proof.
    intros [H1 H2 H3 H4 H5 H6 H7] (l & h & I & I1 & I2) -> -> SM FT. constructor; cbn [rg mm]; auto.
    - intros a. apply store_byte. exact H4.
    - intros a Ha. unfold store. destruct (_ && _) eqn:Q; [reflexivity|]. apply covd_cons in Ha as [Ha|Ha]; [|auto].
      exfalso. destruct Ha as (r' & lo' & hi' & [X|[]] & Ha). injection X as <- <- <-.
      apply andb_false_iff in Q. rewrite Z.leb_gt, Z.ltb_ge in Q. lia.
    - intros r' lo' hi' [X|J] W; [|exact (H6 _ _ _ J W)]. injection X as <- <- <-. exists l, h. auto.
    - intros a Ka NB NC. rewrite store_out; [apply H7; auto|].
      destruct (Z_le_gt_dec (E r + lo) a), (Z_le_gt_dec (E r + lo + n) a); try lia.
      exfalso. apply NC. exists r, l, h. split; [exact I|lia].
  Qed.

  Definition next (i : instr) (S : sst) (K : list region) : option (list region) :=
    match tch i S with
    | None => Some K
    | Some (r, lo, hi) => if is_load i then if in_region K r lo (hi - lo) then Some K else None else Some ((r, lo, hi) :: K)
    end.

  Lemma step_rel i S S' K K' u v : rel S K u v -> sstep P regions known nz al i S = Some S' -> next i S K = Some K' ->
    exists u' v', step1 P L i u = Some u' /\ step1 P L i v = Some v' /\ rel S' K' u' v'.
  Proof.
    intros R X N. pose proof R as [H1 H2 H3 H4 H5 H6 H7].
    destruct (sstep_sound P regions known nz al L V s0 OK RG KN NZ AL i S v S' H1 H2 X) as (v' & Ev & SM & FT).
    assert (AG : agree (covd K) v u) by (split; intros; symmetry; auto).
    (* no store, or none that is done *)
    assert (G : (forall a, touched P i v a -> covd K a) -> mm v' = mm v -> (forall u', step1 P L i u = Some u' -> mm u' = mm u) -> K' = K ->
      exists u' v', step1 P L i u = Some u' /\ step1 P L i v = Some v' /\ rel S' K' u' v').
    { intros T Mv Mu ->. destruct (step_agree P L (covd K) i v u v' AG T Ev) as (u' & Eu & [A1 A2] & _).
      exists u', v'. split; [exact Eu|]. split; [exact Ev|]. specialize (Mu _ Eu). constructor; auto.
      - rewrite Mu. exact H4.
      - intros a Ha. symmetry. auto.
      - rewrite Mu. exact H7. }
    assert (T0 : tch i S = None -> forall a, touched P i v a -> covd K a).
    { intros Q a Ha. destruct (tch_touched i S v a H1 (ex_intro _ S' X) Ha) as (g & Q' & _). congruence. }
    unfold next in N.
    assert (ST : forall c n r b o (SR : i = Sto n r b o \/ i = Stonz c n r b o /\ sval_eqb (get S c) (RCst, 0) = false),
      exists u' v', step1 P L i u = Some u' /\ step1 P L i v = Some v' /\ rel S' K' u' v').
    { intros c n r b o SR.
      assert (TT : tch i S = Some (fst (get S b), snd (get S b) + o, snd (get S b) + o + n)).
      { destruct SR as [->|[-> Q]]; cbn [tch]; [reflexivity|rewrite Q; reflexivity]. }
      rewrite TT in N. assert (IL : is_load i = false) by (destruct SR as [->|[-> _]]; reflexivity). rewrite IL in N. injection N as <-.
      pose proof (tch_sub i S S' _ _ _ X TT) as SB.
      assert (AC : access P regions al (fst (get S b)) (snd (get S b) + o) n = true).
      { destruct SR as [->|[-> Q]]; cbn [sstep] in X; [|rewrite Q in X; destruct (existsb _ nz); [|discriminate]];
          destruct (access _ _ _ _ _ _); auto; discriminate. }
      destruct (access_sound P regions al L V s0 OK RG AL S v b o n H1 AC) as (EA & NN & I).
      assert (EU : ea P u b o n = Some (E (fst (get S b)) + (snd (get S b) + o))).
      { rewrite <- EA. unfold ea. rewrite H3. reflexivity. }
      assert (SV : step1 P L i v = Some (St (rg v) (store (cbig P) (mm v) (E (fst (get S b)) + (snd (get S b) + o)) n (rg v r))) /\
                   step1 P L i u = Some (St (rg u) (store (cbig P) (mm u) (E (fst (get S b)) + (snd (get S b) + o)) n (rg v r)))).
      { destruct SR as [->|[-> Q]]; cbn [step1]; rewrite EA, EU, ?H3; [split; reflexivity|].
        destruct (rg v c =? 0) eqn:Z0; [|split; reflexivity].
        exfalso. cbn [sstep] in X. rewrite Q in X. destruct (existsb (sval_eqb (get S c)) nz) eqn:Y; [|discriminate].
        apply existsb_exists in Y as (w & Iw & Y). apply sval_eqb_eq in Y. apply Z.eqb_eq in Z0. rewrite (proj1 H1 c), Y in Z0. exact (NZ _ Iw Z0). }
      destruct SV as [SV SU]. rewrite SV in Ev. injection Ev as <-. eexists _, _. split; [exact SU|]. split; [exact SV|].
      eapply (store_rel S K u v); [exact R|exact SB|reflexivity|lia|exact SM|exact FT]. }
    destruct i; try (apply G; [apply T0; reflexivity|cbn [step1] in Ev; injection Ev as <-; reflexivity
                      |intros u' Eu; cbn [step1] in Eu; injection Eu as <-; reflexivity|cbn [tch] in N; congruence]);
      try (cbn [step1] in Ev; discriminate).
    - (* load *)
      cbn [tch is_load] in N. destruct (in_region K _ _ _) eqn:I; [|discriminate]. injection N as <-. apply G.
      + intros a Ha. destruct (tch_touched _ S v a H1 (ex_intro _ S' X) Ha) as (g & Q & Ca). cbn [tch] in Q. injection Q as <-.
        apply in_region_spec in I as (l & h & I & ? & ?). destruct Ca as (r & lo & hi & [Q|[]] & Ca). injection Q as <- <- <-.
        exists (fst (get S b)), l, h. split; [exact I|lia].
      + cbn [step1] in Ev. destruct (ea P v b o n); [|discriminate]. injection Ev as <-. reflexivity.
      + intros u' Eu. cbn [step1] in Eu. destruct (ea P u b o n); [|discriminate]. injection Eu as <-. reflexivity.
      + reflexivity.
    - (* store *) eapply (ST ""%string). left. reflexivity.
    - (* Addz *) apply G; [apply T0; reflexivity| | |cbn [tch] in N; congruence].
      + cbn [step1] in Ev. destruct (rg v c =? 0); injection Ev as <-; reflexivity.
      + intros u' Eu. cbn [step1] in Eu. destruct (rg u c =? 0); injection Eu as <-; reflexivity.
    - (* Stonz *) destruct (sval_eqb (get S c) (RCst, 0)) eqn:Q; [|eapply ST; right; split; [reflexivity|exact Q]].
      assert (Z0 : rg v c = 0) by (apply sval_eqb_eq in Q; rewrite (proj1 H1 c), Q; reflexivity).
      apply G; [apply T0; cbn [tch]; rewrite Q; reflexivity| | |cbn [tch] in N; rewrite Q in N; congruence].
      + cbn [step1] in Ev. rewrite Z0 in Ev. injection Ev as <-. reflexivity.
      + intros u' Eu. cbn [step1] in Eu. rewrite H3, Z0 in Eu. injection Eu as <-. reflexivity.
    - (* Nonz *) apply G; [apply T0; reflexivity| | |cbn [tch] in N; congruence].
      + cbn [step1] in Ev. destruct (rg v c =? 0); [discriminate|]. injection Ev as <-. reflexivity.
      + intros u' Eu. cbn [step1] in Eu. destruct (rg u c =? 0); [discriminate|]. injection Eu as <-. reflexivity.
    - (* Need *) apply G; [apply T0; reflexivity| | |cbn [tch] in N; congruence].
      + cbn [step1] in Ev. destruct (rg v r =? L l); [|discriminate]. injection Ev as <-. reflexivity.
      + intros u' Eu. cbn [step1] in Eu. destruct (rg u r =? L l); [|discriminate]. injection Eu as <-. reflexivity.
  Qed.

  (** one instruction of [sigrun] *)
  Lemma sigrun_cons i c S K ac T f K' ac' : match i with Go _ => False | _ => True end -> sigrun (i :: c) S K ac = Some (T, f, K', ac') ->
    in_region sps (fst (get S spr)) (snd (get S spr)) 0 = true /\
    exists S1 K1 ac1, sstep P regions known nz al i S = Some S1 /\ next i S (cut (get S spr) K) = Some K1 /\
      (ac1 = ac /\ tch i S = None \/ exists g, tch i S = Some g /\ ac1 = g :: ac) /\ sigrun c S1 K1 ac1 = Some (T, f, K', ac').
  Proof.
    intros NG H. cbn [sigrun] in H. destruct (in_region sps (fst (get S spr)) (snd (get S spr)) 0); [|discriminate]. split; [reflexivity|].
    assert (Q : match sstep P regions known nz al i S with
        | None => None
        | Some S' =>
          match tch i S with
          | None => sigrun c S' (cut (get S spr) K) ac
          | Some (r, lo, hi) =>
              if is_load i then if in_region (cut (get S spr) K) r lo (hi - lo) then sigrun c S' (cut (get S spr) K) ((r, lo, hi) :: ac) else None
              else sigrun c S' ((r, lo, hi) :: cut (get S spr) K) ((r, lo, hi) :: ac)
          end
        end = Some (T, f, K', ac')) by (destruct i; try contradiction; try discriminate; exact H).
    clear H. destruct (sstep _ _ _ _ _ i S) as [S1|]; [|discriminate]. unfold next. exists S1.
    destruct (tch i S) as [[[r lo] hi]|] eqn:T0.
    - destruct (is_load i); [destruct (in_region _ _ _ _) eqn:I; [|discriminate]|]; (eexists _, _; split; [reflexivity|split; [reflexivity|split; [right; eexists; split; reflexivity|exact Q]]]).
    - eexists _, _. split; [reflexivity|]. split; [reflexivity|]. split; [left; auto|exact Q].
  Qed.

  Theorem sig_sound c u o : irun P L (handler spr stacks keep) c u o -> forall S K ac v T f K' ac',
    rel S K u v -> sigrun c S K ac = Some (T, f, K', ac') ->
    exists u' v', o = Goto (evs P L V s0 f) u' /\ run P L c v = Goto (evs P L V s0 f) v' /\ rel T K' u' v'.
  Proof.
    induction 1 as [c s m o HI IR IH|i c s s' o ST IR IH|r c s|r c s|i c s NG ST|s]; intros S K ac v T f K' ac' R SG.
    - assert (SP : in_region sps (fst (get S spr)) (snd (get S spr)) 0 = true).
      { destruct c; cbn [sigrun] in SG; (destruct (in_region sps _ _ 0); [reflexivity|discriminate]). }
      pose proof (int_rel _ _ _ _ _ R SP HI) as R'.
      (* cutting twice is cutting once *)
      assert (SG' : sigrun c S (cut (get S spr) K) ac = Some (T, f, K', ac')).
      { assert (CC : cut (get S spr) (cut (get S spr) K) = cut (get S spr) K).
        { unfold cut. rewrite map_map. apply map_ext. intros [[r lo] hi]. destruct (root_eqb r (fst (get S spr))) eqn:Q; rewrite Q; [|reflexivity].
          f_equal. f_equal. lia. }
        destruct c; cbn [sigrun] in *; rewrite ?CC; exact SG. }
      eapply IH; eauto.
    - assert (NG : match i with Go _ => False | _ => True end) by (destruct i; try exact Logic.I; discriminate ST).
      destruct (sigrun_cons _ _ _ _ _ _ _ _ _ NG SG) as (SP & S1 & K1 & ac1 & X & N & _ & SG1).
      destruct (step_rel i S S1 _ K1 s v (cut_rel _ _ _ _ (get S spr) R) X N) as (u1 & v1 & Eu & Ev & R1).
      rewrite Eu in ST. injection ST as <-. destruct (IH _ _ _ _ _ _ _ _ R1 SG1) as (u' & v' & -> & RV & R2).
      exists u', v'. split; [reflexivity|]. split; [|exact R2]. destruct i; try contradiction; try discriminate Ev; cbn [run]; rewrite Ev; exact RV.
    - cbn [sigrun] in SG. destruct (in_region sps _ _ 0); [|discriminate]. injection SG as <- <- <- <-.
      exists s, v. rewrite (l_reg _ _ _ _ R), (proj1 (l_sim _ _ _ _ R) r). split; [reflexivity|]. split; [cbn [run]; rewrite (proj1 (l_sim _ _ _ _ R) r); reflexivity|].
      apply cut_rel. exact R.
    - cbn [sigrun] in SG. destruct (in_region sps _ _ 0); discriminate.
    - assert (NG' : match i with Go _ => False | _ => True end) by (destruct i; try exact Logic.I; exact NG).
      destruct (sigrun_cons _ _ _ _ _ _ _ _ _ NG' SG) as (SP & S1 & K1 & ac1 & X & N & _ & SG1).
      destruct (step_rel i S S1 _ K1 s v (cut_rel _ _ _ _ (get S spr) R) X N) as (u1 & v1 & Eu & _). congruence.
    - cbn [sigrun] in SG. destruct (in_region sps _ _ 0); discriminate.
  Qed.

  (** the code accesses [ac'] only, and the symbolic run is that of AsmSym.v *)
  Lemma sig_acc c S K ac v T f K' ac' : sim P regions L V s0 S v -> fits P S -> sigrun c S K ac = Some (T, f, K', ac') ->
    incl ac ac' /\ srun P regions known nz al c S = Some (T, FGo f) /\
    forall X : Z -> Prop, (forall a, covd ac' a -> X a) -> acc P L X c v.
  Proof.
    revert S K ac v. induction c as [|i c IH]; intros S K ac v H W SG.
    { cbn [sigrun] in SG. destruct (in_region sps _ _ 0); discriminate. }
    assert (D : (exists r, i = Go r) \/ match i with Go _ => False | _ => True end) by (destruct i; eauto).
    destruct D as [[r ->]|NG].
    - cbn [sigrun] in SG. destruct (in_region sps _ _ 0); [|discriminate]. injection SG as <- <- <- <-.
      split; [apply incl_refl|]. split; [reflexivity|]. intros X _. exact Logic.I.
    - destruct (sigrun_cons _ _ _ _ _ _ _ _ _ NG SG) as (SP & S1 & K1 & ac1 & X & N & AC & SG1).
      destruct (sstep_sound P regions known nz al L V s0 OK RG KN NZ AL i S v S1 H W X) as (v1 & E1 & H1 & W1).
      destruct (IH _ _ _ _ H1 W1 SG1) as (I1 & I2 & I3). split; [|split].
      + destruct AC as [[-> _]|(g & _ & ->)]; [exact I1|]. intros x Hx. apply I1. right. exact Hx.
      + destruct i; try contradiction; try discriminate X; cbn [srun]; rewrite X; exact I2.
      + intros Y COV. assert (Q : (forall a, touched P i v a -> Y a) /\ match step1 P L i v with Some s' => acc P L Y c s' | None => False end).
        { split; [|rewrite E1; auto]. intros a Ha. destruct (tch_touched i S v a H (ex_intro _ S1 X) Ha) as (g & Q & Ca). apply COV.
          destruct AC as [[_ Q']|(g' & Q' & ->)]; [congruence|]. rewrite Q in Q'. injection Q' as <-.
          apply (covd_incl [g] ac'); [|exact Ca]. intros x [<-|[]]. apply I1. left. reflexivity. }
        destruct i; try contradiction; try discriminate X; exact Q.
  Qed.

  Lemma sig_end c S K ac T f K' ac' : sigrun c S K ac = Some (T, f, K', ac') ->
    in_region sps (fst (get T spr)) (snd (get T spr)) 0 = true /\ (insub ac -> insub ac').
  Proof.
    revert S K ac. induction c as [|i c IH]; intros S K ac SG.
    { cbn [sigrun] in SG. destruct (in_region sps _ _ 0); discriminate. }
    assert (D : (exists r, i = Go r) \/ match i with Go _ => False | _ => True end) by (destruct i; eauto).
    destruct D as [[r ->]|NG].
    - cbn [sigrun] in SG. destruct (in_region sps (fst (get S spr)) (snd (get S spr)) 0) eqn:I; [|discriminate SG]. injection SG as <- <- <- <-. auto.
    - destruct (sigrun_cons _ _ _ _ _ _ _ _ _ NG SG) as (SP & S1 & K1 & ac1 & X & N & AC & SG1).
      destruct (IH _ _ _ SG1) as [I1 I2]. split; [exact I1|]. intros J. apply I2.
      destruct AC as [[-> _]|([[r lo] hi] & Q & ->)]; [exact J|]. intros r' lo' hi' [E0|H] W; [|exact (J _ _ _ H W)].
      injection E0 as <- <- <-. eapply tch_sub; eauto.
  Qed.

  Lemma init_rel : rel S0 regions s0 s0.
  Proof.
    constructor; auto.
    - apply sim_init.
    - apply fits_init.
    - destruct OK as (_ & (B & _) & _). exact B.
    - intros r lo hi I _. exists lo, hi. split; [exact I|lia].
  Qed.
End Sig.
