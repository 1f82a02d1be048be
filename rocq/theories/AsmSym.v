(** * Symbolic execution of the machine of AsmMachine.v

    A symbolic value is a root (the initial content of a register or of a
    memory cell, a label, ...) plus a constant.  Memory is a log of writes
    relative to such roots.  [srun] executes code on symbolic states; [srun_sound]
    says that what it computes is what the machine does from every concrete
    state in which the regions that are accessed lie inside the address space
    and regions with different roots do not overlap. *)
From Coq Require Import ZArith List String Lia Bool.
From Verif Require Import AsmMachine.
Import ListNotations.
Open Scope Z_scope.

Inductive root :=
| RCst                                (* the constant 0 *)
| RReg (r : string)                   (* initial content of a register *)
| RLab (l : string)                   (* address of a label *)
| RVar (r : root)                     (* value of a root in an earlier state *)
| RCell (b : root) (o n : Z)          (* initial content of n bytes at b + o *)
| RAl (b : root) (o k : Z)            (* (b + o) & k *)
| RSub (b : root) (o : Z) (c : root) (p : Z).   (* (b + o) - (c + p) *)

Definition sval := (root * Z)%type.

Fixpoint root_eqb (a b : root) : bool :=
  match a, b with
  | RCst, RCst => true
  | RReg x, RReg y => String.eqb x y
  | RLab x, RLab y => String.eqb x y
  | RVar x, RVar y => root_eqb x y
  | RCell x o n, RCell y p m => root_eqb x y && (o =? p) && (n =? m)
  | RAl x o n, RAl y p m => root_eqb x y && (o =? p) && (n =? m)
  | RSub x o u p, RSub y o' v p' => root_eqb x y && root_eqb u v && (o =? o') && (p =? p')
  | _, _ => false
  end.

Lemma root_eqb_eq a b : root_eqb a b = true <-> a = b.
Proof.
  split.
  - revert b. induction a; destruct b; simpl; intros H; try discriminate; try reflexivity.
    + apply String.eqb_eq in H; congruence.
    + apply String.eqb_eq in H; congruence.
    + f_equal; auto.
    + apply andb_true_iff in H as [H1 H2]. apply andb_true_iff in H1 as [H0 H1].
      apply Z.eqb_eq in H1, H2. apply IHa in H0. congruence.
    + apply andb_true_iff in H as [H1 H2]. apply andb_true_iff in H1 as [H0 H1].
      apply Z.eqb_eq in H1, H2. apply IHa in H0. congruence.
    + apply andb_true_iff in H as [H H3]. apply andb_true_iff in H as [H H2].
      apply andb_true_iff in H as [H0 H1].
      apply Z.eqb_eq in H2, H3. apply IHa1 in H0. apply IHa2 in H1. congruence.
  - intros <-. induction a; simpl; rewrite ?String.eqb_refl, ?Z.eqb_refl, ?IHa, ?IHa1, ?IHa2; reflexivity.
Qed.

Lemma root_eqb_neq a b : root_eqb a b = false -> a <> b.
Proof. intros H E. apply root_eqb_eq in E. congruence. Qed.

Definition sval_eqb (a b : sval) : bool := root_eqb (fst a) (fst b) && (snd a =? snd b).

Lemma sval_eqb_eq a b : sval_eqb a b = true -> a = b.
Proof.
  destruct a, b. unfold sval_eqb. simpl. intros H. apply andb_true_iff in H as [H1 H2].
  apply root_eqb_eq in H1. apply Z.eqb_eq in H2. congruence.
Qed.

Record wentry := We { w_root : root; w_off : Z; w_len : Z; w_val : sval }.

Record sst := Sst { sr : list (string * sval); sl : list wentry }.

Inductive sfin := FGo (v : sval) | FExit (v : sval).

Section Sym.
  Variable P : cpu.

  Definition get (S : sst) (r : string) : sval :=
    match assoc (sr S) r with Some v => v | None => (RReg r, 0) end.

  Fixpoint wd (r : root) : Z :=
    match r with
    | RCst => 0
    | RReg r => rw P r
    | RLab _ => cwb P
    | RVar r => wd r
    | RCell _ _ n => Z.max 0 n
    | RAl _ _ _ => cwb P
    | RSub _ _ _ _ => cwb P
    end.

  Definition svw (v : sval) : Z := if snd v =? 0 then wd (fst v) else cwb P.

  Definition set (S : sst) (d : string) (v : sval) : option sst :=
    if svw v <=? rw P d then Some (Sst ((d, v) :: sr S) (sl S)) else None.

  Definition region := (root * Z * Z)%type.
  Variable regions : list region.
  Variable known : list wentry.
  Variable nz : list sval.
  Variable al : list (root * Z).      (* roots with known residue modulo 16 *)

  Definition in_region (r : root) (o n : Z) : bool :=
    existsb (fun g : region => let '(r', lo, hi) := g in
               root_eqb r r' && (lo <=? o) && (o + n <=? hi)) regions.

  Definition aligned16 (r : root) (o n : Z) : bool :=
    (n <? 16) ||
    existsb (fun g : root * Z => root_eqb r (fst g) && ((snd g + o) mod 16 =? 0)) al.

  Definition access (r : root) (o n : Z) : bool :=
    (0 <? n) && (wd r <=? cwb P) && in_region r o n && aligned16 r o n.

  Fixpoint klook (k : list wentry) (r : root) (o n : Z) : sval :=
    match k with
    | [] => (RCell r o n, 0)
    | e :: t => if root_eqb r (w_root e) && (o =? w_off e) && (n =? w_len e)
                then w_val e else klook t r o n
    end.

  Fixpoint slook (l : list wentry) (r : root) (o n : Z) : option sval :=
    match l with
    | [] => Some (klook known r o n)
    | e :: t =>
        if root_eqb r (w_root e) then
          if (o =? w_off e) && (n =? w_len e) then Some (w_val e)
          else if (o + n <=? w_off e) || (w_off e + w_len e <=? o) then slook t r o n
          else None
        else slook t r o n
    end.

  Definition sadd (S : sst) (d : string) (v : sval) (k : Z) : option sst :=
    if wd (fst v) <=? cwb P then set S d (fst v, snd v + k) else None.

  Definition sstep (i : instr) (S : sst) : option sst :=
    match i with
    | Mov d r => set S d (get S r)
    | Add d r k => sadd S d (get S r) k
    | And d r k =>
        let v := get S r in
        if wd (fst v) <=? cwb P then set S d (RAl (fst v) (snd v) k, 0) else None
    | Sub d r r' =>
        let v := get S r in let v' := get S r' in
        if (wd (fst v) <=? cwb P) && (wd (fst v') <=? cwb P)
        then set S d (RSub (fst v) (snd v) (fst v') (snd v'), 0) else None
    | Li d k => set S d (RCst, k)
    | La d l => set S d (RLab l, 0)
    | Ld n d b o =>
        let v := get S b in
        if access (fst v) (snd v + o) n then
          match slook (sl S) (fst v) (snd v + o) n with
          | Some x => set S d x
          | None => None
          end
        else None
    | Sto n r b o =>
        let v := get S b in
        if access (fst v) (snd v + o) n && (svw (get S r) <=? n) then
          Some (Sst (sr S) (We (fst v) (snd v + o) n (get S r) :: sl S))
        else None
    | Addz c d r k =>
        if sval_eqb (get S c) (RCst, 0) then sadd S d (get S r) k
        else if existsb (sval_eqb (get S c)) nz then Some S else None
    | Stonz c n r b o =>
        if sval_eqb (get S c) (RCst, 0) then Some S
        else if existsb (sval_eqb (get S c)) nz then
          let v := get S b in
          if access (fst v) (snd v + o) n && (svw (get S r) <=? n) then
            Some (Sst (sr S) (We (fst v) (snd v + o) n (get S r) :: sl S))
          else None
        else None
    | Nonz c => if existsb (sval_eqb (get S c)) nz then Some S else None
    | Sal _ _ | Or _ _ => None
    | Need r l => if sval_eqb (get S r) (RLab l, 0) then Some S else None
    | Go _ | Exit _ => None
    end.

  Fixpoint srun (c : list instr) (S : sst) : option (sst * sfin) :=
    match c with
    | [] => None
    | Go r :: _ => Some (S, FGo (get S r))
    | Exit r :: _ => Some (S, FExit (get S r))
    | i :: t => match sstep i S with Some S' => srun t S' | None => None end
    end.

  (** ** Meaning *)

  Variable L : string -> Z.
  Variable V : root -> Z.
  Variable s0 : mst.

  Fixpoint ev (r : root) : Z :=
    match r with
    | RCst => 0
    | RReg x => rg s0 x
    | RLab l => L l
    | RVar r => V r
    | RCell b o n => load (cbig P) (mm s0) (ev b + o) n
    | RAl b o k => Z.land ((ev b + o) mod space P) (k mod space P)
    | RSub b o c p => ((ev b + o) mod space P - (ev c + p) mod space P) mod space P
    end.

  Definition evs (v : sval) : Z :=
    if snd v =? 0 then ev (fst v) else (ev (fst v) + snd v) mod space P.

  Fixpoint mem_of (l : list wentry) : Z -> Z :=
    match l with
    | [] => mm s0
    | e :: t => store (cbig P) (mem_of t) (ev (w_root e) + w_off e) (w_len e) (evs (w_val e))
    end.

  Definition env_ok : Prop :=
    0 < cwb P /\ wf P s0 /\ (forall l, 0 <= L l < space P) /\ (forall r, 0 <= V r < 256 ^ (wd r)).

  Definition regions_ok : Prop :=
    (forall r lo hi, In (r, lo, hi) regions -> 0 <= ev r + lo /\ ev r + hi <= space P) /\
    (forall r lo hi r' lo' hi', In (r, lo, hi) regions -> In (r', lo', hi') regions -> r <> r' ->
       ev r + hi <= ev r' + lo' \/ ev r' + hi' <= ev r + lo).

  Definition known_ok : Prop :=
    forall e, In e known -> load (cbig P) (mm s0) (ev (w_root e) + w_off e) (w_len e) = evs (w_val e).

  Definition nz_ok : Prop := forall v, In v nz -> evs v <> 0.

  Definition al_ok : Prop := forall r z, In (r, z) al -> ev r mod 16 = z mod 16.

  Definition entry_ok (e : wentry) : Prop :=
    0 < w_len e /\ in_region (w_root e) (w_off e) (w_len e) = true /\ svw (w_val e) <= w_len e.

  Definition sim (S : sst) (s : mst) : Prop :=
    (forall r, rg s r = evs (get S r)) /\ (forall a, mm s a = mem_of (sl S) a) /\
    Forall entry_ok (sl S).

  Hypothesis OK : env_ok.
  Hypothesis RG : regions_ok.
  Hypothesis KN : known_ok.
  Hypothesis NZ : nz_ok.
  Hypothesis AL : al_ok.

  Lemma land_le a b : 0 <= a -> 0 <= b -> 0 <= Z.land a b <= a.
  Proof.
    intros A B. split; [apply Z.land_nonneg; auto|].
    pose proof (Z.lor_ldiff_and a b) as E.
    assert (X : Z.land (Z.ldiff a b) (Z.land a b) = 0).
    { apply Z.bits_inj'. intros n N. rewrite !Z.land_spec, Z.ldiff_spec, Z.bits_0.
      destruct (Z.testbit a n), (Z.testbit b n); reflexivity. }
    assert (Q : Z.ldiff a b + Z.land a b = a).
    { rewrite (Z.add_nocarry_lxor _ _ X), (Z.lxor_lor _ _ X). exact E. }
    assert (0 <= Z.ldiff a b) by (apply Z.ldiff_nonneg; auto). lia.
  Qed.

  Lemma space_pos : 0 < space P.
  Proof. apply Z.pow_pos_nonneg; [lia|]. destruct OK. lia. Qed.

  Lemma ev_range r : 0 <= ev r < 256 ^ (wd r).
  Proof.
    destruct OK as (C & (B & R) & LL & VV). pose proof space_pos as SP.
    induction r; simpl.
    - lia.
    - apply R.
    - apply LL.
    - apply VV.
    - destruct (Z.le_gt_cases 0 n).
      + rewrite Z.max_r by lia. apply load_bound; [lia|exact B].
      + rewrite Z.max_l by lia. unfold load. replace (Z.to_nat n) with O by lia.
        destruct (cbig P); simpl; lia.
    - fold (space P).
      pose proof (Z.mod_pos_bound (ev r + o) (space P) SP).
      pose proof (Z.mod_pos_bound k (space P) SP).
      pose proof (land_le ((ev r + o) mod space P) (k mod space P)). lia.
    - apply Z.mod_pos_bound. exact SP.
  Qed.

  Lemma ev_word r : wd r <= cwb P -> 0 <= ev r < space P.
  Proof.
    intros H. pose proof (ev_range r) as E. split; [lia|]. unfold space.
    assert (256 ^ wd r <= 256 ^ cwb P) by (apply Z.pow_le_mono_r; lia). lia.
  Qed.

  Lemma evs_range v : 0 <= evs v < 256 ^ (svw v).
  Proof.
    unfold evs, svw. destruct (snd v =? 0).
    - apply ev_range.
    - apply Z.mod_pos_bound. apply space_pos.
  Qed.

  Lemma evs_word v : wd (fst v) <= cwb P -> evs v = (ev (fst v) + snd v) mod space P.
  Proof.
    intros H. unfold evs. destruct (snd v =? 0) eqn:E; [|reflexivity].
    apply Z.eqb_eq in E. rewrite E, Z.add_0_r. symmetry. apply Z.mod_small. apply ev_word. exact H.
  Qed.

  Lemma in_region_spec r o n : in_region r o n = true ->
    exists lo hi, In (r, lo, hi) regions /\ lo <= o /\ o + n <= hi.
  Proof.
    unfold in_region. rewrite existsb_exists. intros ([[r' lo] hi] & I & H).
    apply andb_true_iff in H as [H H2]. apply andb_true_iff in H as [H0 H1].
    apply root_eqb_eq in H0. apply Z.leb_le in H1, H2. subst. eauto.
  Qed.

  Lemma in_region_disj r o n r' o' n' :
    in_region r o n = true -> in_region r' o' n' = true -> r <> r' ->
    ev r + o + n <= ev r' + o' \/ ev r' + o' + n' <= ev r + o.
  Proof.
    intros A B N. apply in_region_spec in A as (lo & hi & I & ? & ?).
    apply in_region_spec in B as (lo' & hi' & I' & ? & ?).
    destruct RG as [_ D]. specialize (D _ _ _ _ _ _ I I' N). lia.
  Qed.

  Lemma in_region_bound r o n : in_region r o n = true -> 0 <= ev r + o /\ ev r + o + n <= space P.
  Proof.
    intros A. apply in_region_spec in A as (lo & hi & I & ? & ?).
    destruct RG as [D _]. specialize (D _ _ _ I). lia.
  Qed.

  Lemma klook_sound k r o n :
    (forall e, In e k -> load (cbig P) (mm s0) (ev (w_root e) + w_off e) (w_len e) = evs (w_val e)) ->
    load (cbig P) (mm s0) (ev r + o) n = evs (klook k r o n).
  Proof.
    induction k as [|e t IH]; intros K; cbn [klook].
    - reflexivity.
    - destruct (root_eqb r (w_root e) && (o =? w_off e) && (n =? w_len e)) eqn:E.
      + apply andb_true_iff in E as [E E2]. apply andb_true_iff in E as [E0 E1].
        apply root_eqb_eq in E0. apply Z.eqb_eq in E1, E2. subst r o n. apply K. left; reflexivity.
      + apply IH. intros x X. apply K. right; exact X.
  Qed.

  Lemma slook_sound l r o n v :
    Forall entry_ok l -> 0 < n -> in_region r o n = true -> slook l r o n = Some v ->
    load (cbig P) (mem_of l) (ev r + o) n = evs v.
  Proof.
    induction l as [|e t IH]; intros F N I E; cbn [slook mem_of] in *.
    - injection E as <-. apply klook_sound. exact KN.
    - inversion F as [|? ? (Le & Ie & We) Ft]; subst.
      destruct (root_eqb r (w_root e)) eqn:Q.
      + apply root_eqb_eq in Q. subst r.
        destruct ((o =? w_off e) && (n =? w_len e)) eqn:Q2.
        * injection E as <-. apply andb_true_iff in Q2 as [Qa Qb]. apply Z.eqb_eq in Qa, Qb. subst o n.
          rewrite load_store_same by lia. apply Z.mod_small.
          pose proof (evs_range (w_val e)) as R.
          assert (256 ^ svw (w_val e) <= 256 ^ w_len e) by (apply Z.pow_le_mono_r; lia). lia.
        * destruct ((o + n <=? w_off e) || (w_off e + w_len e <=? o)) eqn:Q3; [|discriminate].
          apply orb_true_iff in Q3. rewrite !Z.leb_le in Q3.
          rewrite load_store_disj by lia. apply IH; auto.
      + apply root_eqb_neq in Q. rewrite load_store_disj; [apply IH; auto|].
        pose proof (in_region_disj _ _ _ _ _ _ I Ie Q). lia.
  Qed.

  Lemma mem_of_bytes l a : 0 <= mem_of l a < 256.
  Proof.
    revert a. induction l as [|e t IH]; intros a; cbn [mem_of].
    - destruct OK as (_ & (B & _) & _). apply B.
    - apply store_byte. exact IH.
  Qed.

  Lemma sim_wf S s : sim S s -> (forall r, svw (get S r) <= rw P r) -> wf P s.
  Proof.
    intros (R & M & _) W. split.
    - intros a. rewrite M. apply mem_of_bytes.
    - intros r. rewrite R. pose proof (evs_range (get S r)) as E. specialize (W r).
      assert (256 ^ svw (get S r) <= 256 ^ rw P r) by (apply Z.pow_le_mono_r; lia). lia.
  Qed.

  Definition fits (S : sst) : Prop := forall r, svw (get S r) <= rw P r.

  Lemma set_sound S s d v S' : sim S s -> fits S -> set S d v = Some S' ->
    sim S' (set_reg P s d (evs v)) /\ fits S'.
  Proof.
    unfold set. intros (R & M & F) W E. destruct (svw v <=? rw P d) eqn:Q; [|discriminate].
    apply Z.leb_le in Q. injection E as <-. split; [split; [|split]|].
    - intros r. unfold get. cbn [sr assoc set_reg rg]. destruct (String.eqb r d) eqn:D.
      + apply Z.mod_small. pose proof (evs_range v) as E.
        assert (256 ^ svw v <= 256 ^ rw P d) by (apply Z.pow_le_mono_r; lia). lia.
      + apply R.
    - intros a. cbn [sl set_reg mm]. apply M.
    - exact F.
    - intros r. unfold get. cbn [sr assoc]. destruct (String.eqb r d) eqn:D; [|apply W].
      apply String.eqb_eq in D. subst. exact Q.
  Qed.

  Lemma sadd_sound S s d r k S' : sim S s -> fits S -> sadd S d (get S r) k = Some S' ->
    sim S' (set_reg P s d ((rg s r + k) mod space P)) /\ fits S'.
  Proof.
    unfold sadd. intros H W E. destruct (wd (fst (get S r)) <=? cwb P) eqn:Q; [|discriminate].
    apply Z.leb_le in Q. pose proof H as (R & _).
    replace ((rg s r + k) mod space P) with (evs (fst (get S r), snd (get S r) + k)).
    - eapply set_sound; eauto.
    - rewrite R, !evs_word by exact Q. simpl. pose proof space_pos.
      rewrite Z.add_mod_idemp_l by lia. f_equal. lia.
  Qed.

  Lemma access_sound S s b o n : sim S s ->
    access (fst (get S b)) (snd (get S b) + o) n = true ->
    ea P s b o n = Some (ev (fst (get S b)) + (snd (get S b) + o)) /\ 0 < n /\
    in_region (fst (get S b)) (snd (get S b) + o) n = true.
  Proof.
    intros (R & _) A. unfold access in A. apply andb_true_iff in A as [A A16].
    apply andb_true_iff in A as [A I].
    apply andb_true_iff in A as [N Wd]. apply Z.ltb_lt in N. apply Z.leb_le in Wd.
    split; [|auto]. unfold ea. rewrite R, evs_word by exact Wd.
    pose proof (in_region_bound _ _ _ I). pose proof space_pos.
    rewrite Z.add_mod_idemp_l by lia.
    rewrite Z.mod_small by lia.
    replace (_ <=? space P) with true by (symmetry; apply Z.leb_le; lia).
    rewrite <- Z.add_assoc. cbn [andb].
    replace (_ || _) with true; [reflexivity|]. symmetry.
    unfold aligned16 in A16. apply orb_true_iff in A16 as [Q|Q]; [rewrite Q; reflexivity|].
    apply existsb_exists in Q as ([r z] & Il & Q). apply andb_true_iff in Q as [Q1 Q2].
    cbn [fst snd] in *. apply root_eqb_eq in Q1. apply Z.eqb_eq in Q2. subst r.
    apply orb_true_iff. right. apply Z.eqb_eq.
    rewrite Z.add_mod, (AL _ _ Il), <- Z.add_mod by lia. exact Q2.
  Qed.

  Lemma sto_sound S s n r b o S' : sim S s -> fits S ->
    (if access (fst (get S b)) (snd (get S b) + o) n && (svw (get S r) <=? n)
     then Some (Sst (sr S) (We (fst (get S b)) (snd (get S b) + o) n (get S r) :: sl S)) else None) = Some S' ->
    exists s', match ea P s b o n with
      | Some a => Some (St (rg s) (store (cbig P) (mm s) a n (rg s r)))
      | None => None end = Some s' /\ sim S' s' /\ fits S'.
  Proof.
    intros H W E. pose proof H as (R & M & F).
    destruct (access _ _ _) eqn:A; [|discriminate]. cbn [andb] in E.
    destruct (svw (get S r) <=? n) eqn:Q; [|discriminate]. injection E as <-.
    destruct (access_sound S s b o n H A) as (EA & N & I).
    rewrite EA. eexists; split; [reflexivity|]. split; [|exact W]. split; [|split].
    + intros x. cbn [rg]. rewrite R. reflexivity.
    + intros a. cbn [mm sl mem_of w_root w_off w_len w_val]. rewrite R.
      unfold store. destruct (_ && _); [reflexivity|apply M].
    + cbn [sl]. constructor; [|exact F]. split; [exact N|]. split; [exact I|].
      apply Z.leb_le in Q. exact Q.
  Qed.

  Lemma sstep_sound i S s S' : sim S s -> fits S -> sstep i S = Some S' ->
    exists s', step1 P L i s = Some s' /\ sim S' s' /\ fits S'.
  Proof.
    intros H W E. pose proof H as (R & M & F). destruct i; cbn [sstep step1] in *.
    - rewrite R. eexists; split; [reflexivity|]. eapply set_sound; eauto.
    - eexists; split; [reflexivity|]. eapply sadd_sound; eauto.
    - destruct (wd (fst (get S s1)) <=? cwb P) eqn:Q; [|discriminate]. apply Z.leb_le in Q.
      eexists; split; [reflexivity|].
      rewrite R, evs_word by exact Q.
      change (Z.land _ _) with (evs (RAl (fst (get S s1)) (snd (get S s1)) k, 0)).
      eapply set_sound; eauto.
    - destruct (wd (fst (get S s1)) <=? cwb P) eqn:Q; [|discriminate]. apply Z.leb_le in Q.
      destruct (wd (fst (get S r)) <=? cwb P) eqn:Q'; [|discriminate]. apply Z.leb_le in Q'.
      eexists; split; [reflexivity|].
      rewrite !R, !evs_word by assumption.
      change (_ mod _) with
        (evs (RSub (fst (get S s1)) (snd (get S s1)) (fst (get S r)) (snd (get S r)), 0)).
      eapply set_sound; eauto.
    - eexists; split; [reflexivity|].
      replace (k mod space P) with (evs (RCst, k)).
      + eapply set_sound; eauto.
      + unfold evs. simpl. destruct (k =? 0) eqn:K; [|reflexivity]. apply Z.eqb_eq in K. subst k.
        symmetry. apply Z.mod_0_l. pose proof space_pos. lia.
    - eexists; split; [reflexivity|]. change (L l) with (evs (RLab l, 0)). eapply set_sound; eauto.
    - destruct (access _ _ _) eqn:A; [|discriminate].
      destruct (access_sound S s b o n H A) as (EA & N & I).
      destruct (slook _ _ _ _) as [x|] eqn:SL; [|discriminate].
      rewrite EA. eexists; split; [reflexivity|].
      rewrite (load_ext _ _ (mem_of (sl S))) by (intros; apply M).
      rewrite (slook_sound _ _ _ _ _ F N I SL). eapply set_sound; eauto.
    - eapply sto_sound; eauto.
    - destruct (sval_eqb (get S c) (RCst, 0)) eqn:Q.
      + apply sval_eqb_eq in Q. rewrite (R c), Q.
        change (evs (RCst, 0)) with 0. rewrite Z.eqb_refl.
        eexists; split; [reflexivity|]. eapply sadd_sound; eauto.
      + destruct (existsb _ nz) eqn:X; [|discriminate]. injection E as <-.
        apply existsb_exists in X as (v & I & Y). apply sval_eqb_eq in Y.
        destruct (rg s c =? 0) eqn:Z0.
        * apply Z.eqb_eq in Z0. rewrite R, Y in Z0. destruct (NZ _ I Z0).
        * eauto.
    - destruct (sval_eqb (get S c) (RCst, 0)) eqn:Q.
      + injection E as <-. apply sval_eqb_eq in Q. rewrite (R c), Q. change (evs (RCst, 0)) with 0. rewrite Z.eqb_refl. eauto.
      + destruct (existsb _ nz) eqn:X; [|discriminate]. apply existsb_exists in X as (v & Iv & Y). apply sval_eqb_eq in Y.
        destruct (rg s c =? 0) eqn:Z0; [apply Z.eqb_eq in Z0; rewrite R, Y in Z0; destruct (NZ _ Iv Z0)|].
        eapply sto_sound; eauto.
    - destruct (existsb _ nz) eqn:X; [|discriminate]. injection E as <-. apply existsb_exists in X as (v & Iv & Y). apply sval_eqb_eq in Y.
      destruct (rg s c =? 0) eqn:Z0; [apply Z.eqb_eq in Z0; rewrite R, Y in Z0; destruct (NZ _ Iv Z0)|eauto].
    - discriminate.
    - discriminate.
    - destruct (sval_eqb _ _) eqn:Q; [|discriminate]. injection E as <-.
      apply sval_eqb_eq in Q. rewrite R, Q. change (evs (RLab l, 0)) with (L l).
      rewrite Z.eqb_refl. eauto.
    - discriminate.
    - discriminate.
  Qed.

  Definition fin_of (f : sfin) (s : mst) : outcome :=
    match f with FGo v => Goto (evs v) s | FExit v => Exited (evs v) end.

  Theorem srun_sound c S s S' f : sim S s -> fits S -> srun c S = Some (S', f) ->
    exists s', run P L c s = fin_of f s' /\ sim S' s' /\ fits S'.
  Proof.
    revert S s. induction c as [|i c IH]; intros S s H W E; [discriminate|].
    assert (G : forall S1, sstep i S = Some S1 -> srun c S1 = Some (S', f) ->
              (match step1 P L i s with Some s' => run P L c s' | None => Stuck end = run P L (i :: c) s) ->
              exists s', run P L (i :: c) s = fin_of f s' /\ sim S' s' /\ fits S').
    { intros S1 E1 E2 Q. destruct (sstep_sound _ _ _ _ H W E1) as (s1 & Z1 & H1 & W1).
      rewrite Z1 in Q. destruct (IH _ _ H1 W1 E2) as (s' & R' & H' & W').
      exists s'. rewrite <- Q. auto. }
    destruct i; cbn [srun] in E;
      try (destruct (sstep _ S) as [S1|] eqn:E1; [|discriminate]; apply (G S1 eq_refl E); reflexivity).
    - injection E as <- <-. exists s. cbn [run fin_of]. rewrite (proj1 H). auto.
    - injection E as <- <-. exists s. cbn [run fin_of]. rewrite (proj1 H). auto.
  Qed.

  Definition S0 : sst := Sst [] [].

  Lemma sim_init : sim S0 s0.
  Proof.
    split; [|split]; [| |constructor].
    - intros r. reflexivity.
    - intros a. reflexivity.
  Qed.

  Lemma fits_init : fits S0.
  Proof. intros r. unfold svw. simpl. lia. Qed.

  (** memory is unchanged outside the logged writes *)
  Lemma mem_frame l a :
    (forall e, In e l -> a < ev (w_root e) + w_off e \/ ev (w_root e) + w_off e + w_len e <= a) ->
    mem_of l a = mm s0 a.
  Proof.
    induction l as [|e t IH]; intros H; cbn [mem_of]; [reflexivity|].
    rewrite store_out by (apply H; left; reflexivity). apply IH. intros x X. apply H. right; exact X.
  Qed.
End Sym.
