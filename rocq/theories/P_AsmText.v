(** * C58: the listings in src/asm are the verified routines *)
From Coq Require Import ZArith List String Ascii Bool Lia.
From Verif Require Import Word AsmMachine AsmSym AsmAbi AsmCode AsmCode2 AsmFacts AsmHist P_Asm AsmWit P_AsmRef P_AsmPpc P_AsmX32.
From Verif Require Import AsmLex AsmRead AsmIsaX86 AsmDir.
Import ListNotations.
Open Scope string_scope.
Open Scope Z_scope.
Open Scope list_scope.

(** ** Which tests a file depends on *)

Fixpoint atoms_of (f : nat) (n : string) : list atom :=
  match f with
  | O => []
  | S f =>
      match lookup n parsed with
      | Some (Some es) => file_atoms es ++ flat_map (fun e => match e with EInclude m => atoms_of f m | _ => [] end) es
      | _ => []
      end
  end.

Lemma select_include o m es : forall st, In (OInclude m) (select_ o st es) -> In (EInclude m) es.
Proof.
  induction es as [|e es IH]; intros st; cbn [select_]; [intros []|].
  destruct e; try destruct (live st); try destruct st as [|[a b] st];
    cbn [In]; intros H;
    repeat match goal with
           | H : _ \/ _ |- _ => destruct H as [H|H]
           | H : OLine _ = _ |- _ => discriminate
           | H : OError = _ |- _ => discriminate
           | H : OInclude _ = OInclude _ |- _ => injection H as ->; left; reflexivity
           end; try (right; eapply IH; exact H).
Qed.

Lemma lines_agree o o' : forall f n,
  (forall a, In a (atoms_of f n) -> o a = o' a) -> lines_of f o n = lines_of f o' n.
Proof.
  induction f as [|f IH]; intros n H; [reflexivity|]. cbn [lines_of atoms_of] in *.
  destruct (lookup n parsed) as [[es|]|]; [|reflexivity|reflexivity].
  assert (E : select o es = select o' es).
  { apply select_agree. intros a J. apply H, in_or_app. left. exact J. }
  rewrite <- E.
  assert (G : forall m, In (OInclude m) (select o es) -> lines_of f o m = lines_of f o' m).
  { intros m J. apply IH. intros a Ja. apply H, in_or_app. right.
    apply in_flat_map. exists (EInclude m). split; [eapply select_include; exact J|exact Ja]. }
  clear E H. induction (select o es) as [|x l IHl]; [reflexivity|].
  rewrite IHl by (intros; apply G; right; assumption).
  destruct x; try reflexivity. rewrite G by (left; reflexivity). reflexivity.
Qed.

Fixpoint nubs (l : list atom) : list atom :=
  match l with [] => [] | a :: r => let r' := nubs r in if existsb (atom_eqb a) r' then r' else a :: r' end.
Lemma nubs_in a l : In a l -> In a (nubs l).
Proof.
  induction l as [|b l IH]; cbn [nubs]; [intros []|]. intros [->|J].
  - destruct (existsb (atom_eqb a) (nubs l)) eqn:E; [|left; reflexivity].
    apply existsb_exists in E as (b & Jb & Eb). apply atom_eqb_eq in Eb as ->. exact Jb.
  - destruct (existsb (atom_eqb b) (nubs l)); [|right]; apply IH, J.
Qed.

Definition listing_atoms (l : listing) : list atom :=
  nubs (atoms_of 2 (l_jump l) ++ atoms_of 2 (l_ontop l) ++ atoms_of 2 (l_make l) ++
        flat_map (fun c => cond_atoms (fst c)) (l_cases l) ++ cond_atoms (l_other l)).

(** every outcome of these tests *)
Fixpoint assigns (l : list atom) : list (list (atom * bool)) :=
  match l with
  | [] => [[]]
  | a :: r => flat_map (fun v => [(a, true) :: v; (a, false) :: v]) (assigns r)
  end.
Lemma assigns_all (o : config) l : In (map (fun a => (a, o a)) l) (assigns l).
Proof.
  induction l as [|a l IH]; cbn [map assigns]; [left; reflexivity|].
  apply in_flat_map. eexists; split; [exact IH|]. destruct (o a); cbn; auto.
Qed.

(** ** Comparing *)

Definition instr_eq_dec (a b : instr) : {a = b} + {a <> b}.
Proof. repeat decide equality. Defined.
Definition code_eqb (a b : list instr) : bool := if list_eq_dec instr_eq_dec a b then true else false.
Lemma code_eqb_eq a b : code_eqb a b = true -> a = b.
Proof. unfold code_eqb. destruct (list_eq_dec instr_eq_dec a b); congruence. Qed.

Definition is_code (A : port) (b : bodies) : bool :=
  let C := p_code A in
  code_eqb (b_jump b) (c_jump C) && (match c_ontop C with [] => true | _ => code_eqb (b_ontop b) (c_ontop C) end) &&
  code_eqb (b_make b) (c_make C) && code_eqb (b_tramp b) (c_tramp C) && code_eqb (b_finish b) (c_finish C).

Lemma is_code_eq A b : is_code A b = true -> from_text A b = A.
Proof.
  unfold is_code, from_text. destruct A as [na B C]. cbn [p_name p_abi p_code]. intros H.
  repeat (apply andb_true_iff in H as [H ?]).
  repeat match goal with H : code_eqb _ _ = true |- _ => apply code_eqb_eq in H; rewrite H end.
  destruct C as [j k m t f]. cbn in *.
  destruct k; [reflexivity|].
  match goal with H : code_eqb (b_ontop b) _ = true |- _ => apply code_eqb_eq in H; rewrite H end. reflexivity.
Qed.

Definition case_okb (o : config) (l : listing) (c : cond * (syntax * port)) : bool :=
  if holds o (fst c)
  then match bodies_of (fst (snd c)) o l with Some b => is_code (snd (snd c)) b | None => false end
  else true.
Definition listing_okb (l : listing) : bool :=
  forallb (fun v => let o := tabled v in
                    (existsb (fun c => holds o (fst c)) (l_cases l) || holds o (l_other l)) &&
                    forallb (case_okb o l) (l_cases l))
    (assigns (listing_atoms l)).

Lemma listings_checked : forallb listing_okb listings = true.
Proof. vm_compute. reflexivity. Qed.

Local Opaque lines_of atoms_of parsed directory listings.
Lemma items_agree sx o o' n :
  (forall a, In a (atoms_of 2 n) -> o a = o' a) -> items_of sx o n = items_of sx o' n.
Proof.
  intros H.
  exact (f_equal (fun x => match x with
                           | Some ls => match read_lines sx ls with inl l => Some l | inr _ => None end
                           | None => None
                           end) (lines_agree o o' 2 n H)).
Qed.
Lemma bodies_agree sx o o' l :
  (forall a, In a (atoms_of 2 (l_jump l)) -> o a = o' a) -> (forall a, In a (atoms_of 2 (l_ontop l)) -> o a = o' a) ->
  (forall a, In a (atoms_of 2 (l_make l)) -> o a = o' a) -> bodies_of sx o l = bodies_of sx o' l.
Proof.
  intros H1 H2 H3. pose proof (items_agree sx o o' _ H1) as E1. pose proof (items_agree sx o o' _ H2) as E2.
  pose proof (items_agree sx o o' _ H3) as E3. unfold bodies_of.
  set (i1 := items_of sx o (l_jump l)) in *. set (i2 := items_of sx o (l_ontop l)) in *.
  set (i3 := items_of sx o (l_make l)) in *. set (j1 := items_of sx o' (l_jump l)) in *.
  set (j2 := items_of sx o' (l_ontop l)) in *. set (j3 := items_of sx o' (l_make l)) in *.
  clearbody i1 i2 i3 j1 j2 j3. subst. reflexivity.
Qed.
Lemma tabled_agree o l a : In a l -> o a = tabled (map (fun b => (b, o b)) l) a.
Proof. intros J. symmetry. apply tabled_in, J. Qed.

(** [tabled] has the same outcomes, so it reads the same code *)
Lemma listing_sound l : listing_okb l = true -> forall o,
  ((exists c, In c (l_cases l) /\ holds o (fst c) = true) \/ holds o (l_other l) = true) /\
  (forall c, In c (l_cases l) -> case_okb o l c = true).
Proof.
  intros CHK o. unfold listing_okb in CHK. rewrite forallb_forall in CHK.
  set (v := map (fun a => (a, o a)) (listing_atoms l)).
  specialize (CHK v (assigns_all o _)). cbv zeta in CHK. apply andb_true_iff in CHK as [C1 C2].
  assert (AG : forall a, In a (listing_atoms l) -> o a = tabled v a) by (intros a J; apply tabled_agree, J).
  assert (AG' : forall a, In a (atoms_of 2 (l_jump l) ++ atoms_of 2 (l_ontop l) ++ atoms_of 2 (l_make l) ++
        flat_map (fun c => cond_atoms (fst c)) (l_cases l) ++ cond_atoms (l_other l)) -> o a = tabled v a)
    by (intros a J; apply AG; apply nubs_in; exact J).
  assert (HC : forall c, In c (l_cases l) -> holds o (fst c) = holds (tabled v) (fst c)).
  { intros c J. apply holds_agree. intros a Ja. apply AG'. do 3 (apply in_or_app; right). apply in_or_app; left.
    apply in_flat_map. exists c. split; assumption. }
  assert (HO : holds o (l_other l) = holds (tabled v) (l_other l)).
  { apply holds_agree. intros a Ja. apply AG'. do 4 (apply in_or_app; right). exact Ja. }
  split.
  - apply orb_true_iff in C1 as [C1|C1]; [left|right; rewrite HO; exact C1].
    apply existsb_exists in C1 as (c & J & E). exists c. split; [exact J|]. rewrite HC by exact J. exact E.
  - intros c J. rewrite forallb_forall in C2. specialize (C2 c J). unfold case_okb in *. rewrite (HC c J).
    destruct (holds (tabled v) (fst c)); [|reflexivity].
    replace (bodies_of (fst (snd c)) o l) with (bodies_of (fst (snd c)) (tabled v) l); [exact C2|].
    symmetry. apply bodies_agree; intros a Ja; apply AG'.
    + apply in_or_app. left. exact Ja.
    + apply in_or_app. right. apply in_or_app. left. exact Ja.
    + apply in_or_app. right. apply in_or_app. right. apply in_or_app. left. exact Ja.
Qed.

(** ** The theorems *)

(** For every triple of files in src/asm and every configuration of the compiler,
    the routines that are read from the text of the files are the routines of the
    port, instruction by instruction: the port, with its code replaced by that of
    the text, is the port. *)
Theorem C58_listings_are_the_ports o l c sx A :
  In l listings -> In (c, (sx, A)) (l_cases l) -> holds o c = true ->
  exists b, bodies_of sx o l = Some b /\ from_text A b = A.
Proof.
  intros I J H. pose proof listings_checked as CHK. rewrite forallb_forall in CHK.
  destruct (listing_sound l (CHK l I) o) as [_ S]. specialize (S _ J). unfold case_okb in S.
  cbn [fst snd] in S. rewrite H in S. destruct (bodies_of sx o l) as [b|]; [|discriminate].
  exists b. split; [reflexivity|]. apply is_code_eq, S.
Qed.

(** no configuration is overlooked: one of the cases applies, or the configuration
    is one of those that are listed as not covered *)
Theorem C58_configurations o l :
  In l listings ->
  (exists c sx A, In (c, (sx, A)) (l_cases l) /\ holds o c = true) \/ holds o (l_other l) = true.
Proof.
  intros I. pose proof listings_checked as CHK. rewrite forallb_forall in CHK.
  destruct (listing_sound l (CHK l I) o) as [[([c [sx A]] & J & E)|E] _]; [left; eauto 6|right; exact E].
Qed.

(** every file of src/asm is part of a triple *)
Theorem C58_every_file n t :
  In (n, t) directory -> exists l, In l listings /\ (n = l_jump l \/ n = l_ontop l \/ n = l_make l).
Proof.
  intros I.
  assert (CHK : forallb (fun x => existsb (fun l => (fst x =? l_jump l)%string || (fst x =? l_ontop l)%string || (fst x =? l_make l)%string)
                                    listings) directory = true) by (vm_compute; reflexivity).
  rewrite forallb_forall in CHK. specialize (CHK _ I). cbn [fst] in CHK.
  apply existsb_exists in CHK as (l & J & E). exists l. split; [exact J|].
  apply orb_true_iff in E as [E|E]; [apply orb_true_iff in E as [E|E]|];
    apply String.eqb_eq in E; auto.
Qed.

(** ** What that means: the theorems about the ports are theorems about the text *)

(** [T] is the port that the compiler makes of the listings [l] *)
Definition built (o : config) (l : listing) (T : port) : Prop :=
  exists c sx A b, In l listings /\ In (c, (sx, A)) (l_cases l) /\ holds o c = true /\ In A ports /\
                   bodies_of sx o l = Some b /\ T = from_text A b.

Lemma built_port o l T : built o l T -> In T ports.
Proof.
  intros (c & sx & A & b & I & J & H & P & B & ->).
  destruct (C58_listings_are_the_ports o l c sx A I J H) as (b' & B' & E).
  rewrite B in B'. injection B' as <-. rewrite E. exact P.
Qed.

(** jump_fcontext as it is in the file: a suspended call returns, with its
    registers, the handle of the caller and its argument *)
Theorem C58_jump_of_the_text o l T L s1 s2 :
  built o l T -> labels_ok T L -> call_ok T L s2 ->
  context T L (mm s2) (arg_to T s2) (Susp s1) -> apart T s2 (arg_to T s2) (Susp s1) ->
  exists t,
    returned T s1 (switch T L Jump s2) t /\
    result T s1 t = (handle T s2, arg_data T s2) /\
    (forall r H, ab_hidret (p_abi T) = Some r -> hidden T s1 = Some H -> rg t r = H) /\
    (forall a, ~ (handle T s2 <= a < sp T s2 + ab_wr (p_abi T)) ->
               (forall H, hidden T s1 = Some H -> ~ (H <= a < H + 2 * cwb (cpu_of T))) ->
               mm t a = mm s2 a) /\
    wf (cpu_of T) t.
Proof. intros B. exact (C26_jump_resumes_suspended_call T L s1 s2 (built_port _ _ _ B)). Qed.

(** make_fcontext and the first jump *)
Theorem C58_make_of_the_text o l T L s :
  built o l T -> labels_ok T L -> make_ok T s ->
  exists t,
    run (cpu_of T) L (c_make (p_code T)) s = Goto (ret_addr T s) t /\
    (forall r, In r (ab_saved (p_abi T)) -> rg t r = rg s r) /\
    context T L (mm t) (rg t (ab_mkres (p_abi T))) (Made s).
Proof.
  intros B LAB MS. destruct (C27_make_returns T L s (built_port _ _ _ B) LAB MS) as (t & E & _ & R & (CX & _) & _).
  exists t. auto.
Qed.

Theorem C58_first_jump_of_the_text o l T L s0 s :
  built o l T -> labels_ok T L -> call_ok T L s ->
  context T L (mm s) (arg_to T s) (Made s0) -> apart T s (arg_to T s) (Made s0) ->
  exists t,
    switch T L Jump s = Goto (mk_fn T s0) t /\
    pair_at T t (ab_ent (p_abi T)) = (handle T s, arg_data T s) /\
    ret_addr T t = L "finish"%string /\
    (sp T t + ab_bias (p_abi T)) mod ab_align (p_abi T) = 0 /\
    mk_top T s0 - c_need (p_code T) <= sp T t <= mk_top T s0.
Proof.
  intros B LAB CS CX AP.
  destruct (C27_first_jump_enters_function T L s0 s (built_port _ _ _ B) LAB CS CX AP) as (t & E1 & E2 & E3 & E4 & E5 & _).
  exists t. auto.
Qed.

(** ontop_fcontext *)
Theorem C58_ontop_of_the_text o l T L s1 s2 :
  built o l T -> has_ontop T -> labels_ok T L -> call_ok T L s2 ->
  context T L (mm s2) (arg_to T s2) (Susp s1) -> apart T s2 (arg_to T s2) (Susp s1) ->
  exists t,
    switch T L Ontop s2 = Goto (ontop_pc T L s2) t /\ ontop_fn T s2 t /\
    pair_at T t (ab_ont (p_abi T)) = (handle T s2, arg_data T s2) /\
    sp T t = sp T s1 /\ (forall r, In r (ab_saved (p_abi T)) -> rg t r = rg s1 r) /\
    ret_addr T t = ret_addr T s1 /\ hidden T t = hidden T s1.
Proof.
  intros B HO LAB CS CX AP.
  destruct (C28_ontop_enters_function_on_target T L s1 s2 (built_port _ _ _ B) HO LAB CS CX AP)
    as (t & E1 & E2 & E3 & E4 & E5 & E6 & E7 & _).
  exists t. auto 10.
Qed.

(** sparc64: the listing rounds with another mask; for an even stack address the
    text makes the same context *)
Theorem C58_sparc64_make_of_the_text o l c sx A b L s :
  In l listings -> In (c, (sx, A)) (l_cases l) -> holds o c = true -> bodies_of sx o l = Some b ->
  p_name A = "sparc64 sysv elf" ->
  wf (cpu_of port_sparc64) s -> Z.even (mk_top port_sparc64 s) = true ->
  b_jump b = c_jump (p_code port_sparc64) /\ b_ontop b = c_ontop (p_code port_sparc64) /\
  b_tramp b = c_tramp (p_code port_sparc64) /\ b_finish b = c_finish (p_code port_sparc64) /\
  run (cpu_of port_sparc64) L (b_make b) s = run (cpu_of port_sparc64) L (c_make (p_code port_sparc64)) s.
Proof.
  intros I J H B N W E.
  destruct (C58_listings_are_the_ports o l c sx A I J H) as (b' & B' & EQ).
  rewrite B in B'. injection B' as <-.
  assert (A = port_sparc64_src).
  { assert (X : forallb (fun l => forallb (fun x => if (p_name (snd (snd x)) =? "sparc64 sysv elf")%string
                 then (l_jump l =? "jump_sparc64_sysv_elf_gas.S")%string else true) (l_cases l)) listings = true)
      by (vm_compute; reflexivity).
    rewrite forallb_forall in X. specialize (X l I). rewrite forallb_forall in X. specialize (X _ J).
    cbn [fst snd] in X. rewrite N in X. cbn [String.eqb Ascii.eqb Bool.eqb] in X.
    Transparent listings. unfold listings in I. cbn [In] in I.
    repeat (destruct I as [<-|I]; [try discriminate X|]); [|destruct I].
    unfold AsmDir.L, always in J. cbn [l_cases In] in J. destruct J as [J|[]]. injection J as _ _ <-. reflexivity. }
  subst A. assert (Q := f_equal p_code EQ). cbn [p_code from_text port_sparc64_src] in Q.
  injection Q as Q1 Q2 Q3 Q4 Q5.
  split; [exact Q1|]. split; [|split; [exact Q4|split; [exact Q5|]]].
  - exact Q2.
  - rewrite Q3. apply C27_sparc64_source; assumption.
Qed.

(** ** The cases are met *)

(** the macros of [S] are defined as 2, the others are not defined *)
Definition env (S : list string) : string -> option Z := fun s => if existsb (String.eqb s) S then Some 2 else None.
Definition atom_name (a : atom) : string := match a with ADef s | AEq s _ | ANz s | AMask s _ => s end.
Fixpoint subsets (l : list string) : list (list string) :=
  match l with [] => [[]] | x :: r => flat_map (fun v => [x :: v; v]) (subsets r) end.

(** every case of every listing is that of some compilation *)
Theorem C58_cases_occur l c sx A :
  In l listings -> In (c, (sx, A)) (l_cases l) -> exists m, holds (config_of m) c = true.
Proof.
  intros I J.
  assert (CHK : forallb (fun l => forallb (fun c => existsb (fun S => holds (config_of (env S)) (fst c))
                   (subsets (nodup string_dec (map atom_name (cond_atoms (fst c)))))) (l_cases l)) listings = true)
    by (vm_compute; reflexivity).
  rewrite forallb_forall in CHK. specialize (CHK l I). rewrite forallb_forall in CHK. specialize (CHK _ J).
  apply existsb_exists in CHK as (S & _ & E). exists (env S). exact E.
Qed.

(** every verified port is the code of a listing *)
Theorem C58_every_port_has_a_listing A :
  In A ports -> p_name A <> "sparc64 sysv elf" ->
  exists l c sx, In l listings /\ In (c, (sx, A)) (l_cases l).
Proof.
  intros I N.
  assert (X : In A (flat_map (fun l => map (fun c => snd (snd c)) (l_cases l)) listings)).
  { Transparent listings. unfold ports in I. cbn [In] in I.
    cbv [listings flat_map map l_cases AsmDir.L per_cw always x64_elf_cases app snd].
    repeat (destruct I as [<-|I]; [first [exfalso; apply N; reflexivity | repeat (first [left; reflexivity|right])]|]).
    destruct I. }
  apply in_flat_map in X as (l & J & X). apply in_map_iff in X as ([c [sx A']] & E & X).
  cbn [snd] in E. subst A'. eauto.
Qed.

(** and so it is built in some configuration *)
Theorem C58_every_port_is_built A :
  In A ports -> p_name A <> "sparc64 sysv elf" -> exists m l, built (config_of m) l A.
Proof.
  intros I N. destruct (C58_every_port_has_a_listing A I N) as (l & c & sx & J & K).
  destruct (C58_cases_occur l c sx A J K) as (m & H).
  destruct (C58_listings_are_the_ports (config_of m) l c sx A J K H) as (b & B & E).
  exists m, l, c, sx, A, b. rewrite E. auto 10.
Qed.

(** For example, what gcc makes of jump_i386_sysv_elf_gas.S on a 64-bit system, with
    BOOST_USE_TSX: the code for x86_64, without control words. *)
Example text_of_x86_64 :
  let o := config_of (env ["__x86_64__"; "BOOST_USE_TSX"; "__linux__"]) in
  match items_of sx_att64 o "jump_i386_sysv_elf_gas.S" with
  | Some l => routine "jump_fcontext" l
  | None => None
  end = Some
   [Add "rsp" "rsp" (-64); Sto 8 "r12" "rsp" 16; Sto 8 "r13" "rsp" 24; Sto 8 "r14" "rsp" 32; Sto 8 "r15" "rsp" 40;
    Sto 8 "rbx" "rsp" 48; Sto 8 "rbp" "rsp" 56; Mov "rax" "rsp"; Mov "rsp" "rdi"; Ld 8 "r8" "rsp" 64;
    Ld 8 "r12" "rsp" 16; Ld 8 "r13" "rsp" 24; Ld 8 "r14" "rsp" 32; Ld 8 "r15" "rsp" 40; Ld 8 "rbx" "rsp" 48;
    Ld 8 "rbp" "rsp" 56; Add "rsp" "rsp" 72; Mov "rdx" "rsi"; Mov "rdi" "rax"; Go "r8"].
Proof. vm_compute. reflexivity. Qed.

(** ** What is wrong in the text *)

(** With BOOST_CONTEXT_TLS_STACK_PROTECTOR the text of make_x86_64_sysv_elf_gas.S is
    the routine for which [C27_x64_guard_refuted] and [C30_x64_guard_refuted] hold. *)
Theorem C58_guard_text :
  exists m l b, In l listings /\ l_make l = "make_x86_64_sysv_elf_gas.S" /\
    bodies_of sx_att64 (config_of m) l = Some b /\ from_text port_x64_guard b = port_x64_guard.
Proof.
  exists (env ["BOOST_CONTEXT_TLS_STACK_PROTECTOR"]).
  set (l := AsmDir.L "x86_64_sysv_elf_gas.S" "" (x64_elf_cases (CNot (Df "__i386__"))) (COr (Df "__i386__") x64_elf_other)).
  assert (I : In l listings) by (unfold listings; left; reflexivity).
  destruct (C58_listings_are_the_ports (config_of (env ["BOOST_CONTEXT_TLS_STACK_PROTECTOR"])) l
     (CAnd (CAnd (CAnd (CAnd (CNot (Df "__i386__")) (CNot shstk)) guard) (CNot ilp32)) (CNot tsx)) sx_att64 port_x64_guard I)
    as (b & B & E).
  - unfold l, x64_elf_cases. cbn [l_cases AsmDir.L]. apply in_or_app; right. apply in_or_app; right.
    apply in_or_app; right. left. reflexivity.
  - vm_compute. reflexivity.
  - exists l, b. auto.
Qed.

(** jump_fcontext and make_fcontext of x86_64, compiled for i386, are those of
    i386; ontop_fcontext is not: the file has no such test *)
Theorem C58_x86_64_on_i386_refuted :
  let o := config_of (env ["__i386__"]) in
  match items_of sx_att32 o "jump_x86_64_sysv_elf_gas.S", items_of sx_att32 o "ontop_x86_64_sysv_elf_gas.S" with
  | Some l, None => routine "jump_fcontext" l = Some (c_jump (p_code (port_x86 true false)))
  | _, _ => False
  end.
Proof. vm_compute. reflexivity. Qed.

Print Assumptions C58_listings_are_the_ports.
Print Assumptions C58_configurations.
Print Assumptions C58_every_file.
Print Assumptions C58_jump_of_the_text.
Print Assumptions C58_make_of_the_text.
Print Assumptions C58_first_jump_of_the_text.
Print Assumptions C58_ontop_of_the_text.
Print Assumptions C58_sparc64_make_of_the_text.
Print Assumptions C58_every_port_is_built.
Print Assumptions C58_guard_text.
