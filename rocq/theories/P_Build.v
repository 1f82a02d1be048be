(** * C59: the build descriptions and the headers pick the right code *)
From Coq Require Import ZArith List String Ascii Bool Lia.
From Verif Require Import AsmMachine AsmAbi AsmCode P_AsmText AsmLex AsmRead AsmDir BuildText Jam Pp Build.
Import ListNotations.
Open Scope string_scope.
Open Scope Z_scope.
Open Scope list_scope.

Definition asm_alternatives : list alt :=
  Eval vm_compute in match alternatives "asm_sources" with Some l => l | None => [] end.
Lemma asm_alternatives_read : alternatives "asm_sources" = Some asm_alternatives.
Proof. vm_compute. reflexivity. Qed.
Definition impl_alternatives : list alt :=
  Eval vm_compute in match alternatives "impl_sources" with Some l => l | None => [] end.
Lemma impl_alternatives_read : alternatives "impl_sources" = Some impl_alternatives.
Proof. vm_compute. reflexivity. Qed.
Definition traits_alternatives : list alt :=
  Eval vm_compute in match alternatives "stack_traits_sources" with Some l => l | None => [] end.
Lemma traits_alternatives_read : alternatives "stack_traits_sources" = Some traits_alternatives.
Proof. vm_compute. reflexivity. Qed.

(** ** B2 never finds two alternatives equally good *)

Definition conflict (a b : alt) : bool :=
  existsb (fun x => existsb (fun y => String.eqb (fst x) (fst y) && negb (String.eqb (snd x) (snd y))) (a_reqs b)) (a_reqs a).
Lemma conflict_fits P a b : conflict a b = true -> fits P a = true -> fits P b = true -> False.
Proof.
  unfold conflict, fits. intros C F G.
  apply existsb_exists in C as (x & Ix & C). apply existsb_exists in C as (y & Iy & C).
  apply andb_true_iff in C as [E N]. apply String.eqb_eq in E.
  rewrite forallb_forall in F, G. specialize (F x Ix). specialize (G y Iy). unfold has in *.
  rewrite E in F. destruct (P (fst y)); [|discriminate].
  apply String.eqb_eq in F, G. rewrite <- F, <- G, String.eqb_refl in N. discriminate.
Qed.
(** two alternatives: never both, or one asks for strictly more *)
Definition ordered (a b : alt) : bool :=
  conflict a b || (sub (a_reqs a) (a_reqs b) && negb (sub (a_reqs b) (a_reqs a))) ||
  (sub (a_reqs b) (a_reqs a) && negb (sub (a_reqs a) (a_reqs b))).
Fixpoint pairwise (l : list alt) : bool :=
  match l with [] => true | a :: r => forallb (ordered a) r && pairwise r end.

Lemma choose_best P : forall l best,
  match best with Nothing => True | Best b => fits P b = true | Ambiguous => False end ->
  match choose P best l with
  | Best a => fits P a = true /\ (In a l \/ best = Best a)
  | Nothing => best = Nothing /\ forall a, In a l -> fits P a = false
  | Ambiguous => True
  end.
Proof.
  induction l as [|a l IH]; intros best HB; cbn [choose].
  { destruct best; [split; [reflexivity|intros a []]|auto|exact Logic.I]. }
  destruct (fits P a) eqn:F.
  - destruct best as [|b|]; [| |contradiction].
    + specialize (IH (Best a) F). destruct (choose P (Best a) l); [destruct IH; discriminate| |exact Logic.I].
      destruct IH as [H1 [H2|H2]]; [|injection H2 as ->]; split; auto; left; [right|left]; auto.
    + destruct (sub (a_reqs b) (a_reqs a)); destruct (sub (a_reqs a) (a_reqs b)); auto.
      * specialize (IH (Best a) F). destruct (choose P (Best a) l); [destruct IH; discriminate| |exact Logic.I].
        destruct IH as [H1 [H2|H2]]; [|injection H2 as ->]; split; auto; left; [right|left]; auto.
      * specialize (IH (Best b) HB). destruct (choose P (Best b) l); [destruct IH; discriminate| |exact Logic.I].
        destruct IH as [H1 [H2|H2]]; split; auto. left; right; auto.
  - specialize (IH best HB). destruct (choose P best l); [|destruct IH as [H1 [H2|H2]]; split; auto; left; right; auto|exact Logic.I].
    destruct IH as [-> H]. split; auto. intros b [<-|J]; auto.
Qed.
Lemma choose_unambiguous P : forall l best,
  match best with Nothing => True | Best b => fits P b = true /\ forallb (ordered b) l = true | Ambiguous => False end ->
  pairwise l = true -> choose P best l <> Ambiguous.
Proof.
  induction l as [|a l IH]; intros best HB PW; cbn [choose].
  { destruct best; [discriminate|discriminate|contradiction]. }
  cbn [pairwise] in PW. apply andb_true_iff in PW as [OA PW].
  destruct (fits P a) eqn:F.
  - destruct best as [|b|]; [apply IH; auto| |contradiction].
    destruct HB as [FB OB]. cbn [forallb] in OB. apply andb_true_iff in OB as [OBA OB].
    unfold ordered in OBA. destruct (conflict b a) eqn:C; [destruct (conflict_fits P b a C FB F)|].
    cbn [orb] in OBA. destruct (sub (a_reqs b) (a_reqs a)), (sub (a_reqs a) (a_reqs b)); cbn in OBA; try discriminate;
      apply IH; auto.
  - apply IH; [|exact PW]. destruct best as [|b|]; auto.
    destruct HB as [FB OB]. cbn [forallb] in OB. apply andb_true_iff in OB as [_ OB]. auto.
Qed.

(** For every build, at most one alternative is chosen: that of asm_sources, of
    impl_sources and of stack_traits_sources are each either the best one or none. *)
Theorem C59_unambiguous P name :
  In name ["asm_sources"; "impl_sources"; "stack_traits_sources"] ->
  exists c, select_sources name P = Some c /\ c <> Ambiguous.
Proof.
  intros [<-|[<-|[<-|[]]]]; unfold select_sources;
    [rewrite asm_alternatives_read|rewrite impl_alternatives_read|rewrite traits_alternatives_read];
    (eexists; split; [reflexivity|]); apply choose_unambiguous; auto; vm_compute; reflexivity.
Qed.

Local Opaque asm_alternatives impl_alternatives traits_alternatives.
Lemma selected_asm P a : select_sources "asm_sources" P = Some (Best a) -> fits P a = true /\ In a asm_alternatives.
Proof.
  unfold select_sources. rewrite asm_alternatives_read. intros [= E].
  pose proof (choose_best P asm_alternatives Nothing Logic.I) as H. rewrite E in H.
  destruct H as [H [J|J]]; [auto|discriminate].
Qed.
Lemma selected_impl P a : select_sources "impl_sources" P = Some (Best a) -> fits P a = true /\ In a impl_alternatives.
Proof.
  unfold select_sources. rewrite impl_alternatives_read. intros [= E].
  pose proof (choose_best P impl_alternatives Nothing Logic.I) as H. rewrite E in H.
  destruct H as [H [J|J]]; [auto|discriminate].
Qed.
Definition impl_ok (a : alt) : bool :=
  match lookup "context-impl" (a_reqs a) with
  | Some w =>
      existsb (String.eqb w) backends &&
      (if list_eq_dec string_dec (a_sources a)
            (if String.eqb w "fcontext" then ["asm_sources"; "fcontext.cpp"] else ["continuation.cpp"; "fiber.cpp"])
       then true else false)
  | None => false
  end.
Lemma impl_checked : forallb impl_ok impl_alternatives = true.
Proof. vm_compute. reflexivity. Qed.
Lemma fits_lookup P a f v : fits P a = true -> lookup f (a_reqs a) = Some v -> P f = Some v.
Proof.
  unfold fits. intros F L. rewrite forallb_forall in F.
  assert (J : In (f, v) (a_reqs a)).
  { clear F. induction (a_reqs a) as [|[x w] r IH]; cbn in L; [discriminate|].
    destruct (String.eqb x f) eqn:E; [apply String.eqb_eq in E as ->; injection L as ->; left; reflexivity|right; auto]. }
  specialize (F _ J). unfold has in F. cbn in F. destruct (P f); [|discriminate].
  apply String.eqb_eq in F as ->. reflexivity.
Qed.

(** ** The code that is chosen is code for the target *)

Definition rightb (m format : string) (A : port) : bool := existsb (fun f => prefix f (p_name A)) (families m format).
Lemma rightb_ok m format A : rightb m format A = true -> right_for m format A.
Proof. unfold rightb. intros H. apply existsb_exists in H as (f & I & E). exists f. auto. Qed.

(** the tests of a listing other than those that the processor decides *)
Definition decided (m format : string) : list (atom * bool) := map (fun x => (ADef (fst x), snd x)) (cpu_macros m format).
Definition condition_atoms (m format : string) (l : listing) : list atom :=
  filter (fun a => negb (existsb (fun x => atom_eqb (fst x) a) (decided m format)))
    (nubs (flat_map (fun c => cond_atoms (fst c)) (l_cases l) ++ cond_atoms (l_other l) ++ cond_atoms (special m format))).
Definition rights (m format : string) (l : listing) : list (cond * bool) :=
  map (fun c => (fst c, rightb m format (snd (snd c)))) (l_cases l).
Definition suits (m format : string) (l : listing) : bool :=
  let R := rights m format l in
  forallb (fun v => let o := tabled (decided m format ++ v) in
                    forallb (fun c => negb (holds o (fst c)) || snd c) R &&
                    (negb (holds o (l_other l)) || holds o (special m format)))
    (assigns (condition_atoms m format l)).
Lemma suits_sound m format l o : suits m format l = true -> compiles_for o m format ->
  (forall c sx A, In (c, (sx, A)) (l_cases l) -> holds o c = true -> right_for m format A) /\
  (holds o (l_other l) = true -> holds o (special m format) = true).
Proof.
  intros CHK CF. unfold suits in CHK. cbv zeta in CHK. rewrite forallb_forall in CHK.
  specialize (CHK _ (assigns_all o (condition_atoms m format l))).
  assert (EV : decided m format ++ map (fun a => (a, o a)) (condition_atoms m format l) =
               map (fun a => (a, o a)) (map fst (decided m format) ++ condition_atoms m format l)).
  { rewrite map_app. f_equal. unfold decided. rewrite !map_map. apply map_ext_in. intros [x b] J. cbn.
    rewrite (CF x b J). reflexivity. }
  rewrite EV in CHK.
  set (v := map (fun a => (a, o a)) (map fst (decided m format) ++ condition_atoms m format l)) in *.
  assert (AG' : forall a, In a (flat_map (fun c => cond_atoms (fst c)) (l_cases l) ++
        cond_atoms (l_other l) ++ cond_atoms (special m format)) -> o a = tabled v a).
  { intros a J. apply tabled_agree. apply nubs_in in J. apply in_or_app.
    destruct (existsb (fun x => atom_eqb (fst x) a) (decided m format)) eqn:E.
    - left. apply existsb_exists in E as (x & I & E). apply atom_eqb_eq in E as <-. apply in_map, I.
    - right. unfold condition_atoms. apply filter_In. rewrite E. auto. }
  apply andb_true_iff in CHK as [C1 C2]. split.
  - intros c sx A J H. rewrite forallb_forall in C1.
    specialize (C1 (c, rightb m format A)). cbn [fst snd] in C1.
    rewrite (holds_agree (tabled v) o) in C1.
    + rewrite H in C1. cbn in C1. apply rightb_ok, C1.
      unfold rights. change (c, rightb m format A) with ((fun c : cond * (syntax * port) => (fst c, rightb m format (snd (snd c)))) (c, (sx, A))).
      apply in_map. exact J.
    + intros a Ja. symmetry. apply AG'. apply in_or_app. left. apply in_flat_map. eexists; split; [exact J|exact Ja].
  - intros H. rewrite (holds_agree (tabled v) o), H in C2.
    + cbn in C2. rewrite (holds_agree (tabled v) o) in C2; [exact C2|].
      intros a Ja. symmetry. apply AG'. do 2 (apply in_or_app; right). exact Ja.
    + intros a Ja. symmetry. apply AG'. apply in_or_app; right. apply in_or_app; left. exact Ja.
Qed.

(** the alternatives that do not give right code: see below *)
Definition odd (P : props) : Prop :=
  P "binary-format" = Some "pe" /\
  (P "toolset" = Some "embarcadero" /\ P "address-model" = Some "64" \/
   P "toolset" = Some "clang" /\ P "architecture" = Some "arm").
Definition is (x : option string) (v : string) : bool := match x with Some s => String.eqb s v | None => false end.
Lemma is_eq x v : is x v = true -> x = Some v.
Proof. destruct x; cbn; [|discriminate]. intros E. apply String.eqb_eq in E as ->. reflexivity. Qed.
Definition oddb (a : alt) : bool :=
  let g f := lookup f (a_reqs a) in
  is (g "binary-format") "pe" &&
  (is (g "toolset") "embarcadero" && is (g "address-model") "64" || is (g "toolset") "clang" && is (g "architecture") "arm").
Lemma oddb_odd P a : fits P a = true -> oddb a = true -> odd P.
Proof.
  intros F O. unfold oddb in O. apply andb_true_iff in O as [O1 O2]. apply is_eq in O1.
  split; [exact (fits_lookup P a _ _ F O1)|].
  apply orb_true_iff in O2 as [O2|O2]; apply andb_true_iff in O2 as [A B]; apply is_eq in A, B; [left|right];
    split; eauto using fits_lookup.
Qed.

Definition list_in (l m : list string) : bool := forallb (fun x => existsb (String.eqb x) m) l.
Lemma list_in_incl l m : list_in l m = true -> incl l m.
Proof.
  unfold list_in. rewrite forallb_forall. intros H x J. specialize (H x J).
  apply existsb_exists in H as (y & Jy & E). apply String.eqb_eq in E as ->. exact Jy.
Qed.
Definition helpers : list string := ["dummy.cpp"; "untested.cpp"; "asm/tail_ontop_ppc32_sysv.cpp"].
Definition alt_ok (a : alt) : bool :=
  let g f := lookup f (a_reqs a) in
  match g "binary-format", g "architecture", g "abi" with
  | Some fmt, Some arch, Some abi =>
      oddb a ||
      (String.eqb arch "arm+x86" || match g "address-model" with Some _ => true | None => false end) &&
      existsb (fun l => list_in (triple l) (a_sources a) && list_in (a_sources a) (triple l ++ helpers) &&
                        forallb (fun m => suits m fmt l) (machines (Some arch) (g "address-model") (Some abi)))
              listings
  | _, _, _ => false
  end.
Lemma alternatives_checked : forallb alt_ok asm_alternatives = true.
Proof. vm_compute. reflexivity. Qed.

Local Opaque listings.

(** For every build that an alternative is found for: its sources are the three files of one
    listing, and perhaps one of [helpers].  For every processor that the build is for and every
    compiler for it, the code of this listing (C58) is that of a port for the processor, its
    calling convention and the object format. *)
Theorem C59_selected_code P a fmt :
  select_sources "asm_sources" P = Some (Best a) -> P "binary-format" = Some fmt -> ~ odd P ->
  exists l, In l listings /\ incl (triple l) (a_sources a) /\ incl (a_sources a) (triple l ++ helpers) /\
  forall m o, In m (machines (P "architecture") (P "address-model") (P "abi")) -> compiles_for o m fmt ->
    (forall c sx A, In (c, (sx, A)) (l_cases l) -> holds o c = true -> right_for m fmt A) /\
    ((exists c sx A, In (c, (sx, A)) (l_cases l) /\ holds o c = true) \/ holds o (special m fmt) = true).
Proof.
  intros S FM NO. apply selected_asm in S as [F I].
  pose proof alternatives_checked as CHK. rewrite forallb_forall in CHK. specialize (CHK a I). unfold alt_ok in CHK.
  destruct (lookup "binary-format" (a_reqs a)) as [f|] eqn:E1; [|discriminate].
  destruct (lookup "architecture" (a_reqs a)) as [arch|] eqn:E2; [|discriminate].
  destruct (lookup "abi" (a_reqs a)) as [abi|] eqn:E3; [|discriminate].
  rewrite (fits_lookup P a _ _ F E1) in FM. injection FM as ->.
  rewrite (fits_lookup P a _ _ F E2), (fits_lookup P a _ _ F E3).
  apply orb_true_iff in CHK as [CHK|CHK]; [destruct NO; exact (oddb_odd P a F CHK)|].
  apply andb_true_iff in CHK as [C0 CHK]. apply existsb_exists in CHK as (l & J & CHK).
  apply andb_true_iff in CHK as [CHK C3]. apply andb_true_iff in CHK as [C1 C2].
  exists l. split; [exact J|]. split; [apply list_in_incl, C1|]. split; [apply list_in_incl, C2|].
  intros m o M CF. rewrite forallb_forall in C3.
  assert (M' : In m (machines (Some arch) (lookup "address-model" (a_reqs a)) (Some abi))).
  { apply orb_true_iff in C0 as [C0|C0].
    - apply String.eqb_eq in C0. subst arch. exact M.
    - destruct (lookup "address-model" (a_reqs a)) as [x|] eqn:E4; [|discriminate].
      rewrite (fits_lookup P a _ _ F E4) in M. exact M. }
  destruct (suits_sound m fmt l o (C3 m M') CF) as [H1 H2]. split; [exact H1|].
  destruct (C58_configurations o l J) as [H|H]; [left; exact H|right; exact (H2 H)].
Qed.

(** every alternative is chosen for some build, and these are the builds of the table *)
Definition alt_eqb (a b : alt) : bool :=
  if list_eq_dec string_dec (a_sources a) (a_sources b)
  then if list_eq_dec (fun x y : string * string => ltac:(decide equality; apply string_dec)) (a_reqs a) (a_reqs b) then true else false
  else false.
Lemma alt_eqb_eq a b : alt_eqb a b = true -> a = b.
Proof.
  unfold alt_eqb. destruct (list_eq_dec _ (a_sources a) _) as [E1|]; [|discriminate].
  destruct (list_eq_dec _ (a_reqs a) _) as [E2|]; [|discriminate]. destruct a, b; cbn in *. congruence.
Qed.
Definition props_of (a : alt) : props := fun f => lookup f (a_reqs a).
Theorem C59_every_alternative a l : alternatives "asm_sources" = Some l -> In a l ->
  select_sources "asm_sources" (props_of a) = Some (Best a).
Proof.
  unfold select_sources. rewrite asm_alternatives_read. intros [= <-] I.
  assert (CHK : forallb (fun a => match choose (props_of a) Nothing asm_alternatives with Best b => alt_eqb a b | _ => false end)
                  asm_alternatives = true) by (vm_compute; reflexivity).
  rewrite forallb_forall in CHK. specialize (CHK a I).
  destruct (choose (props_of a) Nothing asm_alternatives) as [|b|]; try discriminate.
  apply alt_eqb_eq in CHK as ->. reflexivity.
Qed.

(** all files exist, except for arm64 Windows with clang: there the files end in .S, and
    the build description says .asm *)
Definition exists_file (x : string) : bool :=
  existsb (fun s => String.eqb (fst s) x) sources || existsb (fun t => String.eqb ("asm/" ++ fst t)%string x) directory.
Definition arm64_clang (P : props) : Prop :=
  P "binary-format" = Some "pe" /\ P "toolset" = Some "clang" /\ P "architecture" = Some "arm".
Definition arm64_clangb (a : alt) : bool :=
  is (lookup "binary-format" (a_reqs a)) "pe" && is (lookup "toolset" (a_reqs a)) "clang" && is (lookup "architecture" (a_reqs a)) "arm".
Theorem C59_files_exist P a x : select_sources "asm_sources" P = Some (Best a) -> ~ arm64_clang P ->
  In x (a_sources a) -> exists_file x = true.
Proof.
  intros S NA J. apply selected_asm in S as [F I].
  assert (CHK : forallb (fun a => arm64_clangb a || forallb exists_file (a_sources a)) asm_alternatives = true) by (vm_compute; reflexivity).
  rewrite forallb_forall in CHK. specialize (CHK a I). apply orb_true_iff in CHK as [C|C].
  - destruct NA. unfold arm64_clangb in C. apply andb_true_iff in C as [C C3]. apply andb_true_iff in C as [C1 C2].
    apply is_eq in C1, C2, C3. repeat split; eauto using fits_lookup.
  - rewrite forallb_forall in C. exact (C x J).
Qed.
Definition build (arch model abi format toolset : string) : props :=
  fun f => lookup f [("architecture", arch); ("address-model", model); ("abi", abi); ("binary-format", format); ("toolset", toolset)].
Definition built_from (P : props) : list string :=
  match select_sources "asm_sources" P with Some (Best a) => a_sources a | _ => [] end.
Theorem C59_arm64_clang_refuted :
  let s := built_from (build "arm" "64" "aapcs" "pe" "clang") in
  List.length s = 3%nat /\ forall x, In x s -> exists_file x = false.
Proof.
  vm_compute. split; [reflexivity|]. intros x [<-|[<-|[<-|[]]]]; reflexivity.
Qed.

(** Every listing of src/asm is built for some target, except for three. *)
Definition same_triple (l : listing) (s : list string) : bool := list_in (triple l) s && list_in s (triple l ++ helpers).
Definition unused : list string :=
  ["jump_arm64_aapcs_pe_armclang.S"; "jump_i386_ms_pe_clang_gas.S"; "jump_x86_64_ms_pe_clang_gas.S"].
Theorem C59_every_listing l : In l listings ->
  (exists P a, select_sources "asm_sources" P = Some (Best a) /\ same_triple l (a_sources a) = true) <->
  ~ In (l_jump l) unused.
Proof.
  intros J.
  assert (CHK : forallb (fun l => Bool.eqb (existsb (fun a => same_triple l (a_sources a)) asm_alternatives)
                                           (negb (existsb (String.eqb (l_jump l)) unused))) listings = true) by (vm_compute; reflexivity).
  rewrite forallb_forall in CHK. specialize (CHK l J). apply eqb_prop in CHK.
  assert (U : In (l_jump l) unused <-> existsb (String.eqb (l_jump l)) unused = true).
  { rewrite existsb_exists. split; [intros I; exists (l_jump l); split; [exact I|apply String.eqb_refl]|].
    intros (y & I & E). apply String.eqb_eq in E as ->. exact I. }
  rewrite U. split.
  - intros (P & a & S & T) C. apply selected_asm in S as [_ I].
    assert (T1 : existsb (fun a => same_triple l (a_sources a)) asm_alternatives = true) by (apply existsb_exists; eauto).
    rewrite T1, C in CHK. discriminate.
  - intros C. destruct (existsb (String.eqb (l_jump l)) unused); [congruence|]. cbn in CHK.
    apply existsb_exists in CHK as (a & I & T). exists (props_of a), a. split; [|exact T].
    apply (C59_every_alternative a asm_alternatives); [exact asm_alternatives_read|exact I].
Qed.

(** untested.cpp stops the compiler; it is built for these targets only *)
Definition stops (q d : string -> bool) (f : string) : Prop :=
  match lookup f source_table with
  | Some (Some es) => exists ls, option_map snd (preprocess header_table q d es) = Some ls /\ In XErr ls
  | _ => False
  end.
Theorem C59_untested q d : stops q d "untested.cpp".
Proof.
  unfold stops. replace (lookup "untested.cpp" source_table) with (Some (Some [XErr])) by (vm_compute; reflexivity).
  exists [XErr]. split; [reflexivity|left; reflexivity].
Qed.
Theorem C59_untested_targets P a : select_sources "asm_sources" P = Some (Best a) ->
  (In "untested.cpp" (a_sources a) <->
   P "architecture" = Some "arm" /\ P "address-model" = Some "32" /\ P "binary-format" = Some "pe" \/
   P "architecture" = Some "power" /\ P "address-model" = Some "64" /\ P "binary-format" = Some "mach-o").
Proof.
  intros S. apply selected_asm in S as [F I].
  assert (CHK : forallb (fun a => let g f := lookup f (a_reqs a) in
            match g "architecture", g "binary-format" with
            | Some x, Some z => (String.eqb x "arm+x86" || match g "address-model" with Some _ => true | None => false end) &&
                Bool.eqb (existsb (String.eqb "untested.cpp") (a_sources a))
                  (String.eqb x "arm" && is (g "address-model") "32" && String.eqb z "pe" ||
                   String.eqb x "power" && is (g "address-model") "64" && String.eqb z "mach-o")
            | _, _ => false
            end) asm_alternatives = true) by (vm_compute; reflexivity).
  rewrite forallb_forall in CHK. specialize (CHK a I). cbv zeta in CHK.
  destruct (lookup "architecture" (a_reqs a)) as [x|] eqn:E1; [|discriminate].
  destruct (lookup "binary-format" (a_reqs a)) as [z|] eqn:E3; [|discriminate].
  rewrite (fits_lookup P a _ _ F E1), (fits_lookup P a _ _ F E3).
  apply andb_true_iff in CHK as [CM CHK]. apply eqb_prop in CHK.
  assert (U : In "untested.cpp" (a_sources a) <-> existsb (String.eqb "untested.cpp") (a_sources a) = true).
  { rewrite existsb_exists. split; [intros K; eexists; split; [exact K|apply String.eqb_refl]|].
    intros (y & K & E). apply String.eqb_eq in E as <-. exact K. }
  rewrite U, CHK, orb_true_iff, !andb_true_iff, !String.eqb_eq.
  assert (M : forall m, x <> "arm+x86" -> (is (lookup "address-model" (a_reqs a)) m = true <-> P "address-model" = Some m)).
  { intros m N. apply orb_true_iff in CM as [CM|CM]; [apply String.eqb_eq in CM; contradiction|].
    destruct (lookup "address-model" (a_reqs a)) as [y|] eqn:E2; [|discriminate]. rewrite (fits_lookup P a _ _ F E2). cbn.
    rewrite String.eqb_eq. split; congruence. }
  split; (intros [[[-> H] ->]|[[-> H] ->]] || intros [[H1 [H H2]]|[H1 [H H2]]]; try (injection H1 as ->; injection H2 as ->)).
  - left. repeat split. apply M; [discriminate|exact H].
  - right. repeat split. apply M; [discriminate|exact H].
  - left. repeat split. apply M; [discriminate|exact H].
  - right. repeat split. apply M; [discriminate|exact H].
Qed.

(** ** The tail of ontop_fcontext on 32-bit PowerPC *)
Definition tail_file : string := "asm/tail_ontop_ppc32_sysv.cpp".
Definition ontop_atoms (m format : string) (l : listing) : list atom :=
  filter (fun a => negb (existsb (fun x => atom_eqb (fst x) a) (decided m format))) (nubs (atoms_of 2 (l_ontop l))).
Definition tail_ok (m format : string) (l : listing) (b : bool) : bool :=
  forallb (fun v => Bool.eqb (needs_tail (tabled (decided m format ++ v)) l) b) (assigns (ontop_atoms m format l)).
Lemma tail_sound m format l b o : tail_ok m format l b = true -> compiles_for o m format -> needs_tail o l = b.
Proof.
  intros CHK CF. unfold tail_ok in CHK. rewrite forallb_forall in CHK.
  specialize (CHK _ (assigns_all o (ontop_atoms m format l))). apply eqb_prop in CHK. rewrite <- CHK.
  assert (EV : decided m format ++ map (fun a => (a, o a)) (ontop_atoms m format l) =
               map (fun a => (a, o a)) (map fst (decided m format) ++ ontop_atoms m format l)).
  { rewrite map_app. f_equal. unfold decided. rewrite !map_map. apply map_ext_in. intros [x c] J. cbn.
    rewrite (CF x c J). reflexivity. }
  rewrite EV. unfold needs_tail. f_equal. rewrite (lines_agree o (tabled (map (fun a => (a, o a)) (map fst (decided m format) ++ ontop_atoms m format l)))); [reflexivity|].
  intros a J. apply tabled_agree. apply nubs_in in J. apply in_or_app.
  destruct (existsb (fun x => atom_eqb (fst x) a) (decided m format)) eqn:E.
  - left. apply existsb_exists in E as (x & I & E). apply atom_eqb_eq in E as <-. apply in_map, I.
  - right. unfold ontop_atoms. apply filter_In. rewrite E. auto.
Qed.
