(** * C59, continued: theorems about the headers and the sources of the library *)
From Coq Require Import ZArith List String Ascii Bool Lia.
From Verif Require Import AsmLex P_AsmText BuildText Jam Pp Build P_Build P_Headers.
Import ListNotations.
Open Scope string_scope.
Open Scope list_scope.
Local Opaque table source_tab class_names guards publics headers header_table source_table.

Lemma backend_case d : d "__CYGWIN__" = false -> exists K, In (K, backend d) choices /\ agrees d K.
Proof.
  intros CY. unfold backend. destruct (d "BOOST_USE_UCONTEXT") eqn:U; [|destruct (d "BOOST_USE_WINFIB") eqn:W].
  - eexists; split; [left; reflexivity|]. intros x b [[= <- <-]|[[= <- <-]|[]]]; assumption.
  - eexists; split; [right; left; reflexivity|]. intros x b [[= <- <-]|[[= <- <-]|[[= <- <-]|[]]]]; assumption.
  - eexists; split; [right; right; left; reflexivity|]. intros x b [[= <- <-]|[[= <- <-]|[[= <- <-]|[]]]]; assumption.
Qed.

(** A program that includes the header of fiber or of continuation has exactly one
    definition of default_stack: segmented_stack if BOOST_USE_SEGMENTED_STACKS is
    defined, fixedsize_stack otherwise.  Except for Cygwin, and for segmented stacks
    together with Windows or Windows fibers. *)
Theorem C59_default_stack q d hs ls k :
  (forall h, In h hs -> public h = true) -> In k kinds -> In (front k) hs ->
  (forall g, In g guards -> d g = false) -> d "__CYGWIN__" = false ->
  (d "BOOST_USE_SEGMENTED_STACKS" = true -> d "BOOST_WINDOWS" = false /\ backend d <> "winfib") ->
  unit_lines q d hs = Some ls ->
  occurrences defines_stack ls = 1%nat /\
  occurrences (stack_line (if d "BOOST_USE_SEGMENTED_STACKS" then "segmented_stack" else "fixedsize_stack")) ls = 1%nat.
Proof.
  intros PU Ik J GU CY SW E. destruct (stack_name d q hs ls PU E) as [H1 H2].
  fold SEG in *. set (y := if d SEG then "segmented_stack" else "fixedsize_stack") in *.
  cut (1 <= occurrences (stack_line y) ls)%nat; [lia|].
  destruct (backend_case d CY) as (K & I & AG).
  assert (X : exists K', In (K', y) stack_cases /\ agrees d K').
  { subst y. destruct (d SEG) eqn:DS.
    - destruct (SW eq_refl) as [WN NW]. exists ((SEG, true) :: ("BOOST_WINDOWS", false) :: K). split.
      + unfold stack_cases. apply in_or_app. right.
        change ((SEG, true) :: ("BOOST_WINDOWS", false) :: K, "segmented_stack") with
          ((fun c : list (string * bool) * string => ((SEG, true) :: ("BOOST_WINDOWS", false) :: fst c, "segmented_stack")) (K, backend d)).
        apply in_map. apply filter_In. split; [exact I|]. cbn [snd]. apply String.eqb_neq in NW. rewrite NW. reflexivity.
      + intros x b [[= <- <-]|[[= <- <-]|H]]; [exact DS|exact WN|exact (AG _ _ H)].
    - exists ((SEG, false) :: K). split.
      + unfold stack_cases. apply in_or_app. left.
        change ((SEG, false) :: K, "fixedsize_stack") with
          ((fun c : list (string * bool) * string => ((SEG, false) :: fst c, "fixedsize_stack")) (K, backend d)).
        apply in_map, I.
      + intros x b [[= <- <-]|H]; [exact DS|exact (AG _ _ H)]. }
  destruct X as (K' & I' & AG').
  pose proof arrivals_checked as CHK. rewrite forallb_forall in CHK. specialize (CHK _ I'). cbn [fst snd] in CHK.
  apply (arrive_unit q K' (stack_guards y) (stack_line y) (map front kinds) publics (stack_lines y) CHK hs d ls).
  - intros h Jh. apply public_in, PU, Jh.
  - exact AG'.
  - intros z Jz. apply GU. assert (C : forallb (fun z => existsb (String.eqb z) guards) (stack_guards y) = true).
    { subst y. destruct (d SEG); vm_compute; reflexivity. }
    rewrite forallb_forall in C. specialize (C z Jz). apply existsb_exists in C as (g & Jg & Eg).
    apply String.eqb_eq in Eg as ->. exact Jg.
  - exists (front k). split; [exact J|apply in_map, Ik].
  - exact E.
Qed.

(** *** What goes wrong *)
Definition defined (l : list string) : string -> bool := fun x => existsb (String.eqb x) l.
Definition no_test : string -> bool := fun _ => false.
Definition count (L : pev -> bool) (d hs : list string) : option nat :=
  option_map (occurrences L) (unit_lines no_test (defined d) hs).
Definition gets (f : string) (d hs : list string) : option bool :=
  option_map (existsb (is_inc f)) (unit_lines no_test (defined d) hs).

(** segmented stacks with Windows or Windows fibers: nothing is called default_stack *)
Theorem C59_default_stack_refuted :
  count defines_stack ["BOOST_USE_SEGMENTED_STACKS"; "BOOST_USE_WINFIB"] ["boost/context/fiber.hpp"] = Some 0%nat /\
  count defines_stack ["BOOST_USE_SEGMENTED_STACKS"; "BOOST_WINDOWS"] ["boost/context/continuation.hpp"] = Some 0%nat.
Proof. unfold count, gets, unit_lines. rewrite table_eq. vm_compute. auto. Qed.

(** Cygwin: the implementation depends on which header comes first, because
    detail/config.hpp, which fiber.hpp does not include before it chooses, defines
    BOOST_USE_UCONTEXT *)
Theorem C59_backend_cygwin_refuted :
  gets (impl_header "fiber" "fcontext") ["__CYGWIN__"] ["boost/context/fiber.hpp"] = Some true /\
  gets (impl_header "fiber" "ucontext") ["__CYGWIN__"] ["boost/context/fixedsize_stack.hpp"; "boost/context/fiber.hpp"] = Some true.
Proof. unfold count, gets, unit_lines. rewrite table_eq. vm_compute. auto. Qed.

(** with ucontext_t or Windows fibers, a program that includes both fiber.hpp and
    continuation.hpp has two definitions of forced_unwind in one namespace *)
Theorem C59_forced_unwind_refuted b : In b ["BOOST_USE_UCONTEXT"; "BOOST_USE_WINFIB"] ->
  count (defines_class "forced_unwind") [b] ["boost/context/fiber.hpp"; "boost/context/continuation.hpp"] = Some 2%nat.
Proof. unfold count, unit_lines. rewrite table_eq. intros [<-|[<-|[]]]; vm_compute; auto. Qed.
Theorem C59_forced_unwind_fcontext :
  count (defines_class "forced_unwind") [] ["boost/context/fiber.hpp"; "boost/context/continuation.hpp"] = Some 1%nat.
Proof. unfold count, gets, unit_lines. rewrite table_eq. vm_compute. auto. Qed.

(** ** The sources of the library *)

(** [d] defines the macros that B2 defines for the value [v] of context-impl *)
Definition macros_of (v : string) (d : string -> bool) : Prop :=
  forall m, In m ["BOOST_USE_UCONTEXT"; "BOOST_USE_WINFIB"] ->
            (d m = true <-> In (("context-impl", v), ("define", m)) compositions).
Definition comps : list ((string * string) * (string * string)) := Eval vm_compute in compositions.
Lemma comps_eq : compositions = comps.
Proof. vm_compute. reflexivity. Qed.
Lemma source_files k : In k kinds -> exists es, lookup (k ++ ".cpp")%string source_tab = Some (Some es).
Proof. intros [<-|[<-|[]]]; eexists; vm_compute; reflexivity. Qed.

(** the lines of a source of the library *)
Definition source_lines (q d : string -> bool) (f : string) : option (list pev) :=
  match lookup f source_table with
  | Some (Some es) => option_map snd (preprocess header_table q d es)
  | _ => None
  end.
Definition source_ok (K : list (string * bool)) (b k : string) : bool :=
  match lookup (k ++ ".cpp")%string source_tab with
  | Some (Some es) =>
      match pp (A := tris) (fun _ => None) table 10 (known K) (Some true) es with
      | Some (D', o) => forallb (fun c => if String.eqb c b then existsb (fun x => some_true (fst x) && is_inc (impl_header k c) (snd x)) o
                                          else forallb (fun x => some_false (fst x) || negb (is_inc (impl_header k c) (snd x))) o) backends
      | None => false
      end
  | _ => false
  end.
Definition source_cases : list (list (string * bool) * string) :=
  [([("BOOST_USE_UCONTEXT", true)], "ucontext"); ([("BOOST_USE_UCONTEXT", false); ("BOOST_USE_WINFIB", true)], "winfib")].
Lemma sources_checked : forallb (fun c => forallb (source_ok (fst c) (snd c)) kinds) source_cases = true.
Proof. vm_compute. reflexivity. Qed.

Lemma source_backend q d K b k : source_ok K b k = true -> agrees d K ->
  exists ls, source_lines q d (k ++ ".cpp") = Some ls /\
             forall c, In c backends -> (In (XInc (impl_header k c)) ls <-> c = b).
Proof.
  unfold source_ok, source_lines, preprocess. rewrite source_tab_eq, table_eq. intros CHK AG.
  destruct (lookup (k ++ ".cpp")%string source_tab) as [[es|]|]; [|discriminate|discriminate].
  destruct (pp (A := tris) (fun _ => None) table 10 (known K) (Some true) es) as [[T t]|] eqn:ET; [|discriminate].
  pose proof (pp_related tris bools _ tris_bools (fun _ => None) q table ltac:(discriminate) 10 (known K) d (Some true) true es) as R.
  rewrite ET in R. specialize (R (known_ok _ _ AG) ltac:(congruence)).
  destruct (pp (A := bools) q table 10 d true es) as [[D1 o1]|] eqn:EB; [|contradiction]. cbn in R. destruct R as [_ R2].
  exists (map snd (filter fst o1)). split; [reflexivity|]. intros c Ic. rewrite forallb_forall in CHK. specialize (CHK c Ic).
  destruct (String.eqb c b) eqn:E; [apply String.eqb_eq in E|apply String.eqb_neq in E].
  - split; [intros _; exact E|intros _]. clear - CHK R2.
    induction R2 as [|[u e1] [v e2] l l' [H1 H2] R2 IH]; [discriminate|]. cbn [fst snd existsb filter map] in *. subst e2.
    apply orb_true_iff in CHK as [C|C].
    + apply andb_true_iff in C as [U F]. destruct u as [[]|]; try discriminate. rewrite <- (H1 true eq_refl). left.
      destruct e1; try discriminate. cbn in F. apply String.eqb_eq in F as ->. reflexivity.
    + specialize (IH C). destruct v; [right|]; exact IH.
  - split; [|contradiction]. intros J. exfalso. clear - CHK R2 J. rewrite forallb_forall in CHK.
    apply in_map_iff in J as ([v e'] & EE & J). apply filter_In in J as [J F]. cbn [fst snd] in *. subst v e'.
    induction R2 as [|[u e1] [v e2] l l' [H1 H2] R2 IH]; [contradiction|]. cbn [fst snd] in *. subst e2.
    destruct J as [[= -> ->]|J]; [|apply IH; [intros y I; apply CHK; right; exact I|exact J]].
    specialize (CHK _ (or_introl eq_refl)). cbn [fst snd is_inc] in CHK. rewrite String.eqb_refl in CHK.
    destruct u as [[]|]; try discriminate. specialize (H1 false eq_refl). discriminate.
Qed.

(** The library that B2 builds and the programs that use it have the same
    implementation: for a value v of context-impl, the macros that B2 defines make
    fiber.hpp and continuation.hpp choose the headers of v (C59_backend); if v is
    fcontext, the sources are those of C59_selected_code and fcontext.cpp;
    otherwise they are fiber.cpp and continuation.cpp, which include these headers. *)
Theorem C59_library_backend P a v q d :
  select_sources "impl_sources" P = Some (Best a) -> P "context-impl" = Some v -> macros_of v d ->
  In v backends /\ backend d = v /\
  (v = "fcontext" -> a_sources a = ["asm_sources"; "fcontext.cpp"]) /\
  (v <> "fcontext" -> a_sources a = ["continuation.cpp"; "fiber.cpp"] /\
     forall k, In k kinds -> exists ls, source_lines q d (k ++ ".cpp") = Some ls /\
               forall c, In c backends -> (In (XInc (impl_header k c)) ls <-> c = v)).
Proof.
  intros S PV M. destruct (selected_impl P a S) as [F I].
  assert (V : exists w, In w backends /\ lookup "context-impl" (a_reqs a) = Some w /\
              a_sources a = if String.eqb w "fcontext" then ["asm_sources"; "fcontext.cpp"] else ["continuation.cpp"; "fiber.cpp"]).
  { pose proof impl_checked as CHK. rewrite forallb_forall in CHK. specialize (CHK a I). unfold impl_ok in CHK.
    destruct (lookup "context-impl" (a_reqs a)) as [w|]; [|discriminate]. exists w.
    apply andb_true_iff in CHK as [C1 C2]. apply existsb_exists in C1 as (y & J & E). apply String.eqb_eq in E as ->.
    split; [exact J|]. split; [reflexivity|]. destruct (list_eq_dec string_dec (a_sources a) _); [assumption|discriminate]. }
  destruct V as (w & Iw & E & SRC). rewrite (fits_lookup P a _ _ F E) in PV. injection PV as ->.
  split; [exact Iw|]. unfold macros_of in M. rewrite comps_eq in M.
  pose proof (M "BOOST_USE_UCONTEXT" (or_introl eq_refl)) as MU. pose proof (M "BOOST_USE_WINFIB" (or_intror (or_introl eq_refl))) as MW.
  assert (NOT : forall b, ~ b = true -> b = false) by (intros []; congruence).
  assert (B : backend d = v /\ (v <> "fcontext" -> exists K, In (K, v) source_cases /\ agrees d K)).
  { unfold backend. destruct Iw as [<-|[<-|[<-|[]]]].
    - assert (U : d "BOOST_USE_UCONTEXT" = true) by (apply MU; vm_compute; auto). rewrite U. split; [reflexivity|].
      intros _. eexists; split; [left; reflexivity|]. intros x b [[= <- <-]|[]]. exact U.
    - assert (U : d "BOOST_USE_UCONTEXT" = false).
      { apply NOT. intros H. apply MU in H. destruct H as [H|[H|[]]]; discriminate H. }
      assert (W : d "BOOST_USE_WINFIB" = true) by (apply MW; vm_compute; auto). rewrite U, W. split; [reflexivity|].
      intros _. eexists; split; [right; left; reflexivity|]. intros x b [[= <- <-]|[[= <- <-]|[]]]; assumption.
    - assert (U : d "BOOST_USE_UCONTEXT" = false).
      { apply NOT. intros H. apply MU in H. destruct H as [H|[H|[]]]; discriminate H. }
      assert (W : d "BOOST_USE_WINFIB" = false).
      { apply NOT. intros H. apply MW in H. destruct H as [H|[H|[]]]; discriminate H. }
      rewrite U, W. split; [reflexivity|]. congruence. }
  destruct B as [B1 B2]. split; [exact B1|]. split.
  - intros ->. exact SRC.
  - intros N. split; [apply String.eqb_neq in N; rewrite N in SRC; exact SRC|]. intros k Ik.
    destruct (B2 N) as (K & IK & AG). pose proof sources_checked as CHK. rewrite forallb_forall in CHK. specialize (CHK _ IK).
    rewrite forallb_forall in CHK. exact (source_backend q d K v k (CHK k Ik) AG).
Qed.
