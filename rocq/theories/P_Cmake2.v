(** * CMakeLists.txt: the remaining variables (L89-125), languages and sources (L138-200) *)
From Coq Require Import ZArith List String Ascii Bool Lia.
From Verif Require Import AsmMachine AsmAbi AsmLex AsmRead AsmDir BuildText Jam Pp Build Cm P_Cmake0.
Import ListNotations.
Open Scope string_scope.
Open Scope Z_scope.
Open Scope list_scope.

Lemma block4 K U v a : truth v "MSVC" = k_msvc K -> v "BOOST_CONTEXT_ARCHITECTURE" = Some a -> a = k_arch K U ->
  v "BOOST_CONTEXT_ASSEMBLER" = u_asm U -> v "arm64" = None -> v "arm" = None ->
  exists v' : vars, does c4 v v' [] /\ v' "BOOST_CONTEXT_ASSEMBLER" = Some (k_asm K U) /\
    keeps ["_default_asm"; "BOOST_CONTEXT_ASSEMBLER"] v v'.
Proof.
  intros M A EA F S1 S2. unfold k_asm, user. rewrite <- EA. clear EA.
  destruct (k_msvc K), (String.eqb a "arm64") eqn:E1, (String.eqb a "arm") eqn:E2, (u_asm U); eexists; runs2.
Qed.
Lemma block5 K U v f s : v "BOOST_CONTEXT_BINARY_FORMAT" = Some f -> f = k_format K U -> v "BOOST_CONTEXT_ASSEMBLER" = Some s -> s = k_asm K U ->
  v "BOOST_CONTEXT_ASM_SUFFIX" = u_suffix U -> v "pe" = None -> v "gas" = None ->
  exists v' : vars, does c5 v v' [] /\ v' "BOOST_CONTEXT_ASM_SUFFIX" = Some (k_suffix K U) /\
    keeps ["_default_ext"; "BOOST_CONTEXT_ASM_SUFFIX"] v v'.
Proof.
  intros M EM A EA F S1 S2. unfold k_suffix, user. rewrite <- EA, <- EM. clear EA EM.
  destruct (String.eqb f "pe") eqn:E1, (String.eqb s "gas") eqn:E2, (u_suffix U); eexists; runs2.
Qed.
Lemma block6 v impl : v "BOOST_CONTEXT_IMPLEMENTATION" = impl ->
  exists v' : vars, does c6 v v' [] /\ v' "BOOST_CONTEXT_IMPLEMENTATION" = Some (user impl "fcontext") /\
    keeps ["_default_impl"; "BOOST_CONTEXT_IMPLEMENTATION"] v v'.
Proof. intros F. unfold user. destruct impl; eexists; runs2. Qed.

(** the languages that are enabled *)
Definition languages (impl asm platform : string) : list (string * list string) :=
  if String.eqb impl "fcontext" then
    [("enable_language",
      [if String.eqb asm "gas" then if matches "Cygwin" platform then "ASM-ATT" else "ASM"
       else if String.eqb asm "armasm" then "ASM_ARMASM" else "ASM_MASM"])]%string
  else [].
Lemma block7 v i s p : v "BOOST_CONTEXT_IMPLEMENTATION" = Some i -> v "BOOST_CONTEXT_ASSEMBLER" = Some s -> v "CMAKE_CXX_PLATFORM_ID" = Some p ->
  v "gas" = None -> v "armasm" = None -> does c7 v v (languages i s p).
Proof.
  intros I A P S1 S2. unfold languages.
  destruct (String.eqb i "fcontext") eqn:E1, (String.eqb s "gas") eqn:E2, (matches "Cygwin" p) eqn:E3, (String.eqb s "armasm") eqn:E4; runs.
Qed.

Lemma app_assoc_s (a b c : string) : ((a ++ b) ++ c)%string = (a ++ (b ++ c))%string.
Proof. induction a as [|x a IH]; cbn; [reflexivity|rewrite IH; reflexivity]. Qed.
Lemma block8 K U v : v "BOOST_CONTEXT_BINARY_FORMAT" = Some (k_format K U) -> v "BOOST_CONTEXT_ABI" = Some (k_abi K U) ->
  v "BOOST_CONTEXT_ARCHITECTURE" = Some (k_arch K U) -> v "BOOST_CONTEXT_ASSEMBLER" = Some (k_asm K U) ->
  v "BOOST_CONTEXT_ASM_SUFFIX" = Some (k_suffix K U) -> v "mach-o" = None ->
  exists v' : vars, does c8 v v' [] /\
    v' "ASM_SOURCES" = Some (join (map (fun x => "src/" ++ x)%string (k_files K U))) /\
    keeps ["BOOST_CONTEXT_BINARY_FORMAT"; "_asm_suffix"; "ASM_SOURCES"] v v'.
Proof.
  unfold k_files. generalize (k_format K U) (k_abi K U) (k_arch K U) (k_asm K U) (k_suffix K U).
  intros f b a s x F B A S X N.
  destruct (String.eqb f "mach-o") eqn:E1; eexists; (split; [runs|split; [cbn; known; rewrite ?no_more; reflexivity|kept]]).
Qed.

Definition implementation (K : cmake) (U : cached) (impl : string) : list string :=
  if String.eqb impl "fcontext" then map (fun x => "src/" ++ x)%string (k_files K U) ++ ["src/fcontext.cpp"]
  else ["src/continuation.cpp"; "src/fiber.cpp"].
Lemma join_app l x : l <> [] -> join (l ++ [x]) = (join l ++ String ";" x)%string.
Proof.
  induction l as [|y [|z l] IH]; intros N; [congruence|reflexivity|].
  change ((y :: z :: l) ++ [x]) with (y :: ((z :: l) ++ [x])). change (join (y :: (z :: l) ++ [x])) with (y ++ String ";" (join ((z :: l) ++ [x])))%string.
  rewrite IH by discriminate. change (join (y :: z :: l)) with (y ++ String ";" (join (z :: l)))%string. rewrite app_assoc_s. reflexivity.
Qed.
(** the flag that the safe exception handlers of 32-bit Windows need *)
Definition flags (K : cmake) (U : cached) (impl : string) : list (string * list string) :=
  if String.eqb impl "fcontext" && (String.eqb (k_asm K U) "masm" && String.eqb (k_arch K U) "i386") then
    [("set_source_files_properties", [join (map (fun x => "src/" ++ x) (k_files K U)); "PROPERTIES"; "COMPILE_FLAGS"; "/safeseh"])]%string
  else [].
Ltac runs9 := intros t; unfold at_, c9; repeat one; apply run_end; unfold with_ifs, with_vars; cbn [s_vars s_trace s_ifs]; rewrite ?no_more, ?app_nil_r; reflexivity.
Lemma block9 K U v i : v "BOOST_CONTEXT_IMPLEMENTATION" = Some i ->
  v "BOOST_CONTEXT_ARCHITECTURE" = Some (k_arch K U) -> v "BOOST_CONTEXT_ASSEMBLER" = Some (k_asm K U) ->
  v "ASM_SOURCES" = Some (join (map (fun x => "src/" ++ x)%string (k_files K U))) -> v "masm" = None -> v "i386" = None ->
  exists v' : vars, does c9 v v' (flags K U i) /\ v' "IMPL_SOURCES" = Some (join (implementation K U i)) /\ keeps ["IMPL_SOURCES"] v v'.
Proof.
  unfold implementation, flags. assert (N : map (fun x => "src/" ++ x)%string (k_files K U) <> []) by discriminate.
  revert N. generalize (k_arch K U) (k_asm K U) (map (fun x => "src/" ++ x)%string (k_files K U)). intros a s l N I A S J S1 S2.
  assert (JN : join (l ++ ["src/fcontext.cpp"]) = (join l ++ ";src/fcontext.cpp")%string) by (apply join_app, N).
  set (j := join l) in *. clearbody j. 
  destruct (v "CMAKE_CXX_COMPILER_ID") as [c|] eqn:C; [destruct (String.eqb c "GNU") eqn:G|];
  destruct (String.eqb i "fcontext") eqn:E1, (String.eqb s "masm") eqn:E2, (String.eqb a "i386") eqn:E3; rewrite ?JN; cbn [andb]; eexists;
    (split; [runs9|split; [cbn; known; rewrite ?no_more; reflexivity|kept]]).
Qed.

Definition stack_source (K : cmake) (platform : string) : string :=
  if k_win32 K && negb (matches "Cygwin" platform) then "src/windows/stack_traits.cpp" else "src/posix/stack_traits.cpp".
Definition library (K : cmake) (U : cached) (impl platform : string) : list (string * list string) :=
  [("add_library", ["boost_context"; join (implementation K U impl); stack_source K platform]);
   ("add_library", ["Boost::context"; "ALIAS"; "boost_context"])]%string.
Ltac runs10 := intros t; unfold at_, c10; repeat one; apply run_end; unfold with_ifs, with_vars; cbn [s_vars s_trace s_ifs]; rewrite ?no_more, <- ?app_assoc; reflexivity.
Lemma block10 K U v i p : truth v "WIN32" = k_win32 K -> v "CMAKE_CXX_PLATFORM_ID" = Some p ->
  v "IMPL_SOURCES" = Some (join (implementation K U i)) ->
  exists v' : vars, does c10 v v' (library K U i p) /\ keeps ["STACK_TRAITS_SOURCES"] v v'.
Proof.
  unfold library, stack_source. generalize (join (implementation K U i)). intros j W P J.
  destruct (k_win32 K), (matches "Cygwin" p) eqn:E; cbn [andb negb]; eexists; (split; [runs10|kept]).
Qed.

Definition uses (shared : bool) (impl : string) : list (string * list string) :=
  [("target_compile_definitions", ["boost_context"; "PUBLIC"; "BOOST_CONTEXT_NO_LIB="; "PRIVATE"; "BOOST_CONTEXT_SOURCE="]);
   ("target_compile_definitions",
     if shared then ["boost_context"; "PUBLIC"; "BOOST_CONTEXT_DYN_LINK="; "BOOST_CONTEXT_EXPORT=EXPORT"]
     else ["boost_context"; "PUBLIC"; "BOOST_CONTEXT_STATIC_LINK="; "BOOST_CONTEXT_EXPORT="])]%string ++
  (if String.eqb impl "ucontext" then [("target_compile_definitions", ["boost_context"; "PUBLIC"; "BOOST_USE_UCONTEXT="])] else [])%string ++
  (if String.eqb impl "winfib" then [("target_compile_definitions", ["boost_context"; "PUBLIC"; "BOOST_USE_WINFIB="])] else [])%string.
Lemma block11 v i : v "BOOST_CONTEXT_IMPLEMENTATION" = Some i -> does c11 v v (uses (truth v "BUILD_SHARED_LIBS") i).
Proof.
  intros I. unfold uses. destruct (truth v "BUILD_SHARED_LIBS") eqn:E0, (truth v "BUILD_TESTING") eqn:E4, (String.eqb i "ucontext") eqn:E1, (String.eqb i "winfib") eqn:E2;
    intros t; unfold at_, c11; repeat one; apply run_end; unfold with_ifs, with_vars; cbn [s_vars s_trace s_ifs]; rewrite ?app_nil_r, <- ?app_assoc; reflexivity.
Qed.
