(** * CMakeLists.txt: object format, calling convention and architecture (L16-87) *)
From Coq Require Import ZArith List String Ascii Bool Lia.
From Verif Require Import AsmMachine AsmAbi AsmLex AsmRead AsmDir BuildText Jam Pp Build Cm P_Cmake0.
Import ListNotations.
Open Scope string_scope.
Open Scope Z_scope.
Open Scope list_scope.

Lemma block1 K U v : truth v "WIN32" = k_win32 K -> truth v "APPLE" = k_apple K -> v "BOOST_CONTEXT_BINARY_FORMAT" = u_format U ->
  exists v' : vars, does c1 v v' [] /\ v' "BOOST_CONTEXT_BINARY_FORMAT" = Some (k_format K U) /\ keeps ["_default_binfmt"; "BOOST_CONTEXT_BINARY_FORMAT"] v v'.
Proof.
  intros W A F. unfold k_format, user. destruct (k_win32 K), (k_apple K), (u_format U); eexists;
    (split; [runs|split; [cbn; known; reflexivity|kept]]).
Qed.

Lemma block2 K U v : truth v "WIN32" = k_win32 K -> v "CMAKE_SYSTEM_PROCESSOR" = Some (k_proc K) ->
  k_ptr K = 4 /\ v "CMAKE_SIZEOF_VOID_P" = Some "4" \/ k_ptr K = 8 /\ v "CMAKE_SIZEOF_VOID_P" = Some "8" ->
  v "BOOST_CONTEXT_ABI" = u_abi U -> v "32" = None ->
  exists v' : vars, does c2 v v' [] /\
    (v' "BOOST_CONTEXT_ABI" = Some (k_abi K U) /\ v' "_bits" = Some (if (k_bits K =? 32)%Z then "32" else "64")%string) /\
    keeps ["_default_abi"; "BOOST_CONTEXT_ABI"; "_bits"] v v'.
Proof.
  intros W P N F S32. unfold k_abi, k_bits, user. set (p := k_proc K) in *. set (n := k_ptr K) in *. clearbody p n.
  assert (C : armish p = true \/ armish p = false /\ (String.eqb p "aarch64" = true \/ String.eqb p "aarch64" = false /\
              (k_win32 K = true \/ k_win32 K = false /\ (mipsish p = true \/ mipsish p = false)))).
  { destruct (armish p); [auto|right; split; [reflexivity|]]. destruct (String.eqb p "aarch64"); [auto|right; split; [reflexivity|]].
    destruct (k_win32 K); [auto|right; split; [reflexivity|]]. destruct (mipsish p); auto. }
  destruct (u_abi U); destruct N as [[-> N]|[-> N]];
    destruct C as [E1|[E1 [E2|[E2 [E3|[E3 [E4|E4]]]]]]]; try rewrite E3 in *; eexists;
    (split; [runs|split; [split; value|kept]]).
Qed.

Lemma block3 K U v : v "CMAKE_SYSTEM_PROCESSOR" = Some (k_proc K) ->
  v "_bits" = Some (if (k_bits K =? 32)%Z then "32" else "64")%string ->
  v "BOOST_CONTEXT_ARCHITECTURE" = u_arch U -> v "32" = None ->
  exists v' : vars, does c3 v v' [] /\ v' "BOOST_CONTEXT_ARCHITECTURE" = Some (k_arch K U) /\
    keeps ["_all_archs"; "_bits"; "_default_arch"; "BOOST_CONTEXT_ARCHITECTURE"] v v'.
Proof.
  intros P B F S32. unfold k_arch, user. set (p := k_proc K) in *. clearbody p.
  assert (C : existsb (String.eqb p) all_archs = true \/ existsb (String.eqb p) all_archs = false /\
              (k_bits K =? 32)%Z = true /\ (armish p = true \/ armish p = false /\ (mipsish p = true \/ mipsish p = false)) \/
              existsb (String.eqb p) all_archs = false /\ (k_bits K =? 32)%Z = false /\
              (String.eqb p "aarch64" = true \/ String.eqb p "aarch64" = false /\ (armish p = true \/ armish p = false /\ (mipsish p = true \/ mipsish p = false)))).
  { destruct (existsb (String.eqb p) all_archs); [auto|]. destruct (k_bits K =? 32)%Z, (String.eqb p "aarch64"), (armish p), (mipsish p); auto 12. }
  destruct (u_arch U); destruct C as [E|[[E [E0 [E1|[E1 [E2|E2]]]]]|[E [E0 [E1|[E1 [E2|[E2 [E3|E3]]]]]]]]]; try rewrite E0 in *; rewrite ?E; cbn in E; eexists;
    runs2.
Qed.
