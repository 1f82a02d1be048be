(** * C59: what CMakeLists.txt, as it is written, builds *)
From Coq Require Import ZArith List String Ascii Bool Lia.
From Verif Require Import AsmMachine AsmAbi AsmLex AsmRead AsmDir BuildText Jam Pp Build P_Build P_Build2 Cm P_Cmake0 P_Cmake1 P_Cmake2.
Import ListNotations.
Open Scope string_scope.
Open Scope Z_scope.
Open Scope list_scope.

Ltac look := first [eassumption | reflexivity | match goal with
  | H : keeps ?l ?v ?v' |- truth ?v' ?x = _ => rewrite (truth_keep l v v' x H eq_refl); look
  | H : keeps ?l ?v ?v' |- ?v' ?x = _ => rewrite (H x eq_refl); look
  end].

(** The hand-written model of the choices (Build.v) is what the file says: for all values
    of the variables, a run of the file succeeds; the library has the sources [k_files]
    and src/fcontext.cpp, or those of the implementation on ucontext_t or fibers; ... *)
Theorem C59_cmake_text K U impl platform v : starts K U impl platform v ->
  let i := user impl "fcontext"%string in
  exists s, cmake_run v = Some s /\
  s_trace s = languages i (k_asm K U) platform ++ flags K U i ++ library K U i platform ++ uses (truth v "BUILD_SHARED_LIBS") i.
Proof.
  intros [PR PT WI AP MS FO AB AR AS SU IM PL ST]. cbv zeta.
  assert (S1 := ST "pe" ltac:(cbn; auto 12)). assert (S2 := ST "gas" ltac:(cbn; auto 12)). assert (S3 := ST "armasm" ltac:(cbn; auto 12)).
  assert (S4 := ST "masm" ltac:(cbn; auto 12)). assert (S5 := ST "arm" ltac:(cbn; auto 12)). assert (S6 := ST "arm64" ltac:(cbn; auto 12)).
  assert (S7 := ST "i386" ltac:(cbn; auto 12)). assert (S8 := ST "mach-o" ltac:(cbn; auto 12)). assert (S9 := ST "32" ltac:(cbn; auto 12)).
  clear ST. set (i := user impl "fcontext"%string).
  destruct (block1 K U v) as (w1 & D1 & F1 & K1); [look|look|look|].
  assert (PT1 : k_ptr K = 4 /\ w1 "CMAKE_SIZEOF_VOID_P" = Some "4"%string \/ k_ptr K = 8 /\ w1 "CMAKE_SIZEOF_VOID_P" = Some "8"%string)
    by (rewrite (K1 "CMAKE_SIZEOF_VOID_P" eq_refl); exact PT).
  destruct (block2 K U w1) as (w2 & D2 & (F2 & G2) & K2); [look|look|exact PT1|look|look|].
  destruct (block3 K U w2) as (w3 & D3 & F3 & K3); [look|look|look|look|].
  destruct (block4 K U w3 (k_arch K U)) as (w4 & D4 & F4 & K4); [look|look|reflexivity|look|look|look|].
  destruct (block5 K U w4 (k_format K U) (k_asm K U)) as (w5 & D5 & F5 & K5); [look|reflexivity|look|reflexivity|look|look|look|].
  destruct (block6 w5 impl) as (w6 & D6 & F6 & K6); [look|]. fold i in F6.
  assert (D7 : does c7 w6 w6 (languages i (k_asm K U) platform)) by (apply block7; look).
  destruct (block8 K U w6) as (w8 & D8 & F8 & K8); [look|look|look|look|look|look|].
  destruct (block9 K U w8 i) as (w9 & D9 & F9 & K9); [look|look|look|look|look|look|].
  destruct (block10 K U w9 i platform) as (w10 & D10 & K10); [look|look|look|].
  assert (D11 : does c11 w10 w10 (uses (truth v "BUILD_SHARED_LIBS") i)).
  { replace (truth v "BUILD_SHARED_LIBS") with (truth w10 "BUILD_SHARED_LIBS") by look. apply block11; look. }
  unfold cmake_run. rewrite commands_read, parts.
  pose proof (does_app _ _ _ _ _ _ _ D1 (does_app _ _ _ _ _ _ _ D2 (does_app _ _ _ _ _ _ _ D3 (does_app _ _ _ _ _ _ _ D4
    (does_app _ _ _ _ _ _ _ D5 (does_app _ _ _ _ _ _ _ D6 (does_app _ _ _ _ _ _ _ D7 (does_app _ _ _ _ _ _ _ D8
    (does_app _ _ _ _ _ _ _ D9 (does_app _ _ _ _ _ _ _ D10 D11)))))))))) as R.
  exists (at_ w10 ([] ++ ([] ++ [] ++ [] ++ [] ++ [] ++ [] ++ languages i (k_asm K U) platform ++ [] ++ flags K U i ++ library K U i platform ++ uses (truth v "BUILD_SHARED_LIBS") i))).
  split; [exact (R [])|reflexivity].
Qed.

(** Together: if the user sets nothing but the implementation, the library consists of
    the three files of a listing whose code is for the processor, the calling convention and the object
    format, and src/fcontext.cpp and the stack traits of the system. *)
Theorem C59_cmake_library K impl platform v m fmt :
  starts K unset impl platform v -> user impl "fcontext"%string = "fcontext"%string ->
  runs_on K m -> os_format K = Some fmt -> families m fmt <> [] ->
  (fmt = "pe"%string -> m = "arm"%string \/ m = "arm64"%string -> k_msvc K = true) ->
  exists s l, cmake_run v = Some s /\ In l listings /\
  In ("add_library", ["boost_context"; join (map (fun x => "src/" ++ x) (triple l) ++ ["src/fcontext.cpp"]); stack_source K platform])%string (s_trace s) /\
  forall o, compiles_for o m fmt ->
    (forall c sx A, In (c, (sx, A)) (l_cases l) -> holds o c = true -> right_for m fmt A) /\
    ((exists c sx A, In (c, (sx, A)) (l_cases l) /\ holds o c = true) \/ holds o (special m fmt) = true).
Proof.
  intros ST IM R OS HF AM.
  destruct (C59_cmake_text _ _ _ _ _ ST) as (s & E & T). rewrite IM in T.
  destruct (C59_cmake_code K m fmt R OS HF AM) as (l & J & FI & H).
  exists s, l. split; [exact E|]. split; [exact J|]. split; [|exact H].
  rewrite T. apply in_or_app. right. apply in_or_app. right. apply in_or_app. left. left.
  unfold library, implementation. rewrite FI. reflexivity.
Qed.

(** The macros that users of the library get select the implementation that is in it. *)
Theorem C59_cmake_backend K U impl platform v b (d : string -> bool) :
  starts K U impl platform v -> user impl "fcontext"%string = b -> In b backends ->
  exists s, cmake_run v = Some s /\
  ((forall x, In x ["BOOST_USE_UCONTEXT"; "BOOST_USE_WINFIB"]%string ->
      (d x = true <-> In ("target_compile_definitions", ["boost_context"; "PUBLIC"; (x ++ "=")])%string (s_trace s))) ->
   backend d = b).
Proof.
  intros ST IM IB. destruct (C59_cmake_text _ _ _ _ _ ST) as (s & E & T). rewrite IM in T.
  exists s. split; [exact E|]. intros H. rewrite T in H.
  assert (DEC : forall x, In x ["BOOST_USE_UCONTEXT"; "BOOST_USE_WINFIB"]%string ->
    (d x = true <-> In ("target_compile_definitions", ["boost_context"; "PUBLIC"; (x ++ "=")])%string (uses (truth v "BUILD_SHARED_LIBS") b))).
  { intros x Ix. rewrite (H x Ix). rewrite !in_app_iff. split; [|auto].
    intros [C|[C|[C|C]]]; [exfalso|exfalso|exfalso|exact C].
    - unfold languages in C. destruct (String.eqb b "fcontext"); [destruct C as [C|[]]; discriminate C|destruct C].
    - unfold flags in C. destruct (_ && _) in C; [destruct C as [C|[]]; discriminate C|destruct C].
    - destruct C as [C|[C|[]]]; discriminate C. }
  pose proof (DEC "BOOST_USE_UCONTEXT"%string ltac:(cbn; auto)) as DU. pose proof (DEC "BOOST_USE_WINFIB"%string ltac:(cbn; auto)) as DW.
  unfold backend. unfold uses in DU, DW.
  destruct IB as [<-|[<-|[<-|[]]]]; cbn in DU, DW.
  - rewrite (proj2 DU ltac:(auto)). reflexivity.
  - destruct (d "BOOST_USE_UCONTEXT"%string) eqn:DD; [destruct (proj1 DU eq_refl) as [C|[C|[C|[]]]]; [discriminate C|destruct (truth v "BUILD_SHARED_LIBS"); discriminate C|discriminate C]|].
    rewrite (proj2 DW ltac:(auto)). reflexivity.
  - destruct (d "BOOST_USE_UCONTEXT"%string) eqn:DD; [destruct (proj1 DU eq_refl) as [C|[C|[]]]; [discriminate C|destruct (truth v "BUILD_SHARED_LIBS"); discriminate C]|].
    destruct (d "BOOST_USE_WINFIB"%string) eqn:DE; [destruct (proj1 DW eq_refl) as [C|[C|[]]]; [discriminate C|destruct (truth v "BUILD_SHARED_LIBS"); discriminate C]|].
    reflexivity.
Qed.

(** the hypotheses are met: 64-bit Linux *)
Example C59_cmake_starts :
  starts (kmake (false, (false, false)) "x86_64" 8) unset None "Linux"
    (fun x => if String.eqb x "CMAKE_SYSTEM_PROCESSOR" then Some "x86_64"%string
              else if String.eqb x "CMAKE_SIZEOF_VOID_P" then Some "8"%string
              else if String.eqb x "CMAKE_CXX_PLATFORM_ID" then Some "Linux"%string else None) /\
  runs_on (kmake (false, (false, false)) "x86_64" 8) "x86_64".
Proof.
  split; [constructor; cbn; auto|left; cbn; auto].
  intros x J. cbn in J. repeat (destruct J as [<-|J]; [reflexivity|]). destruct J.
Qed.
