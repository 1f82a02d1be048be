(** * CMakeLists.txt: running it on unknown values *)
From Coq Require Import ZArith List String Ascii Bool Lia.
From Verif Require Import AsmMachine AsmAbi AsmLex AsmRead AsmDir BuildText Jam Pp Build Cm.
Import ListNotations.
Open Scope string_scope.
Open Scope Z_scope.
Open Scope list_scope.

(** ** The values of variables at the beginning *)

(** the words that the file compares with are not the names of variables *)
Definition strays : list string :=
  ["pe"; "gas"; "armasm"; "masm"; "arm"; "arm64"; "i386"; "mach-o"; "32"].
(** the system [K], what the user has chosen ([U], and [impl] for
    BOOST_CONTEXT_IMPLEMENTATION), and the platform that the compiler names *)
Record starts (K : cmake) (U : cached) (impl : option string) (platform : string) (v : vars) : Prop := {
  st_proc : v "CMAKE_SYSTEM_PROCESSOR" = Some (k_proc K);
  st_ptr : k_ptr K = 4 /\ v "CMAKE_SIZEOF_VOID_P" = Some "4" \/ k_ptr K = 8 /\ v "CMAKE_SIZEOF_VOID_P" = Some "8";
  st_win : truth v "WIN32" = k_win32 K;
  st_apple : truth v "APPLE" = k_apple K;
  st_msvc : truth v "MSVC" = k_msvc K;
  st_format : v "BOOST_CONTEXT_BINARY_FORMAT" = u_format U;
  st_abi : v "BOOST_CONTEXT_ABI" = u_abi U;
  st_arch : v "BOOST_CONTEXT_ARCHITECTURE" = u_arch U;
  st_asm : v "BOOST_CONTEXT_ASSEMBLER" = u_asm U;
  st_suffix : v "BOOST_CONTEXT_ASM_SUFFIX" = u_suffix U;
  st_impl : v "BOOST_CONTEXT_IMPLEMENTATION" = impl;
  st_platform : v "CMAKE_CXX_PLATFORM_ID" = Some platform;
  st_strays : forall x, In x strays -> v x = None }.

(** ** Blocks of the file *)
Definition all_commands : list command := Eval vm_compute in match commands b_cmake with Some c => c | None => [] end.
Lemma commands_read : commands b_cmake = Some all_commands.
Proof. vm_compute. reflexivity. Qed.
Definition part (a b : nat) : list command := firstn (b - a) (skipn a all_commands).
Definition c1 := Eval vm_compute in part 0 13.
Definition c2 := Eval vm_compute in part 13 30.
Definition c3 := Eval vm_compute in part 30 55.
Definition c4 := Eval vm_compute in part 55 67.
Definition c5 := Eval vm_compute in part 67 77.
Definition c6 := Eval vm_compute in part 77 82.
Definition c7 := Eval vm_compute in part 82 95.
Definition c8 := Eval vm_compute in part 95 101.
Definition c9 := Eval vm_compute in part 101 112.
Definition c10 := Eval vm_compute in part 112 119.
Definition c11 := Eval vm_compute in part 119 136.
Lemma parts : all_commands = c1 ++ c2 ++ c3 ++ c4 ++ c5 ++ c6 ++ c7 ++ c8 ++ c9 ++ c10 ++ c11.
Proof. reflexivity. Qed.
Definition at_ (v : vars) t : state := {| s_ifs := []; s_vars := v; s_trace := t |}.
Lemma run_app a b s : run (a ++ b) s = match run a s with Some s' => run b s' | None => None end.
Proof. revert s. induction a as [|c a IH]; intros s; cbn; [reflexivity|]. destruct (step s c); [apply IH|reflexivity]. Qed.
Lemma run_cons c l s : run (c :: l) s = match step s c with Some s' => run l s' | None => None end.
Proof. reflexivity. Qed.

Definition written (l : list string) (y : string) : bool := existsb (fun x => String.eqb x y) l.
Lemma upd_other v x a y : String.eqb x y = false -> upd v x a y = v y.
Proof. unfold upd. intros ->. reflexivity. Qed.
Lemma arm_rx s : matches "^[Aa][Rr][Mm]" s = armish s.
Proof.
  destruct s as [|a [|b [|c s]]]; cbn; [reflexivity|..]; unfold either, is_sy; cbn;
    rewrite ?(Ascii.eqb_sym _ a), ?(Ascii.eqb_sym _ b), ?(Ascii.eqb_sym _ c), ?andb_false_r, ?andb_true_r, ?orb_false_r; try reflexivity.
  rewrite (orb_comm (a =? "a")%char), (orb_comm (b =? "r")%char), (orb_comm (c =? "m")%char), andb_assoc. reflexivity.
Qed.
Lemma mips_rx s : matches "^mips" s = mipsish s.
Proof.
  assert (H : forall a b c, (if ascii_dec a b then c else false) = Ascii.eqb a b && c).
  { intros a b c. destruct (ascii_dec a b) as [->|N]; [rewrite Ascii.eqb_refl; reflexivity|].
    apply Ascii.eqb_neq in N. rewrite N. reflexivity. }
  unfold mipsish. cbn [matches rx_of].
  do 4 (destruct s as [|? s]; cbn -[ascii_dec]; [rewrite ?H, ?andb_false_r; reflexivity|]).
  rewrite !H. cbn. destruct s; rewrite ?(Ascii.eqb_sym "m"); cbn; reflexivity.
Qed.

(** what a block does: the new values, and what it adds to the trace *)
Definition does (cs : list command) (v v' : vars) (tr : list (string * list string)) : Prop :=
  forall t, run cs (at_ v t) = Some (at_ v' (t ++ tr)).
Definition keeps (l : list string) (v v' : vars) : Prop := forall y, written l y = false -> v' y = v y.

Lemma does_app a b v v1 v2 tr1 tr2 : does a v v1 tr1 -> does b v1 v2 tr2 -> does (a ++ b) v v2 (tr1 ++ tr2).
Proof. intros A B t. rewrite run_app, (A t), (B (t ++ tr1)), <- app_assoc. reflexivity. Qed.

Ltac known := repeat match goal with
  | H : ?v ?x = Some _ |- context[?v ?x] => rewrite !H
  | H : ?v ?x = None |- context[?v ?x] => rewrite !H
  | H : truth ?v ?x = _ |- context[truth ?v ?x] => rewrite !H
  | H : matches ?a ?p = _ |- context[matches ?a ?p] => rewrite !H
  | H : armish ?p = _ |- context[matches _ ?p] => rewrite !(arm_rx p)
  | H : mipsish ?p = _ |- context[matches _ ?p] => rewrite !(mips_rx p)
  | H : armish ?p = _ |- context[armish ?p] => rewrite !H
  | H : mipsish ?p = _ |- context[mipsish ?p] => rewrite !H
  | H : String.eqb ?a ?b = _ |- context[String.eqb ?a ?b] => rewrite !H
  | H : existsb ?a ?b = _ |- context[existsb ?a ?b] => rewrite !H
  | H : orb ?a ?b = _ |- context[orb ?a ?b] => rewrite !H
  end.
Lemma run_step c l s s' r : step s c = Some s' -> run l s' = r -> run (c :: l) s = r.
Proof. intros H <-. cbn. rewrite H. reflexivity. Qed.
Lemma run_end s r : Some s = r -> run [] s = r.
Proof. auto. Qed.
Arguments truth : simpl never.
Arguments matches : simpl never.
Arguments math : simpl never.
Arguments decimal : simpl never.
Ltac fold_numbers := repeat match goal with
  | |- context[math ?e] => let r := eval vm_compute in (math e) in change (math e) with r
  | |- context[decimal ?e] => let r := eval vm_compute in (decimal e) in change (decimal e) with r
  end.
Ltac old := repeat match goal with |- context[truth (upd ?v ?x ?a) ?y] => change (truth (upd v x a) y) with (truth v y) end.
Ltac one := eapply run_step;
  [cbn; unfold val; old; known; cbn; fold_numbers; cbn; old; known; cbn; old; known; cbn; reflexivity|].
Ltac runs := intros t; unfold at_, c1, c2, c3, c4, c5, c6, c7, c8, c9, c10, c11; repeat one; apply run_end; rewrite ?app_nil_r; reflexivity.
Ltac kept := let y := fresh "y" in let N := fresh "N" in intros y N; cbn [written existsb] in N;
  repeat (apply orb_false_iff in N; let A := fresh "A" in destruct N as [A N]); unfold upd; known; reflexivity.
Arguments truth : simpl never.
Arguments matches : simpl never.

Lemma truth_keep l v v' x : keeps l v v' -> written l x = false -> truth v' x = truth v x.
Proof. intros H W. unfold truth. rewrite (H x W). reflexivity. Qed.
Lemma no_more s : (s ++ "")%string = s.
Proof. induction s as [|c s IH]; cbn; [reflexivity|rewrite IH; reflexivity]. Qed.
Ltac value := cbn; known; rewrite ?no_more; reflexivity.
Ltac runs2 := split; [runs|split; [value|kept]].


