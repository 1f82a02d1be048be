(** * C59, continued: the tail of ontop_fcontext, and CMake *)
From Coq Require Import ZArith List String Ascii Bool Lia.
From Verif Require Import AsmMachine AsmAbi AsmCode P_AsmText AsmLex AsmRead AsmDir BuildText Jam Pp Build P_Build.
Import ListNotations.
Open Scope string_scope.
Open Scope Z_scope.
Open Scope list_scope.

Definition alt_tail (a : alt) : bool :=
  let g f := lookup f (a_reqs a) in
  match g "binary-format", g "architecture", g "abi" with
  | Some fmt, Some arch, Some abi =>
      oddb a || is (g "address-model") "32_64" && String.eqb arch "power" ||
      (String.eqb arch "arm+x86" || match g "address-model" with Some _ => true | None => false end) &&
      existsb (fun l => list_in (triple l) (a_sources a) &&
                        forallb (fun m => tail_ok m fmt l (existsb (String.eqb tail_file) (a_sources a)))
                          (machines (Some arch) (g "address-model") (Some abi)))
              listings
  | _, _, _ => false
  end.
Lemma tails_checked : forallb alt_tail asm_alternatives = true.
Proof. vm_compute. reflexivity. Qed.
Local Opaque listings lines_of atoms_of parsed directory asm_alternatives.

(** The second part of ontop_fcontext, which is in C++ for 32-bit PowerPC, is linked if and
    only if the listing calls it. *)
Theorem C59_ppc32_tail P a fmt :
  select_sources "asm_sources" P = Some (Best a) -> P "binary-format" = Some fmt -> ~ odd P ->
  ~ (P "architecture" = Some "power" /\ P "address-model" = Some "32_64") ->
  exists l, In l listings /\ incl (triple l) (a_sources a) /\
  forall m o, In m (machines (P "architecture") (P "address-model") (P "abi")) -> compiles_for o m fmt ->
    (needs_tail o l = true <-> In tail_file (a_sources a)).
Proof.
  intros S FM NO NP. apply selected_asm in S as [F I].
  pose proof tails_checked as CHK. rewrite forallb_forall in CHK. specialize (CHK a I). unfold alt_tail in CHK.
  destruct (lookup "binary-format" (a_reqs a)) as [f|] eqn:E1; [|discriminate].
  destruct (lookup "architecture" (a_reqs a)) as [arch|] eqn:E2; [|discriminate].
  destruct (lookup "abi" (a_reqs a)) as [abi|] eqn:E3; [|discriminate].
  rewrite (fits_lookup P a _ _ F E1) in FM. injection FM as ->.
  rewrite (fits_lookup P a _ _ F E2), (fits_lookup P a _ _ F E3) in *.
  apply orb_true_iff in CHK as [CHK|CHK].
  { apply orb_true_iff in CHK as [CHK|CHK]; [destruct NO; exact (oddb_odd P a F CHK)|].
    apply andb_true_iff in CHK as [C1 C2]. apply is_eq in C1. apply String.eqb_eq in C2 as ->.
    destruct NP. split; [reflexivity|exact (fits_lookup P a _ _ F C1)]. }
  apply andb_true_iff in CHK as [C0 CHK]. apply existsb_exists in CHK as (l & J & CHK).
  apply andb_true_iff in CHK as [C1 C3].
  exists l. split; [exact J|]. split; [apply list_in_incl, C1|].
  intros m o M CF. rewrite forallb_forall in C3.
  assert (M' : In m (machines (Some arch) (lookup "address-model" (a_reqs a)) (Some abi))).
  { apply orb_true_iff in C0 as [C0|C0].
    - apply String.eqb_eq in C0. subst arch. exact M.
    - destruct (lookup "address-model" (a_reqs a)) as [x|] eqn:E4; [|discriminate].
      rewrite (fits_lookup P a _ _ F E4) in M. exact M. }
  rewrite (tail_sound m fmt l _ o (C3 m M') CF). rewrite existsb_exists. split.
  - intros (y & K & E). apply String.eqb_eq in E as <-. exact K.
  - intros K. eexists; split; [exact K|apply String.eqb_refl].
Qed.

(** in the universal binary for both PowerPCs it is missing *)
Theorem C59_ppc32_tail_universal_refuted :
  let P := fun f => lookup f [("architecture", "power"); ("address-model", "32_64"); ("abi", "sysv"); ("binary-format", "mach-o")] in
  let o := tabled (decided "ppc32" "mach-o") in
  ~ In tail_file (built_from P) /\
  exists l, In l listings /\ incl (triple l) (built_from P) /\ compiles_for o "ppc32" "mach-o" /\
            In "ppc32" (machines (P "architecture") (P "address-model") (P "abi")) /\ needs_tail o l = true.
Proof.
  cbv zeta. split.
  { intros C. assert (T : existsb (String.eqb tail_file) (built_from (fun f => lookup f
      [("architecture", "power"); ("address-model", "32_64"); ("abi", "sysv"); ("binary-format", "mach-o")])) = true)
      by (apply existsb_exists; eexists; split; [exact C|apply String.eqb_refl]). revert T. vm_compute. discriminate. }
  assert (X : existsb (fun l => list_in (triple l) (built_from (fun f => lookup f
      [("architecture", "power"); ("address-model", "32_64"); ("abi", "sysv"); ("binary-format", "mach-o")])) &&
      needs_tail (tabled (decided "ppc32" "mach-o")) l) listings = true) by (vm_compute; reflexivity).
  apply existsb_exists in X as (l & J & X). apply andb_true_iff in X as [X1 X2].
  exists l. split; [exact J|]. split; [apply list_in_incl, X1|]. split; [|split; [left; reflexivity|exact X2]].
  intros x b J'. assert (C : forallb (fun x => Bool.eqb (tabled (decided "ppc32" "mach-o") (ADef (fst x))) (snd x)) (cpu_macros "ppc32" "mach-o") = true)
    by (vm_compute; reflexivity).
  rewrite forallb_forall in C. specialize (C _ J'). apply eqb_prop in C. exact C.
Qed.

(** ** CMake *)

Definition good_files (files : list string) (m fmt : string) : bool :=
  existsb (fun l => (if list_eq_dec string_dec files (triple l) then true else false) && suits m fmt l) listings.
Lemma good_files_ok files m fmt : good_files files m fmt = true ->
  exists l, In l listings /\ files = triple l /\
  forall o, compiles_for o m fmt ->
    (forall c sx A, In (c, (sx, A)) (l_cases l) -> holds o c = true -> right_for m fmt A) /\
    ((exists c sx A, In (c, (sx, A)) (l_cases l) /\ holds o c = true) \/ holds o (special m fmt) = true).
Proof.
  intros H. apply existsb_exists in H as (l & J & H). apply andb_true_iff in H as [H1 H2].
  exists l. split; [exact J|]. split; [destruct (list_eq_dec _ _ _); [assumption|discriminate]|].
  intros o CF. destruct (suits_sound m fmt l o H2 CF) as [S1 S2]. split; [exact S1|].
  destruct (C58_configurations o l J) as [H|H]; [left; exact H|right; exact (S2 H)].
Qed.
Definition systems : list (bool * (bool * bool)) :=
  [(false, (false, false)); (false, (true, false)); (true, (false, false)); (true, (false, true))].
Definition kmake (s : bool * (bool * bool)) (p : string) (n : Z) : cmake :=
  {| k_win32 := fst s; k_apple := fst (snd s); k_msvc := snd (snd s); k_proc := p; k_ptr := n |}.
Definition has_code (m fmt : string) : bool := match families m fmt with [] => false | _ => true end.
Definition gas_for_arm (m fmt : string) (msvc : bool) : bool :=
  String.eqb fmt "pe" && (String.eqb m "arm" || String.eqb m "arm64") && negb msvc.
Definition cmake_ok (s : bool * (bool * bool)) (x : string * (Z * string)) : bool :=
  let K := kmake s (fst x) (fst (snd x)) in
  let m := snd (snd x) in
  match os_format K with
  | Some fmt => negb (has_code m fmt) || gas_for_arm m fmt (k_msvc K) || good_files (k_files K unset) m fmt
  | None => false
  end.
Lemma cmake_checked : forallb (fun s => forallb (cmake_ok s) (("armv7", (4, "arm")) :: cmake_names)) systems = true.
Proof. vm_compute. reflexivity. Qed.
Lemma armv_files s v n : k_files (kmake s ("armv" ++ v) n) unset = k_files (kmake s "armv7" n) unset.
Proof.
  unfold k_files, k_suffix, k_asm, k_format, k_abi, k_arch, k_bits. cbn [kmake k_proc k_win32 k_apple k_msvc k_ptr unset user u_format u_abi u_arch u_asm u_suffix].
  change (existsb (String.eqb ("armv" ++ v)%string) all_archs) with false.
  change (existsb (String.eqb "armv7") all_archs) with false.
  change (armish ("armv" ++ v)) with true. change (armish "armv7") with true. reflexivity.
Qed.

(** What CMakeLists.txt chooses, if the user sets nothing, for a system with one of these
    processors: the files of a listing, whose code is for the processor, its calling
    convention and the object format.  Windows on arm and arm64 needs MSVC. *)
Theorem C59_cmake_code K m fmt :
  runs_on K m -> os_format K = Some fmt -> families m fmt <> [] ->
  (fmt = "pe" -> m = "arm" \/ m = "arm64" -> k_msvc K = true) ->
  exists l, In l listings /\ k_files K unset = triple l /\
  forall o, compiles_for o m fmt ->
    (forall c sx A, In (c, (sx, A)) (l_cases l) -> holds o c = true -> right_for m fmt A) /\
    ((exists c sx A, In (c, (sx, A)) (l_cases l) /\ holds o c = true) \/ holds o (special m fmt) = true).
Proof.
  intros R OS HF AM. apply good_files_ok.
  destruct K as [w a v p n]. set (s := (w, (a, v))).
  assert (IS : In s systems) by (subst s; destruct w, a, v; try discriminate OS; cbn; auto).
  pose proof cmake_checked as CHK. rewrite forallb_forall in CHK. specialize (CHK s IS). rewrite forallb_forall in CHK.
  assert (X : exists p', In (p', (n, m)) (("armv7", (4, "arm")) :: cmake_names) /\
              k_files {| k_win32 := w; k_apple := a; k_msvc := v; k_proc := p; k_ptr := n |} unset = k_files (kmake s p' n) unset).
  { destruct R as [R|(ver & R1 & R2 & R3)]; cbn in *.
    - exists p. split; [right; exact R|reflexivity].
    - subst p n m. exists "armv7". split; [left; reflexivity|]. exact (armv_files s ver 4). }
  destruct X as (p' & J & ->). specialize (CHK _ J). unfold cmake_ok in CHK. cbn [fst snd] in CHK.
  assert (OS' : os_format (kmake s p' n) = Some fmt) by exact OS. rewrite OS' in CHK.
  apply orb_true_iff in CHK as [CHK|CHK]; [|exact CHK]. exfalso. apply orb_true_iff in CHK as [CHK|CHK].
  - unfold has_code in CHK. destruct (families m fmt); [contradiction|discriminate].
  - unfold gas_for_arm in CHK. apply andb_true_iff in CHK as [CHK V]. apply andb_true_iff in CHK as [PE MM].
    apply String.eqb_eq in PE. apply orb_true_iff in MM. rewrite !String.eqb_eq in MM.
    cbn in V, AM. rewrite (AM PE MM) in V. discriminate.
Qed.

(** *** What goes wrong with CMake *)

(** a 32-bit build on x86_64 (gcc -m32) takes the files for x86_64; their ontop_fcontext is
    not for i386 (C58_x86_64_on_i386_refuted) *)
Theorem C59_cmake_m32_refuted o : compiles_for o "i386" "elf" ->
  exists l, In l listings /\ k_files (kmake (false, (false, false)) "x86_64" 4) unset = triple l /\
            holds o (l_other l) = true /\ forall c sx A, In (c, (sx, A)) (l_cases l) -> holds o c = false.
Proof.
  intros CF.
  assert (X : existsb (fun l => (if list_eq_dec string_dec (k_files (kmake (false, (false, false)) "x86_64" 4) unset) (triple l) then true else false) &&
                        match l_other l with COr (CAtom (ADef x)) _ => String.eqb x "__i386__" | _ => false end &&
                        forallb (fun c => forallb (fun v => negb (holds (tabled (decided "i386" "elf" ++ v)) (fst c)))
                                  (assigns (condition_atoms "i386" "elf" l))) (l_cases l)) listings = true)
    by (vm_compute; reflexivity).
  apply existsb_exists in X as (l & J & X). apply andb_true_iff in X as [X X3]. apply andb_true_iff in X as [X1 X2].
  exists l. split; [exact J|]. split; [destruct (list_eq_dec _ _ _); [assumption|discriminate]|].
  pose proof (CF "__i386__" true (or_introl eq_refl)) as I3.
  assert (HO : holds o (l_other l) = true).
  { destruct (l_other l) as [| | |[[x| | |]| | | |] d|]; try discriminate. apply String.eqb_eq in X2 as ->. cbn. rewrite I3. reflexivity. }
  split; [exact HO|]. intros c sx A Jc. rewrite forallb_forall in X3. specialize (X3 _ Jc). rewrite forallb_forall in X3.
  specialize (X3 _ (assigns_all o (condition_atoms "i386" "elf" l))). cbn [fst] in X3. apply negb_true_iff in X3.
  rewrite <- X3. apply holds_agree. intros a Ja.
  assert (EV : decided "i386" "elf" ++ map (fun a => (a, o a)) (condition_atoms "i386" "elf" l) =
               map (fun a => (a, o a)) (map fst (decided "i386" "elf") ++ condition_atoms "i386" "elf" l)).
  { rewrite map_app. f_equal. unfold decided. rewrite !map_map. apply map_ext_in. intros [x b] Jx. cbn.
    rewrite (CF x b Jx). reflexivity. }
  rewrite EV. apply tabled_agree. apply in_or_app.
  destruct (existsb (fun x => atom_eqb (fst x) a) (decided "i386" "elf")) eqn:E.
  - left. apply existsb_exists in E as (x & I & E). apply atom_eqb_eq in E as <-. apply in_map, I.
  - right. unfold condition_atoms. apply filter_In. rewrite E. split; [|reflexivity].
    apply nubs_in. apply in_or_app. left. apply in_flat_map. eexists; split; [exact Jc|exact Ja].
Qed.

(** PowerPC, SPARC and 32-bit RISC-V: the files are those for x86 *)
Definition foreign : list ((string * Z) * string) :=
  [(("ppc64le", 8), "ppc64"); (("ppc64", 8), "ppc64"); (("sparc64", 8), "sparc64"); (("ppc", 4), "ppc32")].
Theorem C59_cmake_foreign_refuted p n m : In ((p, n), m) foreign ->
  exists l, In l listings /\ k_files (kmake (false, (false, false)) p n) unset = triple l /\
            families m "elf" <> [] /\ forall c sx A, In (c, (sx, A)) (l_cases l) -> ~ right_for m "elf" A.
Proof.
  intros I.
  assert (X : forallb (fun x => existsb (fun l =>
      (if list_eq_dec string_dec (k_files (kmake (false, (false, false)) (fst (fst x)) (snd (fst x))) unset) (triple l) then true else false) &&
      has_code (snd x) "elf" && forallb (fun c => negb (rightb (snd x) "elf" (snd (snd c)))) (l_cases l)) listings) foreign = true)
    by (vm_compute; reflexivity).
  rewrite forallb_forall in X. specialize (X _ I). cbn [fst snd] in X.
  apply existsb_exists in X as (l & J & X). apply andb_true_iff in X as [X X3]. apply andb_true_iff in X as [X1 X2].
  exists l. split; [exact J|]. split; [destruct (list_eq_dec _ _ _); [assumption|discriminate]|].
  split; [unfold has_code in X2; destruct (families m "elf"); [discriminate|discriminate]|].
  intros c sx A Jc (f & If & E). rewrite forallb_forall in X3. specialize (X3 _ Jc). cbn [snd] in X3.
  assert (T : rightb m "elf" A = true) by (apply existsb_exists; eauto). rewrite T in X3. discriminate.
Qed.

(** BOOST_CONTEXT_ARCHITECTURE=power, which CMakeLists.txt offers: no such file, whatever
    else is set; the same without MSVC on Windows for arm and arm64 *)
Theorem C59_cmake_power_refuted K U x : u_arch U = Some "power" -> In x (k_files K U) -> exists_file x = false.
Proof.
  intros E. unfold k_files, k_arch. rewrite E. cbn [user].
  set (r := (_ ++ _)%string). 
  intros [<-|[<-|[<-|[]]]]; vm_compute; reflexivity.
Qed.
Theorem C59_cmake_arm_gas_refuted p n x : In (p, n) [("ARM64", 8); ("arm64", 8); ("aarch64", 8); ("arm", 4); ("ARM", 4)] ->
  In x (k_files (kmake (true, (false, false)) p n) unset) -> exists_file x = false.
Proof. intros [[= <- <-]|[[= <- <-]|[[= <- <-]|[[= <- <-]|[[= <- <-]|[]]]]]] [<-|[<-|[<-|[]]]]; vm_compute; reflexivity. Qed.
