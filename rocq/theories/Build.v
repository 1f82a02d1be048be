(** * Which files make up the library, and which headers a program gets

    Jam.v reads build/Jamfile.v2 and Pp.v the headers.  This file says what is
    expected of them: which code a target needs ([machines], [families]); and it
    models how CMakeLists.txt chooses the listings. *)
From Coq Require Import ZArith List String Ascii Bool Lia.
From Verif Require Import AsmMachine AsmAbi AsmLex AsmRead AsmDir BuildText Jam Pp.
Import ListNotations.
Open Scope string_scope.
Open Scope Z_scope.
Open Scope list_scope.

(** ** Targets *)

(** The processors that the code is for, given the properties architecture,
    address-model and abi of B2; several for a universal binary. *)
Definition machines (arch model abi : option string) : list string :=
  match arch, model, abi with
  | Some "arm+x86", _, _ => ["i386"; "x86_64"; "arm"; "arm64"]
  | Some "x86", Some "64", _ => ["x86_64"]
  | Some "x86", Some "32", Some "x32" => ["x32"]
  | Some "x86", Some "32", _ => ["i386"]
  | Some "x86", Some "32_64", _ => ["i386"; "x86_64"]
  | Some "arm", Some "32", _ => ["arm"]
  | Some "arm", Some "64", _ => ["arm64"]
  | Some "power", Some "32", _ => ["ppc32"]
  | Some "power", Some "64", _ => ["ppc64"]
  | Some "power", Some "32_64", _ => ["ppc32"; "ppc64"]
  | Some "mips", Some "32", _ => ["mips32"]
  | Some "mips", Some "64", _ => ["mips64"]
  | Some "riscv", Some "64", _ => ["riscv64"]
  | Some "loongarch", Some "64", _ => ["loongarch64"]
  | Some "s390x", Some "64", _ => ["s390x"]
  | Some "sparc", Some "64", _ => ["sparc64"]
  | _, _, _ => []
  end.

(** What the compilers for these processors define.  Compilers for Apple's systems
    define exactly one of the six macros. *)
Definition cpu_macro (m : string) : string :=
  match m with
  | "x86_64" | "x32" => "__x86_64__" | "i386" => "__i386__" | "ppc32" => "__ppc__" | "ppc64" => "__ppc64__"
  | "arm" => "__arm__" | "arm64" => "__arm64__" | _ => ""
  end%string.
Definition cpu_macros (m format : string) : list (string * bool) :=
  map (fun x => (x, String.eqb x (cpu_macro m)))
    (["__i386__"; "__x86_64__"] ++
     if String.eqb format "mach-o" then ["__ppc__"; "__ppc64__"; "__arm__"; "__arm64__"] else []) ++
  (if String.eqb m "x32" then [("_ILP32", true)]
   else if String.eqb m "x86_64" then [("_ILP32", false)] else []).
Definition compiles_for (o : config) (m format : string) : Prop :=
  forall x b, In (x, b) (cpu_macros m format) -> o (ADef x) = b.

(** The ports (AsmCode*.v) that are right for a processor, by the first words of
    their names: processor, calling convention, object format.  Mach-O of arm64
    shares the port with ELF. *)
Definition families (m format : string) : list string :=
  match m, format with
  | "x86_64", "elf" => ["x86_64 sysv elf"] | "x86_64", "mach-o" => ["x86_64 sysv macho"] | "x86_64", "pe" => ["x86_64 ms pe"]
  | "x32", "elf" => ["x32 sysv elf"]
  | "i386", "elf" => ["i386 sysv elf"] | "i386", "mach-o" => ["i386 sysv macho"] | "i386", "pe" => ["i386 ms pe"]
  | "arm", "elf" => ["arm aapcs elf"] | "arm", "mach-o" => ["arm aapcs macho"] | "arm", "pe" => ["arm aapcs pe"]
  | "arm64", "elf" => ["arm64 aapcs elf"] | "arm64", "mach-o" => ["arm64 aapcs elf and macho"] | "arm64", "pe" => ["arm64 aapcs pe"]
  | "ppc32", "elf" => ["ppc32 sysv elf"] | "ppc32", "mach-o" => ["ppc32 sysv macho"] | "ppc32", "xcoff" => ["ppc32 sysv xcoff"]
  | "ppc64", "elf" => ["ppc64 sysv elf"; "ppc64le sysv elf"] | "ppc64", "mach-o" => ["ppc64 sysv macho"]
  | "ppc64", "xcoff" => ["ppc64 sysv xcoff"]
  | "mips32", "elf" => ["mips32 o32 elf"; "mips32el o32 elf"] | "mips64", "elf" => ["mips64 n64 elf"; "mips64el n64 elf"]
  | "riscv64", "elf" => ["riscv64 sysv elf"] | "loongarch64", "elf" => ["loongarch64 sysv elf"]
  | "s390x", "elf" => ["s390x sysv elf"] | "sparc64", "elf" => ["sparc64 sysv elf"]
  | _, _ => []
  end.
Definition right_for (m format : string) (A : port) : Prop :=
  exists f, In f (families m format) /\ prefix f (p_name A) = true.

(** Configurations of the compiler for which no port is claimed (AsmDir.v, l_other). *)
Definition special (m format : string) : cond :=
  match m, format with
  | "x86_64", "elf" | "x32", "elf" => x64_elf_other
  | "mips32", _ | "mips64", _ => CNot pic
  | _, _ => CConst false
  end.

(** ** The sources of a build *)

(** the files of a triple, as the build description names them *)
Definition triple (l : listing) : list string :=
  [("asm/" ++ l_make l)%string; ("asm/" ++ l_jump l)%string; ("asm/" ++ l_ontop l)%string].

(** the text of a triple refers to ontop_fcontext_tail, which is in another file *)
Definition is_tail (t : tok) : bool :=
  match t with Id x => String.eqb x "ontop_fcontext_tail" || String.eqb x "_ontop_fcontext_tail" | _ => false end.
Definition needs_tail (o : config) (l : listing) : bool :=
  match lines_of 2 o (l_ontop l) with
  | Some ls => existsb (fun x => match x with OLine ts => existsb is_tail ts | _ => false end) ls
  | None => false
  end.

(** ** CMakeLists.txt *)

(** what CMake knows: WIN32, APPLE, MSVC, CMAKE_SYSTEM_PROCESSOR, CMAKE_SIZEOF_VOID_P *)
Record cmake := { k_win32 : bool; k_apple : bool; k_msvc : bool; k_proc : string; k_ptr : Z }.
(** the options that the user may set: BOOST_CONTEXT_BINARY_FORMAT, _ABI, _ARCHITECTURE,
    _ASSEMBLER, _ASM_SUFFIX *)
Record cached := { u_format : option string; u_abi : option string; u_arch : option string;
                   u_asm : option string; u_suffix : option string }.
Definition unset : cached := {| u_format := None; u_abi := None; u_arch := None; u_asm := None; u_suffix := None |}.

Definition user (x : option string) (d : string) : string := match x with Some s => s | None => d end.

(** MATCHES "^[Aa][Rr][Mm]" *)
Definition either (c : ascii) (a b : string) : bool := is_sy a (Sy c) || is_sy b (Sy c).
Definition armish (s : string) : bool :=
  match s with
  | String a (String b (String c _)) => either a "A" "a" && either b "R" "r" && either c "M" "m"
  | _ => false
  end.
(** MATCHES "^mips" *)
Definition mipsish (s : string) : bool := prefix "mips" s.

(** L16-22 *)
Definition k_format (K : cmake) (U : cached) : string :=
  user (u_format U) (if k_win32 K then "pe" else if k_apple K then "mach-o" else "elf")%string.
(** L31-45 *)
Definition k_bits (K : cmake) : Z := k_ptr K * 8.
Definition k_abi (K : cmake) (U : cached) : string :=
  user (u_abi U)
    (if armish (k_proc K) || String.eqb (k_proc K) "aarch64" then "aapcs"
     else if k_win32 K then "ms"
     else if mipsish (k_proc K) then if (k_bits K =? 32)%Z then "o32" else "n64"
     else "sysv")%string.
(** L54-78 *)
Definition all_archs : list string :=
  ["arm"; "arm64"; "loongarch64"; "mips32"; "mips64"; "power"; "riscv64"; "s390x"; "i386"; "x86_64"; "combined"].
Definition k_arch (K : cmake) (U : cached) : string :=
  user (u_arch U)
    (if existsb (String.eqb (k_proc K)) all_archs then k_proc K
     else if (k_bits K =? 32)%Z then
       if armish (k_proc K) then "arm" else if mipsish (k_proc K) then "mips32" else "i386"
     else if String.eqb (k_proc K) "aarch64" || armish (k_proc K) then "arm64"
     else if mipsish (k_proc K) then "mips64" else "x86_64")%string.
(** L89-97 *)
Definition k_asm (K : cmake) (U : cached) : string :=
  user (u_asm U)
    (if k_msvc K then
       if String.eqb (k_arch K U) "arm64" || String.eqb (k_arch K U) "arm" then "armasm" else "masm"
     else "gas")%string.
(** L106-112 *)
Definition k_suffix (K : cmake) (U : cached) : string :=
  user (u_suffix U)
    (if String.eqb (k_format K U) "pe" then ".asm" else if String.eqb (k_asm K U) "gas" then ".S" else ".asm")%string.
(** L156-166: the files make_..., jump_..., ontop_... *)
Definition k_files (K : cmake) (U : cached) : list string :=
  let f := if String.eqb (k_format K U) "mach-o" then "macho"%string else k_format K U in
  let s := (k_arch K U ++ "_" ++ k_abi K U ++ "_" ++ f ++ "_" ++ k_asm K U ++ k_suffix K U)%string in
  [("asm/make_" ++ s)%string; ("asm/jump_" ++ s)%string; ("asm/ontop_" ++ s)%string].

(** what CMAKE_SYSTEM_PROCESSOR is called on systems with these processors, and the size of
    a pointer *)
Definition cmake_names : list (string * (Z * string)) :=
  [("x86_64", (8, "x86_64")); ("AMD64", (8, "x86_64")); ("amd64", (8, "x86_64")); ("EM64T", (8, "x86_64"));
   ("i386", (4, "i386")); ("i486", (4, "i386")); ("i586", (4, "i386")); ("i686", (4, "i386")); ("x86", (4, "i386"));
   ("X86", (4, "i386")); ("AMD64", (4, "i386"));
   ("arm", (4, "arm")); ("ARM", (4, "arm")); ("aarch64", (8, "arm64")); ("arm64", (8, "arm64")); ("ARM64", (8, "arm64"));
   ("mips", (4, "mips32")); ("mipsel", (4, "mips32")); ("mips64", (8, "mips64")); ("mips64el", (8, "mips64"));
   ("riscv64", (8, "riscv64")); ("loongarch64", (8, "loongarch64")); ("s390x", (8, "s390x"))].
Definition runs_on (K : cmake) (m : string) : Prop :=
  In (k_proc K, (k_ptr K, m)) cmake_names \/
  exists version, k_proc K = ("armv" ++ version)%string /\ k_ptr K = 4 /\ m = "arm".
Definition os_format (K : cmake) : option string :=
  match k_win32 K, k_apple K, k_msvc K with
  | false, false, false => Some "elf" | false, true, false => Some "mach-o" | true, false, _ => Some "pe"
  | _, _, _ => None
  end.

(** ** Headers *)

Definition header_table : list (string * option (list pev)) := map (fun x => (fst x, events (snd x))) headers.
Definition source_table : list (string * option (list pev)) := map (fun x => (fst x, events (snd x))) sources.

(** the macro that a header is protected by *)
Definition guard_of (es : option (list pev)) : option string :=
  match es with
  | Some (XIf (CNot (CAtom (ADef g))) :: XDef g' :: _) => if String.eqb g g' then Some g else None
  | _ => None
  end.
Definition guards : list string :=
  flat_map (fun x => match guard_of (snd x) with Some g => [g] | None => [] end) header_table.

(** a translation unit that begins with these includes *)
Definition unit_of (hs : list string) : list pev := map XInc hs.
Definition unit_lines (q d : string -> bool) (hs : list string) : option (list pev) :=
  option_map snd (preprocess header_table q d (unit_of hs)).

(** which implementation the macros ask for: README and doc: ucontext and winfib on
    request, fcontext otherwise *)
Definition backend (d : string -> bool) : string :=
  if d "BOOST_USE_UCONTEXT" then "ucontext" else if d "BOOST_USE_WINFIB" then "winfib" else "fcontext".
Definition backends : list string := ["ucontext"; "winfib"; "fcontext"].
Definition impl_header (kind b : string) : string := ("boost/context/" ++ kind ++ "_" ++ b ++ ".hpp")%string.
Definition kinds : list string := ["fiber"; "continuation"].
Definition front (kind : string) : string := ("boost/context/" ++ kind ++ ".hpp")%string.

(** a line that defines the name default_stack *)
Definition defines_stack (e : pev) : bool :=
  match e with
  | XLine (Id a :: _ :: Id b :: Sy _ :: nil) => String.eqb a "typedef" && String.eqb b "default_stack"
  | _ => false
  end.
(** a line that begins the definition of a class *)
Definition class_of (e : pev) : option string :=
  match e with
  | XLine (Id k :: r) =>
      if (String.eqb k "class" || String.eqb k "struct") && negb (existsb (is_sy ";") r) then
        match r with
        | Id a :: r' => if String.eqb a "BOOST_CONTEXT_DECL" then match r' with Id x :: _ => Some x | _ => None end
                        else Some a
        | _ => None
        end
      else None
  | _ => None
  end.
Definition defines_class (x : string) (e : pev) : bool :=
  match class_of e with Some y => String.eqb x y | None => false end.

(** the headers that a program includes: not those that are chosen by other headers *)
Definition public (h : string) : bool :=
  existsb (fun x => String.eqb (fst x) h) headers &&
  negb (existsb (fun k => existsb (fun b => String.eqb (impl_header k b) h) backends) kinds).
Definition occurrences (L : pev -> bool) (ls : list pev) : nat := List.length (filter L ls).
