(** * CMakeLists.txt

    The file is a list of commands [name(arguments)].  Variables have strings as
    values; a list is a string with semicolons.  A run of the file, given the values
    of the variables at its beginning, ends with new values and a trace of the
    commands that matter for what is built.

    Simplifications: an unquoted argument is not split at the semicolons in the
    values of variables (where the file uses such values, [set] and [add_library]
    put the parts together again); what the user chooses are cache entries, so that
    [set(... CACHE ...)] has an effect only on an undefined variable; the commands in
    [ignored] do nothing. *)
From Coq Require Import ZArith List String Ascii Bool Lia.
From Verif Require Import AsmLex BuildText.
Import ListNotations.
Open Scope string_scope.
Open Scope list_scope.

(** ** Reading: words, quoted arguments, parentheses; # starts a comment *)
Inductive ctok := CW (s : string) | CQ (s : string) | COpen | CClose.
Inductive mode := Blank | Word (acc : string) | Quoted (acc : string) | Comment.
Definition newline : ascii := "010"%char.
Definition quote : ascii := "034"%char.
Fixpoint lex (m : mode) (s : string) : list ctok :=
  match s with
  | EmptyString => match m with Word w => [CW (rev_str w "")] | _ => [] end
  | String c s' =>
      match m with
      | Comment => lex (if Ascii.eqb c newline then Blank else Comment) s'
      | Quoted w => if Ascii.eqb c quote then CQ (rev_str w "") :: lex Blank s' else lex (Quoted (String c w)) s'
      | _ =>
          let flush := match m with Word w => [CW (rev_str w "")] | _ => [] end in
          if is_space c || Ascii.eqb c newline then flush ++ lex Blank s'
          else if Ascii.eqb c "#" then flush ++ lex Comment s'
          else if Ascii.eqb c "(" then flush ++ COpen :: lex Blank s'
          else if Ascii.eqb c ")" then flush ++ CClose :: lex Blank s'
          else if Ascii.eqb c quote then flush ++ lex (Quoted "") s'
          else lex (Word (String c match m with Word w => w | _ => "" end)) s'
      end
  end.

(** an argument: is it quoted? *)
Definition arg : Type := bool * string.
Definition command : Type := string * list arg.
Fixpoint commands_ (cur : option command) (ts : list ctok) : option (list command) :=
  match ts, cur with
  | [], None => Some []
  | CW n :: COpen :: ts', None => commands_ (Some (n, [])) ts'
  | CClose :: ts', Some (n, args) => option_map (cons (n, rev args)) (commands_ None ts')
  | CW x :: ts', Some (n, args) => commands_ (Some (n, (false, x) :: args)) ts'
  | CQ x :: ts', Some (n, args) => commands_ (Some (n, (true, x) :: args)) ts'
  | _, _ => None
  end.
Definition commands (text : string) : option (list command) := commands_ None (lex Blank text).

(** ** Values *)
Definition vars : Type := string -> option string.
Definition upd (v : vars) (x : string) (y : option string) : vars := fun z => if String.eqb x z then y else v z.
Definition val (v : vars) (x : string) : string := match v x with Some s => s | None => "" end.

(** replace ${x} by the value of x *)
Fixpoint expand_ (v : vars) (name : option string) (s : string) : string :=
  match s with
  | EmptyString => ""
  | String c s' =>
      match name with
      | Some n => if Ascii.eqb c "}" then (val v (rev_str n "") ++ expand_ v None s')%string
                  else expand_ v (Some (String c n)) s'
      | None =>
          if Ascii.eqb c "$" then
            match s' with
            | String c' s'' => if Ascii.eqb c' "{" then expand_ v (Some "") s'' else String c (expand_ v None s')
            | _ => String c (expand_ v None s')
            end
          else String c (expand_ v None s')
      end
  end.
Definition expand (v : vars) (a : arg) : string := expand_ v None (snd a).
Fixpoint join (l : list string) : string :=
  match l with [] => "" | [x] => x | x :: r => (x ++ String ";" (join r))%string end.
Fixpoint elements_ (acc : string) (s : string) : list string :=
  match s with
  | EmptyString => [rev_str acc ""]
  | String c s' => if Ascii.eqb c ";" then rev_str acc "" :: elements_ "" s' else elements_ (String c acc) s'
  end.
Definition elements (s : string) : list string := elements_ "" s.

(** ** Conditions *)

(** what counts as false (cmake-language, if) *)
Definition falsy (s : string) : bool :=
  existsb (String.eqb s) [""; "0"; "OFF"; "NO"; "FALSE"; "N"; "IGNORE"; "NOTFOUND"; "off"; "no"; "false"; "n"; "Off"; "No"; "False"].
Definition truth (v : vars) (x : string) : bool := match v x with Some s => negb (falsy s) | None => false end.

(** regular expressions: the characters and the classes of characters that the file
    uses, found anywhere, or at the beginning after ^ *)
Inductive rx := RChar (c : ascii) | RClass (cs : list ascii).
Fixpoint rx_of (cls : option (list ascii)) (s : string) : list rx :=
  match s with
  | EmptyString => []
  | String c s' =>
      match cls with
      | Some cs => if Ascii.eqb c "]" then RClass cs :: rx_of None s' else rx_of (Some (c :: cs)) s'
      | None => if Ascii.eqb c "[" then rx_of (Some []) s' else RChar c :: rx_of None s'
      end
  end.
Definition rx_char (r : rx) (c : ascii) : bool :=
  match r with RChar d => Ascii.eqb d c | RClass cs => existsb (Ascii.eqb c) cs end.
Fixpoint rx_here (rs : list rx) (s : string) : bool :=
  match rs, s with
  | [], _ => true
  | r :: rs', String c s' => rx_char r c && rx_here rs' s'
  | _, _ => false
  end.
Fixpoint rx_anywhere (rs : list rx) (s : string) : bool :=
  rx_here rs s || match s with String _ s' => rx_anywhere rs s' | EmptyString => false end.
Definition matches (pattern s : string) : bool :=
  match pattern with
  | String "^"%char p => rx_here (rx_of None p) s
  | _ => rx_anywhere (rx_of None pattern) s
  end.

(** numbers: decimals, and the products of [math] *)
Fixpoint decimal_ (acc : Z) (s : string) : option Z :=
  match s with
  | EmptyString => Some acc
  | String c s' => let n := Z.of_nat (nat_of_ascii c) in
                   if ((48 <=? n) && (n <=? 57))%Z then decimal_ (acc * 10 + (n - 48))%Z s' else None
  end.
Definition decimal (s : string) : option Z := match s with EmptyString => None | _ => decimal_ 0 s end.
Fixpoint factors_ (acc : string) (s : string) : list string :=
  match s with
  | EmptyString => [rev_str acc ""]
  | String c s' => if Ascii.eqb c "*" then rev_str acc "" :: factors_ "" s' else factors_ (String c acc) s'
  end.
Fixpoint product (l : list string) : option Z :=
  match l with
  | [] => Some 1%Z
  | x :: r => match decimal x, product r with Some a, Some b => Some (a * b)%Z | _, _ => None end
  end.
(** printing, for results below 1000 *)
Definition digit (n : Z) : ascii := ascii_of_nat (Z.to_nat (n + 48)).
Definition print (n : Z) : option string :=
  if (n <? 0)%Z then None
  else if (n <? 10)%Z then Some (String (digit n) "")
  else if (n <? 100)%Z then Some (String (digit (n / 10)) (String (digit (n mod 10)) ""))
  else if (n <? 1000)%Z then Some (String (digit (n / 100)) (String (digit (n / 10 mod 10)) (String (digit (n mod 10)) "")))
  else None.
Definition math (e : string) : option string := match product (factors_ "" e) with Some n => print n | None => None end.

(** an operand: an unquoted word that is the name of a variable stands for its value *)
Definition operand (v : vars) (a : arg) : string :=
  if fst a then expand v a else match v (snd a) with Some s => s | None => expand v a end.
Definition cond1 (v : vars) (c : list arg) : option bool :=
  match c with
  | [(false, x)] => Some (truth v x)
  | [(false, e); _] => if String.eqb e "EXISTS" then Some false else None
  | [a; (false, o); b] =>
      if String.eqb o "STREQUAL" then Some (String.eqb (operand v a) (operand v b))
      else if String.eqb o "MATCHES" then Some (matches (expand v b) (operand v a))
      else if String.eqb o "EQUAL" then
        match decimal (operand v a), decimal (operand v b) with Some m, Some n => Some (m =? n)%Z | _, _ => Some false end
      else if String.eqb o "IN_LIST" then Some (existsb (String.eqb (operand v a)) (elements (val v (snd b))))
      else None
  | _ => None
  end.
Definition cond2 (v : vars) (c : list arg) : option bool :=
  match c with
  | (false, n) :: c' => if String.eqb n "NOT" then option_map negb (cond1 v c') else cond1 v c
  | _ => cond1 v c
  end.
Fixpoint separate (w : string) (acc : list arg) (c : list arg) : list (list arg) :=
  match c with
  | [] => [rev acc]
  | a :: c' => if negb (fst a) && String.eqb (snd a) w then rev acc :: separate w [] c' else separate w (a :: acc) c'
  end.
Fixpoint all_of (f : list arg -> option bool) (l : list (list arg)) : option bool :=
  match l with
  | [] => Some true
  | c :: r => match f c with Some true => all_of f r | x => x end
  end.
Fixpoint any_of (f : list arg -> option bool) (l : list (list arg)) : option bool :=
  match l with
  | [] => Some false
  | c :: r => match f c with Some false => any_of f r | x => x end
  end.
Definition cond (v : vars) (c : list arg) : option bool :=
  any_of (fun c => all_of (cond2 v) (separate "AND" [] c)) (separate "OR" [] c).

(** ** Running *)

(** for each if that is open: has a branch been taken, is this one taken *)
Record state := { s_ifs : list (bool * bool); s_vars : vars; s_trace : list (string * list string) }.
Definition active (l : list (bool * bool)) : bool := match l with [] => true | (_, a) :: _ => a end.
Definition traced : list string :=
  ["enable_language"; "add_library"; "target_compile_definitions"; "set_source_files_properties"].
Definition ignored : list string :=
  ["cmake_minimum_required"; "project"; "list"; "set_property"; "message";
   "target_include_directories"; "target_link_libraries"; "add_subdirectory"].
Definition with_vars (s : state) (v : vars) : state := {| s_ifs := s_ifs s; s_vars := v; s_trace := s_trace s |}.
Definition with_ifs (s : state) (l : list (bool * bool)) : state := {| s_ifs := l; s_vars := s_vars s; s_trace := s_trace s |}.
Definition perform (s : state) (c : command) : option state :=
  let v := s_vars s in
  let '(n, args) := c in
  if String.eqb n "set" then
    match args with
    | [(false, x); a; (false, k); _; _] =>
        if String.eqb k "CACHE" then
          Some (match v x with Some _ => s | None => with_vars s (upd v x (Some (expand v a))) end)
        else Some (with_vars s (upd v x (Some (join (map (expand v) (tl args))))))
    | (false, x) :: r => Some (with_vars s (upd v x (Some (join (map (expand v) r)))))
    | _ => None
    end
  else if String.eqb n "unset" then
    match args with [(false, x)] => Some (with_vars s (upd v x None)) | _ => None end
  else if String.eqb n "math" then
    match args with
    | [_; (false, x); e] => match math (expand v e) with Some r => Some (with_vars s (upd v x (Some r))) | None => None end
    | _ => None
    end
  else if existsb (String.eqb n) traced then
    Some {| s_ifs := s_ifs s; s_vars := v; s_trace := s_trace s ++ [(n, map (expand v) args)] |}
  else if existsb (String.eqb n) ignored then Some s
  else None.
Definition step (s : state) (c : command) : option state :=
  let '(n, args) := c in
  if String.eqb n "if" then
    if active (s_ifs s) then
      match cond (s_vars s) args with Some b => Some (with_ifs s ((b, b) :: s_ifs s)) | None => None end
    else Some (with_ifs s ((true, false) :: s_ifs s))
  else if String.eqb n "elseif" then
    match s_ifs s with
    | (true, _) :: l => Some (with_ifs s ((true, false) :: l))
    | (false, _) :: l => match cond (s_vars s) args with Some b => Some (with_ifs s ((b, b) :: l)) | None => None end
    | [] => None
    end
  else if String.eqb n "else" then
    match s_ifs s with (t, _) :: l => Some (with_ifs s ((true, negb t) :: l)) | [] => None end
  else if String.eqb n "endif" then
    match s_ifs s with _ :: l => Some (with_ifs s l) | [] => None end
  else if active (s_ifs s) then perform s c else Some s.
Fixpoint run (cs : list command) (s : state) : option state :=
  match cs with
  | [] => Some s
  | c :: cs' => match step s c with Some s' => run cs' s' | None => None end
  end.

(** a run of CMakeLists.txt: the trace and the values at the end *)
Definition cmake_run (v : vars) : option state :=
  match commands b_cmake with
  | Some cs => run cs {| s_ifs := []; s_vars := v; s_trace := [] |}
  | None => None
  end.
