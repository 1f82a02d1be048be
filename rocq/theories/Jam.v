(** * build/Jamfile.v2

    The build description is a list of statements that end in a semicolon.  The
    statements [alias name : sources : requirements ;] with the same name are
    alternatives; B2 uses the one that fits the properties of the build.

    Simplifications: the parts in brackets ([requires ...]: which features of C++
    the compiler must have) are skipped; a property set gives each feature at most
    one value. *)
From Coq Require Import ZArith List String Ascii Bool Lia.
From Verif Require Import AsmLex BuildText.
Import ListNotations.
Open Scope string_scope.
Open Scope list_scope.

(** ** Reading *)

(** words; # starts a comment *)
Fixpoint words_ (w : string) (s : string) : list string :=
  match s with
  | EmptyString => match w with EmptyString => [] | _ => [rev_str w ""] end
  | String a s' =>
      if is_space a then match w with EmptyString => words_ "" s' | _ => rev_str w "" :: words_ "" s' end
      else match w with
           | EmptyString => if Ascii.eqb a "#"%char then [] else words_ (String a "") s'
           | _ => words_ (String a w) s'
           end
  end.
Definition words (text : string) : list string := flat_map (words_ "") (lines text).

(** split at a word *)
Fixpoint split_at (sep : string) (acc : list string) (ws : list string) : list (list string) :=
  match ws with
  | [] => [rev acc]
  | w :: r => if String.eqb w sep then rev acc :: split_at sep [] r else split_at sep (w :: acc) r
  end.
Fixpoint unbracket (n : nat) (ws : list string) : list string :=
  match ws with
  | [] => []
  | w :: r => if String.eqb w "[" then unbracket (S n) r
              else if String.eqb w "]" then unbracket (pred n) r
              else match n with O => w :: unbracket n r | _ => unbracket n r end
  end.

(** <feature>value *)
Fixpoint until_gt (s : string) (acc : string) : option (string * string) :=
  match s with
  | EmptyString => None
  | String c s' => if Ascii.eqb c ">"%char then Some (rev_str acc "", s') else until_gt s' (String c acc)
  end.
Definition property (s : string) : option (string * string) :=
  match s with String c s' => if Ascii.eqb c "<"%char then until_gt s' "" else None | _ => None end.

Record alt := { a_sources : list string; a_reqs : list (string * string) }.

Fixpoint options {A} (l : list (option A)) : option (list A) :=
  match l with
  | [] => Some []
  | Some x :: r => match options r with Some r' => Some (x :: r') | None => None end
  | None :: _ => None
  end.

(** the alternatives of a name; a requirement that is not a property: None *)
Definition alternative (name : string) (st : list string) : list (option alt) :=
  match split_at ":" [] st with
  | [a; n] :: srcs :: rest =>
      if (String.eqb a "alias") && (String.eqb n name) then
        match rest with
        | [] => [Some {| a_sources := srcs; a_reqs := [] |}]
        | reqs :: _ => [match options (map property (unbracket 0 reqs)) with
                        | Some l => Some {| a_sources := srcs; a_reqs := l |}
                        | None => None
                        end]
        end
      else []
  | _ => []
  end.
Definition statements : list (list string) := split_at ";" [] (words b_jamfile).
Definition alternatives (name : string) : option (list alt) := options (flat_map (alternative name) statements).

(** feature.compose <f>v : <define>x : a build with the property defines the macro *)
Definition compositions : list ((string * string) * (string * string)) :=
  flat_map (fun st => match split_at ":" [] st with
                      | [[c; p]; [d]] => if String.eqb c "feature.compose" then
                                           match property p, property d with Some x, Some y => [(x, y)] | _, _ => [] end
                                         else []
                      | _ => []
                      end) statements.

(** ** Choosing (b2, src/build/targets.jam, main-target.select-alternatives) *)

Definition props := string -> option string.
Definition has (P : props) (r : string * string) : bool :=
  match P (fst r) with Some v => String.eqb v (snd r) | None => false end.
Definition fits (P : props) (a : alt) : bool := forallb (has P) (a_reqs a).

Definition req_eqb (a b : string * string) : bool := String.eqb (fst a) (fst b) && String.eqb (snd a) (snd b).
Definition sub (l m : list (string * string)) : bool := forallb (fun x => existsb (req_eqb x) m) l.

Inductive choice := Nothing | Best (a : alt) | Ambiguous.
(** of two alternatives that fit, the one with more requirements is better *)
Fixpoint choose (P : props) (best : choice) (l : list alt) : choice :=
  match l with
  | [] => best
  | a :: r =>
      if fits P a then
        match best with
        | Nothing => choose P (Best a) r
        | Best b =>
            if sub (a_reqs b) (a_reqs a) then
              if sub (a_reqs a) (a_reqs b) then Ambiguous else choose P (Best a) r
            else if sub (a_reqs a) (a_reqs b) then choose P best r else Ambiguous
        | Ambiguous => Ambiguous
        end
      else choose P best r
  end.
Definition select_sources (name : string) (P : props) : option choice :=
  match alternatives name with Some l => Some (choose P Nothing l) | None => None end.
