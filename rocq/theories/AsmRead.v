(** * From tokens to instructions

    An instruction set is a table of rules.  A rule has a pattern, i.e. one or
    more lines of assembler text with metavariables, and the instructions of
    AsmMachine.v that such lines stand for.  The metavariables are
      ?r  a register (the list of names is part of the syntax)
      ?d  a decimal number that names a register (PowerPC, XCOFF)
      ?n  a constant expression
      ?o  the same, 0 if absent
      ?x  any identifier
      ?z  the rest of the line, whatever it is.
    The tables (AsmIsa*.v) are the reading of the instruction sets that this
    development trusts; a line that no rule describes is an error. *)
From Coq Require Import ZArith List String Ascii Bool.
From Verif Require Import AsmMachine AsmLex.
Import ListNotations.
Open Scope string_scope.
Open Scope Z_scope.
Open Scope list_scope.

(** ** Constant expressions: + - * ~ and parentheses, left to right *)

Fixpoint term (f : nat) (ts : list tok) : option (Z * list tok) :=
  match f with
  | O => None
  | S f =>
      match ts with
      | Num z :: r => Some (z, r)
      | Sy c :: r =>
          if is_sy "-" (Sy c) then match term f r with Some (z, r') => Some (- z, r') | None => None end
          else if is_sy "~" (Sy c) then match term f r with Some (z, r') => Some (Z.lnot z, r') | None => None end
          else if is_sy "(" (Sy c) then
            match expr f r with
            | Some (z, q :: r') => if is_sy ")" q then Some (z, r') else None
            | _ => None
            end
          else None
      | _ => None
      end
  end
with expr (f : nat) (ts : list tok) : option (Z * list tok) :=
  match f with
  | O => None
  | S f => match prod f ts with Some (z, r) => sum f z r | None => None end
  end
with sum (f : nat) (acc : Z) (ts : list tok) : option (Z * list tok) :=
  match f with
  | O => None
  | S f =>
      match ts with
      | Sy c :: r =>
          if is_sy "+" (Sy c) then
            match prod f r with Some (z, r') => sum f (acc + z) r' | None => None end
          else if is_sy "-" (Sy c) then
            match prod f r with Some (z, r') => sum f (acc - z) r' | None => None end
          else Some (acc, ts)
      | _ => Some (acc, ts)
      end
  end
with prod (f : nat) (ts : list tok) : option (Z * list tok) :=
  match f with
  | O => None
  | S f =>
      match term f ts with
      | Some (x, q :: r) =>
          if is_sy "*" q then match prod f r with Some (y, r') => Some (x * y, r') | None => None end
          else Some (x, q :: r)
      | x => x
      end
  end.

(** an expression may start with + (masm: [rsp+08h]) *)
Definition const (ts : list tok) : option (Z * list tok) :=
  match ts with
  | q :: r => if is_sy "+" q then expr 20 r else expr 20 ts
  | [] => None
  end.

(** ** Rules *)

(** an instruction, a label, or instructions with a label of their own in the
    middle of other code, which jumps over them *)
Inductive item := I (i : instr) | Lab (l : string) | Blk (l : string) (c : list instr).

(** registers and constants that a pattern bound, in order *)
Definition binds := (list string * list Z)%type.
Definition rule := (list tok * ((nat -> string) -> (nat -> Z) -> list item))%type.

Definition is_eol (t : tok) : bool := match t with NL => true | _ => false end.
Fixpoint to_eol (ts : list tok) : list tok :=
  match ts with
  | t :: r => if is_eol t then ts else to_eol r
  | [] => []
  end.

Definition dec (z : Z) : string :=      (* 0..99 *)
  let d k := String (ascii_of_N (Z.to_N (48 + k))) EmptyString in
  if z <? 10 then d z else append (d (z / 10)) (d (z mod 10)).

Fixpoint matches (regs : string -> option string) (pat ts : list tok) (rs : list string) (ns : list Z)
  : option (list string * list Z * list tok) :=
  match pat with
  | [] => Some (rev rs, rev ns, ts)
  | p :: pat' =>
      let lit := match ts with
                 | t :: r => if tok_eqb p t then matches regs pat' r rs ns else None
                 | [] => None
                 end in
      match p with
      | Id v =>
          if String.eqb v "?r" then
            match ts with
            | Id x :: r => match regs x with Some y => matches regs pat' r (y :: rs) ns | None => None end
            | _ => None
            end
          else if String.eqb v "?x" then
            match ts with Id x :: r => matches regs pat' r (x :: rs) ns | _ => None end
          else if String.eqb v "?d" then
            match ts with Num z :: r => matches regs pat' r (dec z :: rs) ns | _ => None end
          else if String.eqb v "?n" then
            match const ts with Some (z, r) => matches regs pat' r rs (z :: ns) | None => None end
          else if String.eqb v "?o" then
            match const ts with
            | Some (z, r) => matches regs pat' r rs (z :: ns)
            | None => matches regs pat' ts rs (0 :: ns)
            end
          else if String.eqb v "?z" then matches regs pat' (to_eol ts) rs ns
          else lit
      | _ => lit
      end
  end.

(** the first rule that describes the next line(s) *)
Fixpoint apply_rules (regs : string -> option string) (rules : list rule) (ts : list tok) : option (list item * list tok) :=
  match rules with
  | [] => None
  | (pat, f) :: rules' =>
      match matches regs pat ts [] [] with
      | Some (rs, ns, r) => Some (f (fun i => nth i rs "") (fun i => nth i ns 0), r)
      | None => apply_rules regs rules' ts
      end
  end.

(** a label in front of an instruction, or alone on a line.  [inl]: the text is
    described by the rules; [inr]: the first line that is not. *)
Fixpoint first_line (ts : list tok) : list tok :=
  match ts with
  | t :: r => if is_eol t then [] else t :: first_line r
  | [] => []
  end.
Fixpoint decode (f : nat) (regs : string -> option string) (rules : list rule) (ts : list tok) : list item + list tok :=
  match f with
  | O => inr []
  | S f =>
      match ts with
      | [] => inl []
      | NL :: r => decode f regs rules r
      | _ =>
          match apply_rules regs rules ts with
          | Some (is, r) => match decode f regs rules r with inl l => inl (is ++ l) | e => e end
          | None =>
              match ts with
              | Id l :: c :: r =>
                  if is_sy ":" c then
                    match decode f regs rules r with inl l' => inl (Lab l :: l') | e => e end
                  else inr (first_line ts)
              | _ => inr (first_line ts)
              end
          end
      end
  end.

(** ** Files *)

(** a syntax: what starts a comment, the names of registers, other names of some
    registers, the rules *)
Record syntax := {
  sx_comment : list string; sx_regs : list string; sx_alias : list (string * string); sx_rules : list rule }.
(** a file: its name, its syntax, its text *)
Record file := { f_name : string; f_syntax : syntax; f_text : string }.

Definition is_reg (s : syntax) (r : string) : option string :=
  match lookup r (sx_alias s) with
  | Some x => Some x
  | None => if existsb (String.eqb r) (sx_regs s) then Some r else None
  end.

Definition joined (ls : list out) : option (list tok) :=
  fold_right (fun x acc => match x, acc with
                           | OLine l, Some r => Some (l ++ NL :: r)
                           | _, _ => None
                           end) (Some []) ls.

(** the items of a selection of lines *)
Definition read_lines (s : syntax) (ls : list out) : list item + list tok :=
  match joined ls with
  | Some ts => decode (S (List.length ts)) (is_reg s) (sx_rules s) ts
  | None => inr [Id "#"]
  end.

(** the instructions after a label, up to the next one *)
Fixpoint until_label (l : list item) : list instr :=
  match l with
  | I i :: r => i :: until_label r
  | Blk _ _ :: r => until_label r
  | _ => []
  end.
Fixpoint routine (n : string) (l : list item) : option (list instr) :=
  match l with
  | [] => None
  | Lab m :: r => if String.eqb m n then Some (until_label r) else routine n r
  | Blk m c :: r => if String.eqb m n then Some c else routine n r
  | _ :: r => routine n r
  end.

(** patterns as text; a semicolon ends a line *)
Definition pattern (s : string) : list tok :=
  map (fun t => if is_sy ";" t then NL else t) (lex [] s) ++ [NL].
Definition ins (l : list instr) : list item := map I l.
Definition rl (s : string) (f : (nat -> string) -> (nat -> Z) -> list instr) : rule :=
  (pattern s, fun R N => ins (f R N)).
(** only if the registers a and b are the same *)
Definition same (a b : string) (l : list instr) : list instr := if String.eqb a b then l else [Exit "?"].
(** directives that have no effect on the instructions *)
Definition ign (s : string) : rule := (pattern s, fun _ _ => []).
(** a label in another notation *)
Definition lb (s : string) (f : (nat -> string) -> string) : rule := (pattern s, fun R _ => [Lab (f R)]).

(** two-digit hexadecimal, for the names of the fields of the thread information
    block (tib08, tib1478) *)
Definition hexd (k : Z) : string :=
  String (ascii_of_N (Z.to_N (if k <? 10 then 48 + k else 87 + k))) EmptyString.
Definition hex (z : Z) : string :=
  ((if (0x1000 <=? z)%Z then hexd (z / 0x1000) else "") ++
   (if (0x100 <=? z)%Z then hexd (z / 0x100 mod 16) else "") ++ hexd (z / 16 mod 16) ++ hexd (z mod 16))%string.
Definition tib (z : Z) : string := ("tib" ++ hex z)%string.
