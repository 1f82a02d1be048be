(** * Reading assembler listings

    AsmCode.v and AsmCode2.v are transcriptions, made by hand, of the listings in
    src/asm.  Here the listings themselves are read: this file turns the text of
    a listing (AsmText*.v: the files, byte for byte) into tokens, as the C
    preprocessor and the scanner of an assembler do.

    The text of a file becomes a list of events ([events]): lines of tokens and
    conditional directives, whose conditions are formulas over *atoms*, tests of
    macros that are defined outside the file (by the compiler or on its command
    line).  A configuration is any function from atoms to booleans; [select]
    yields the lines that remain in a configuration.

    Simplifications: string literals are not scanned (their characters are
    tokens); macros with parameters, [#undef], [#] and [##] do not occur. *)
From Coq Require Import ZArith List String Ascii Bool Lia.
Import ListNotations.
Open Scope string_scope.
Open Scope Z_scope.
Open Scope list_scope.

(** ** Characters and tokens *)

Inductive tok := Id (s : string) | Num (z : Z) | Sy (c : ascii) | NL.

Definition tok_eqb (a b : tok) : bool :=
  match a, b with
  | Id s, Id t => String.eqb s t
  | Num x, Num y => x =? y
  | Sy c, Sy d => Ascii.eqb c d
  | NL, NL => true
  | _, _ => false
  end.

Definition code (c : ascii) : Z := Z.of_N (N_of_ascii c).
Definition between (c : ascii) (l h : Z) : bool := (l <=? code c) && (code c <=? h).
Definition is_digit (c : ascii) : bool := between c 48 57.
Definition is_word (c : ascii) : bool :=
  is_digit c || between c 65 90 || between c 97 122 || (code c =? 95) || (code c =? 46) || (code c =? 63).
Definition is_space (c : ascii) : bool := (code c =? 32) || (code c =? 9) || (code c =? 13).

Definition digit (c : ascii) : option Z :=
  if is_digit c then Some (code c - 48)
  else if between c 97 102 then Some (code c - 87)
  else if between c 65 70 then Some (code c - 55) else None.

Fixpoint digits (b acc : Z) (s : string) : option Z :=
  match s with
  | EmptyString => Some acc
  | String c s' => match digit c with
                   | Some d => if d <? b then digits b (b * acc + d) s' else None
                   | None => None
                   end
  end.

(** hexadecimal with a trailing h, as in masm *)
Fixpoint hex_h (acc : Z) (s : string) : option Z :=
  match s with
  | EmptyString => None
  | String c EmptyString => if (code c =? 104) || (code c =? 72) then Some acc else None
  | String c s' => match digit c with Some d => hex_h (16 * acc + d) s' | None => None end
  end.

(** a word is a number (decimal, 0x..., ...h) or an identifier; "1f", "2b" (references
    to numeric labels) are identifiers *)
Definition word (s : string) : tok :=
  match s with
  | String c s' =>
      if is_digit c then
        match s with
        | String _ (String x t) =>
            if ((code x =? 120) || (code x =? 88)) && (code c =? 48)
            then match t, digits 16 0 t with
                 | String _ _, Some z => Num z
                 | _, _ => Id s
                 end
            else match digits 10 0 s with
                 | Some z => Num z
                 | None => match hex_h 0 s with Some z => Num z | None => Id s end
                 end
        | _ => match digits 10 0 s with Some z => Num z | None => Id s end
        end
      else Id s
  | EmptyString => Id s
  end.

(** ** Lines *)

(** C comments are replaced by a space; line feeds inside them remain *)
Definition LF : ascii := ascii_of_nat 10.
Fixpoint strip (inside : bool) (s : string) : string :=
  match s with
  | EmptyString => EmptyString
  | String a s' =>
      if inside then
        match s' with
        | String b s'' =>
            if (code a =? 42) && (code b =? 47) then String " " (strip false s'')
            else if code a =? 10 then String a (strip true s') else strip true s'
        | EmptyString => EmptyString
        end
      else
        match s' with
        | String b s'' =>
            if (code a =? 47) && (code b =? 42) then strip true s'' else String a (strip false s')
        | EmptyString => String a EmptyString
        end
  end.

Fixpoint split (s : string) : string * list string :=
  match s with
  | EmptyString => (EmptyString, [])
  | String a s' =>
      let (h, t) := split s' in
      if code a =? 10 then (EmptyString, h :: t) else (String a h, t)
  end.
Definition lines (s : string) : list string := let (h, t) := split (strip false s) in h :: t.

Fixpoint trim (s : string) : string :=
  match s with
  | String a s' => if is_space a then trim s' else s
  | EmptyString => s
  end.

(** tokens of a line; [cm]: what starts a comment that extends to its end.  [w] is
    the word being read, reversed. *)
Fixpoint rev_str (s acc : string) : string :=
  match s with EmptyString => acc | String a s' => rev_str s' (String a acc) end.
Definition flush (w : string) (l : list tok) : list tok :=
  match w with EmptyString => l | _ => word (rev_str w "") :: l end.
Fixpoint lex_ (cm : list string) (w : string) (s : string) : list tok :=
  match s with
  | EmptyString => flush w []
  | String a s' =>
      if existsb (fun c => prefix c s) cm then flush w []
      else if is_word a then lex_ cm (String a w) s'
      else if is_space a then flush w (lex_ cm "" s')
      else flush w (Sy a :: lex_ cm "" s')
  end.
Definition lex (cm : list string) (s : string) : list tok := lex_ cm "" s.

(** ** Conditions *)

(** tests of a macro that the file does not define: is it defined; is its value z;
    is its value nonzero; has its value a bit of the mask z *)
Inductive atom := ADef (s : string) | AEq (s : string) (z : Z) | ANz (s : string) | AMask (s : string) (z : Z).
Inductive cond := CAtom (a : atom) | CNot (c : cond) | CAnd (c d : cond) | COr (c d : cond) | CConst (b : bool).

Definition atom_eqb (a b : atom) : bool :=
  match a, b with
  | ADef s, ADef t | ANz s, ANz t => String.eqb s t
  | AEq s x, AEq t y | AMask s x, AMask t y => String.eqb s t && (x =? y)
  | _, _ => false
  end.

(** a configuration: the outcome of every test *)
Definition config := atom -> bool.

Fixpoint holds (o : config) (c : cond) : bool :=
  match c with
  | CAtom a => o a
  | CNot c => negb (holds o c)
  | CAnd c d => holds o c && holds o d
  | COr c d => holds o c || holds o d
  | CConst b => b
  end.

(** The configuration of a compilation in which the macros outside the file are
    [m] (None: not defined).  C99 6.10.1: an undefined macro counts as 0. *)
Definition config_of (m : string -> option Z) : config := fun a =>
  let v s := match m s with Some z => z | None => 0 end in
  match a with
  | ADef s => match m s with Some _ => true | None => false end
  | AEq s z => v s =? z
  | ANz s => negb (v s =? 0)
  | AMask s z => negb (Z.land (v s) z =? 0)
  end.

(** a macro defined in the file: name, the conditions under which the definition
    is active, and its tokens *)
Definition macros := list (string * (cond * list tok)).
Fixpoint lookup {A} (n : string) (l : list (string * A)) : option A :=
  match l with
  | [] => None
  | (k, v) :: l' => if String.eqb k n then Some v else lookup n l'
  end.

Definition sy (s : string) : ascii := match s with String c _ => c | _ => " "%char end.
Definition is_sy (s : string) (t : tok) : bool := tok_eqb t (Sy (sy s)).

(** C expressions of #if: ! && || == != & parentheses, defined *)
Fixpoint p_or (f : nat) (M : macros) (ts : list tok) : option (cond * list tok) :=
  match f with
  | O => None
  | S f =>
      match p_and f M ts with
      | Some (c, a :: b :: r) =>
          if is_sy "|" a && is_sy "|" b
          then match p_or f M r with Some (d, r') => Some (COr c d, r') | None => None end
          else Some (c, a :: b :: r)
      | x => x
      end
  end
with p_and (f : nat) (M : macros) (ts : list tok) : option (cond * list tok) :=
  match f with
  | O => None
  | S f =>
      match p_prim f M ts with
      | Some (c, a :: b :: r) =>
          if is_sy "&" a && is_sy "&" b
          then match p_and f M r with Some (d, r') => Some (CAnd c d, r') | None => None end
          else Some (c, a :: b :: r)
      | x => x
      end
  end
with p_prim (f : nat) (M : macros) (ts : list tok) : option (cond * list tok) :=
  match f with
  | O => None
  | S f =>
      match ts with
      | Num z :: r => Some (CConst (negb (z =? 0)), r)
      | Id n :: r =>
          if String.eqb n "defined" then
            match r with
            | Id x :: r' =>
                Some (match lookup x M with Some (g, _) => g | None => CAtom (ADef x) end, r')
            | Sy p :: Id x :: Sy q :: r' =>
                if is_sy "(" (Sy p) && is_sy ")" (Sy q)
                then Some (match lookup x M with Some (g, _) => g | None => CAtom (ADef x) end, r')
                else None
            | _ => None
            end
          else
            match lookup n M with
            | Some (g, body) =>
                match p_or f M body with
                | Some (c, []) => Some (CAnd g c, r)
                | _ => None
                end
            | None =>
                match r with
                | a :: Num z :: r' =>
                    if is_sy "&" a then Some (CAtom (AMask n z), r') else Some (CAtom (ANz n), r)
                | a :: b :: Num z :: r' =>
                    if is_sy "=" a && is_sy "=" b then Some (CAtom (AEq n z), r')
                    else if is_sy "!" a && is_sy "=" b then Some (CNot (CAtom (AEq n z)), r')
                    else Some (CAtom (ANz n), r)
                | _ => Some (CAtom (ANz n), r)
                end
            end
      | Sy s :: r =>
          if is_sy "!" (Sy s) then
            match p_prim f M r with Some (c, r') => Some (CNot c, r') | None => None end
          else if is_sy "(" (Sy s) then
            match p_or f M r with
            | Some (c, q :: r') => if is_sy ")" q then Some (c, r') else None
            | _ => None
            end
          else None
      | _ => None
      end
  end.

Definition parse_cond (M : macros) (ts : list tok) : option cond :=
  match p_or 60 M ts with Some (c, []) => Some c | _ => None end.

(** ** Events *)

Inductive event :=
| ELine (l : list tok)
| EIf (c : cond)
| EElif (c : cond)
| EElse
| EEnd
| EInclude (f : string)
| EError.

(** the scanner of a file: what starts a comment *)
Definition subst (M : macros) (ts : list tok) : list tok :=
  flat_map (fun t => match t with
                     | Id n => match lookup n M with
                               | Some (CConst true, body) => body
                               | _ => [t]
                               end
                     | _ => [t]
                     end) ts.

Definition conj (g : list cond) : cond :=
  match g with
  | [] => CConst true
  | c :: g' => fold_left CAnd g' c
  end.

(** one line: [g] are the conditions of the enclosing directives, innermost first *)
Inductive directive := DNone | DBad | D (e : option event) (g : list cond) (M : macros).

Definition directive_of (g : list cond) (M : macros) (ts : list tok) : directive :=
  match ts with
  | Id d :: r =>
      let open c := match c with Some c => D (Some (EIf c)) (c :: g) M | None => DBad end in
      if String.eqb d "if" then open (parse_cond M r)
      else if String.eqb d "ifdef" then
        open (match r with [Id x] => parse_cond M [Id "defined"; Id x] | _ => None end)
      else if String.eqb d "ifndef" then
        open (match r with [Id x] => parse_cond M [Sy "!"%char; Id "defined"; Id x] | _ => None end)
      else if String.eqb d "elif" then
        match parse_cond M r, g with
        | Some c, c0 :: g' => D (Some (EElif c)) (CAnd (CNot c0) c :: g') M
        | _, _ => DBad
        end
      else if String.eqb d "else" then
        match g with c0 :: g' => D (Some EElse) (CNot c0 :: g') M | [] => DBad end
      else if String.eqb d "endif" then
        match g with _ :: g' => D (Some EEnd) g' M | [] => DBad end
      else if String.eqb d "define" then
        match r with
        | Id n :: body => D None g ((n, (conj g, subst M body)) :: M)
        | _ => DBad
        end
      else if String.eqb d "include" then
        match r with
        | [Sy a; Id n; Sy b] =>
            if code a =? 34 then D (Some (EInclude n)) g M else D None g M   (* <...> is ignored *)
        | _ => DBad
        end
      else if String.eqb d "error" then D (Some EError) g M
      else DNone
  | _ => DNone
  end.

(** directives of masm *)
Definition masm_directive (g : list cond) (M : macros) (ts : list tok) : directive :=
  match ts with
  | [Id d; Id x] => if String.eqb d "IFNDEF" then directive_of g M [Id "ifndef"; Id x] else DNone
  | [Id d] => if String.eqb d "ENDIF" then directive_of g M [Id "endif"] else DNone
  | _ => DNone
  end.

Fixpoint events_ (cm : list string) (g : list cond) (M : macros) (ls : list string) : option (list event) :=
  match ls with
  | [] => match g with [] => Some [] | _ => None end
  | l :: ls' =>
      let go d :=
        match d with
        | DBad => None
        | DNone => match subst M (lex cm (trim l)) with
                   | [] => events_ cm g M ls'
                   | ts => match events_ cm g M ls' with Some r => Some (ELine ts :: r) | None => None end
                   end
        | D e g' M' => match events_ cm g' M' ls' with
                       | Some r => Some (match e with Some e => e :: r | None => r end)
                       | None => None
                       end
        end in
      match trim l with
      | String c r => if code c =? 35 then go (directive_of g M (lex [] r))
                      else go (masm_directive g M (lex cm (trim l)))
      | EmptyString => go DNone
      end
  end.
Definition events (cm : list string) (text : string) : option (list event) := events_ cm [] [] (lines text).

(** ** Configurations *)

(** what remains of a file: lines, included files, errors *)
Inductive out := OLine (l : list tok) | OInclude (f : string) | OError.

(** [st]: for every open directive, whether a branch was taken before and whether
    the current one is *)
Definition live (st : list (bool * bool)) : bool := forallb snd st.
Fixpoint select_ (o : config) (st : list (bool * bool)) (es : list event) : list out :=
  match es with
  | [] => []
  | e :: es' =>
      match e with
      | ELine l => if live st then OLine l :: select_ o st es' else select_ o st es'
      | EInclude f => if live st then OInclude f :: select_ o st es' else select_ o st es'
      | EError => if live st then OError :: select_ o st es' else select_ o st es'
      | EIf c => select_ o ((holds o c, holds o c) :: st) es'
      | EElif c => match st with
                   | (t, _) :: st' => select_ o ((t || holds o c, negb t && holds o c) :: st') es'
                   | [] => OError :: select_ o st es'
                   end
      | EElse => match st with
                 | (t, _) :: st' => select_ o ((true, negb t) :: st') es'
                 | [] => OError :: select_ o st es'
                 end
      | EEnd => match st with _ :: st' => select_ o st' es' | [] => OError :: select_ o st es' end
      end
  end.
Definition select (o : config) (es : list event) : list out := select_ o [] es.

(** *** Only the atoms that occur in a file matter *)

Fixpoint cond_atoms (c : cond) : list atom :=
  match c with
  | CAtom a => [a]
  | CNot c => cond_atoms c
  | CAnd c d | COr c d => cond_atoms c ++ cond_atoms d
  | CConst _ => []
  end.
Definition event_atoms (e : event) : list atom :=
  match e with EIf c | EElif c => cond_atoms c | _ => [] end.
Definition file_atoms (es : list event) : list atom := flat_map event_atoms es.

Lemma atom_eqb_eq a b : atom_eqb a b = true -> a = b.
Proof.
  destruct a, b; cbn; try discriminate; intros H.
  - apply String.eqb_eq in H; congruence.
  - apply andb_true_iff in H; destruct H as [H1 H2]; apply String.eqb_eq in H1; apply Z.eqb_eq in H2; congruence.
  - apply String.eqb_eq in H; congruence.
  - apply andb_true_iff in H; destruct H as [H1 H2]; apply String.eqb_eq in H1; apply Z.eqb_eq in H2; congruence.
Qed.
Lemma atom_eqb_refl a : atom_eqb a a = true.
Proof. destruct a; cbn; rewrite ?String.eqb_refl, ?Z.eqb_refl; reflexivity. Qed.

Lemma holds_agree o o' c : (forall a, In a (cond_atoms c) -> o a = o' a) -> holds o c = holds o' c.
Proof.
  induction c; cbn; intros H; auto.
  - now rewrite IHc.
  - rewrite IHc1, IHc2; auto; intros; apply H, in_or_app; auto.
  - rewrite IHc1, IHc2; auto; intros; apply H, in_or_app; auto.
Qed.

Lemma select_agree o o' es st :
  (forall a, In a (file_atoms es) -> o a = o' a) -> select_ o st es = select_ o' st es.
Proof.
  revert st; induction es as [|e es IH]; cbn; intros st H; auto.
  assert (H' : forall a, In a (file_atoms es) -> o a = o' a) by (intros; apply H, in_or_app; auto).
  assert (HE : forall c, e = EIf c \/ e = EElif c -> holds o c = holds o' c).
  { intros c Hc; apply holds_agree; intros a Ha; apply H, in_or_app; left; destruct Hc; subst e; exact Ha. }
  destruct e; cbn; rewrite ?(HE c) by auto; try destruct st as [|[t x] st];
    rewrite ?(HE c) by auto; rewrite ?(IH _ H'); auto.
Qed.

(** the configuration that has the truth values [l] *)
Fixpoint tabled (l : list (atom * bool)) : config := fun a =>
  match l with
  | [] => false
  | (b, v) :: l' => if atom_eqb b a then v else tabled l' a
  end.
Lemma tabled_in o l a : In a l -> tabled (map (fun b => (b, o b)) l) a = o a.
Proof.
  induction l as [|b l IH]; cbn; intros H; [contradiction|].
  destruct (atom_eqb b a) eqn:E.
  - apply atom_eqb_eq in E; congruence.
  - apply IH; destruct H as [->|]; auto. rewrite atom_eqb_refl in E; discriminate.
Qed.
Lemma select_tabled o es : select o es = select (tabled (map (fun b => (b, o b)) (file_atoms es))) es.
Proof. apply select_agree; intros a Ha; symmetry; apply tabled_in, Ha. Qed.
