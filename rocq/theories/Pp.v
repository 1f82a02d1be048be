(** * The C preprocessor, as far as includes and conditional sections go

    [pp] processes a file and the files that it includes, with a table of files
    that have been split into lines ([events]).  It is written for any algebra of
    truth values: with booleans ([preprocess]) it is what a preprocessor does for
    given macros; with formulas it does so for all macros at once; [pp_related]
    says that the two agree.

    Simplifications: only whether a macro is defined is tracked; a test of a value
    ([#if BOOST_OS_MACOS], [_MSC_VER > 1800], ...) is an unknown truth value [q],
    one for each text of such a test; headers that are not in the table (those of
    the standard library and of other Boost libraries) are skipped, i.e. what they
    define counts as defined from the start; names in the lines that remain are not
    replaced. *)
From Coq Require Import ZArith List String Ascii Bool Lia.
From Verif Require Import AsmLex.
Import ListNotations.
Open Scope string_scope.
Open Scope Z_scope.
Open Scope list_scope.

(** ** Lines *)

Inductive pev :=
| XLine (l : list tok)
| XDef (x : string) | XUndef (x : string)
| XIf (c : cond) | XElif (c : cond) | XElse | XEnd
| XInc (f : string)          (* a file *)
| XSys                       (* a file that is named by a macro *)
| XErr.

(** lines that end in a backslash are continued *)
Fixpoint ends_bs (s : string) : option string :=
  match s with
  | EmptyString => None
  | String c EmptyString => if code c =? 92 then Some "" else None
  | String c s' => match ends_bs s' with Some t => Some (String c t) | None => None end
  end.
Fixpoint splice (ls : list string) : list string :=
  match ls with
  | [] => []
  | l :: ls' =>
      match ends_bs l, splice ls' with
      | Some h, m :: r => (h ++ m)%string :: r
      | Some h, [] => [h]
      | None, r => l :: r
      end
  end.

(** the text of a test *)
Definition show (t : tok) : string :=
  match t with
  | Id s => s
  | Num z => if z =? 0 then "0" else if z =? 1 then "1" else "n"
  | Sy c => String c EmptyString
  | NL => ""
  end.
Definition shows (ts : list tok) : string := fold_right (fun t s => (show t ++ " " ++ s)%string) "" ts.

(** everything up to && || or the end of the parentheses is one test *)
Fixpoint test (n : nat) (acc : list tok) (ts : list tok) : list tok * list tok :=
  match ts with
  | Sy c :: r =>
      if is_sy "(" (Sy c) then test (S n) (Sy c :: acc) r
      else if is_sy ")" (Sy c) then match n with O => (rev acc, ts) | S n => test n (Sy c :: acc) r end
      else if (is_sy "&" (Sy c) || is_sy "|" (Sy c)) && match n with O => true | _ => false end then (rev acc, ts)
      else test n (Sy c :: acc) r
  | t :: r => test n (t :: acc) r
  | [] => (rev acc, [])
  end.

Fixpoint c_or (f : nat) (ts : list tok) : option (cond * list tok) :=
  match f with
  | O => None
  | S f =>
      match c_and f ts with
      | Some (c, a :: b :: r) =>
          if is_sy "|" a && is_sy "|" b
          then match c_or f r with Some (d, r') => Some (COr c d, r') | None => None end
          else Some (c, a :: b :: r)
      | x => x
      end
  end
with c_and (f : nat) (ts : list tok) : option (cond * list tok) :=
  match f with
  | O => None
  | S f =>
      match c_prim f ts with
      | Some (c, a :: b :: r) =>
          if is_sy "&" a && is_sy "&" b
          then match c_and f r with Some (d, r') => Some (CAnd c d, r') | None => None end
          else Some (c, a :: b :: r)
      | x => x
      end
  end
with c_prim (f : nat) (ts : list tok) : option (cond * list tok) :=
  match f with
  | O => None
  | S f =>
      match ts with
      | Id n :: r =>
          if String.eqb n "defined" then
            match r with
            | Id x :: r' => Some (CAtom (ADef x), r')
            | Sy p :: Id x :: Sy q :: r' =>
                if is_sy "(" (Sy p) && is_sy ")" (Sy q) then Some (CAtom (ADef x), r') else None
            | _ => None
            end
          else let (t, r') := test 0 [] ts in Some (CAtom (ANz (shows t)), r')
      | Sy s :: r =>
          if is_sy "!" (Sy s) then
            match c_prim f r with Some (c, r') => Some (CNot c, r') | None => None end
          else if is_sy "(" (Sy s) then
            match c_or f r with
            | Some (c, q :: r') => if is_sy ")" q then Some (c, r') else None
            | _ => None
            end
          else None
      | _ => None
      end
  end.
Definition condition (ts : list tok) : option cond :=
  match c_or 80 ts with Some (c, []) => Some c | _ => None end.

(** the name of an included file: everything between the delimiters *)
Fixpoint upto (c : ascii) (s : string) : string :=
  match s with EmptyString => "" | String a s' => if Ascii.eqb a c then "" else String a (upto c s') end.
Fixpoint included (s : string) : option string :=
  match s with
  | EmptyString => None
  | String a s' =>
      if code a =? 34 then Some (upto a s')
      else if code a =? 60 then Some (upto ">"%char s')
      else included s'
  end.

(** None: not understood *)
Definition line (s : string) : option (list pev) :=
  match trim s with
  | String c r =>
      if code c =? 35 then
        match lex ["//"] r with
        | Id d :: ts =>
            let c1 f := match condition ts with Some c => Some [f c] | None => None end in
            if String.eqb d "if" then c1 XIf
            else if String.eqb d "ifdef" then match ts with [Id x] => Some [XIf (CAtom (ADef x))] | _ => None end
            else if String.eqb d "ifndef" then match ts with [Id x] => Some [XIf (CNot (CAtom (ADef x)))] | _ => None end
            else if String.eqb d "elif" then c1 XElif
            else if String.eqb d "else" then Some [XElse]
            else if String.eqb d "endif" then Some [XEnd]
            else if String.eqb d "define" then match ts with Id x :: _ => Some [XDef x] | _ => None end
            else if String.eqb d "undef" then match ts with [Id x] => Some [XUndef x] | _ => None end
            else if String.eqb d "include" then
              Some [match included r with Some f => XInc f | None => XSys end]
            else if String.eqb d "error" then Some [XErr]
            else if String.eqb d "pragma" then Some []
            else None
        | _ => None
        end
      else match lex ["//"] (trim s) with [] => Some [] | ts => Some [XLine ts] end
  | EmptyString => Some []
  end.
Definition events (text : string) : option (list pev) :=
  fold_right (fun s acc => match line s, acc with Some l, Some r => Some (l ++ r) | _, _ => None end)
    (Some []) (splice (lines text)).

(** ** Processing *)

Record alg := Alg {
  tv : Type; v_tt : tv; v_ff : tv; v_and : tv -> tv -> tv; v_or : tv -> tv -> tv; v_not : tv -> tv }.

Section PP.
Variable A : alg.
Variable Q : string -> tv A.                        (* the outcome of tests of values *)
Variable files : list (string * option (list pev)). (* the files that #include finds *)

Definition defs := string -> tv A.                  (* which macros are defined *)
Definition set (D : defs) (x : string) (v : tv A) : defs := fun y => if String.eqb y x then v else D y.

Fixpoint ev (D : defs) (c : cond) : tv A :=
  match c with
  | CAtom (ADef x) => D x
  | CAtom (ANz t) => Q t
  | CAtom _ => v_ff A
  | CNot c => v_not A (ev D c)
  | CAnd c d => v_and A (ev D c) (ev D d)
  | COr c d => v_or A (ev D c) (ev D d)
  | CConst b => if b then v_tt A else v_ff A
  end.

(** [st]: for every open directive, whether a branch was taken before, and whether
    the current one is; [base]: whether the file itself is included.  The result:
    the macros, and the lines with their truth value: do they remain? *)
Definition live (base : tv A) (st : list (tv A * tv A)) : tv A :=
  fold_right (fun x acc => v_and A (snd x) acc) base st.

Fixpoint pp (f : nat) (D : defs) (base : tv A) (es : list pev) : option (defs * list (tv A * pev)) :=
  match f with
  | O => None
  | S f =>
      (fix go (es : list pev) (D : defs) (st : list (tv A * tv A)) : option (defs * list (tv A * pev)) :=
         match es with
         | [] => match st with [] => Some (D, []) | _ => None end
         | e :: es' =>
             let lv := live base st in
             let next D o := match go es' D st with Some (D', r) => Some (D', o ++ r) | None => None end in
             match e with
             | XLine _ | XErr | XSys => next D [(lv, e)]
             | XDef x => next (set D x (v_or A lv (D x))) [(lv, e)]
             | XUndef x => next (set D x (v_and A (v_not A lv) (D x))) [(lv, e)]
             | XIf c => let b := ev D c in go es' D ((b, b) :: st)
             | XElif c =>
                 match st with
                 | (t, _) :: st' => let b := ev D c in go es' D ((v_or A t b, v_and A (v_not A t) b) :: st')
                 | [] => None
                 end
             | XElse =>
                 match st with
                 | (t, _) :: st' => go es' D ((v_tt A, v_not A t) :: st')
                 | [] => None
                 end
             | XEnd => match st with _ :: st' => go es' D st' | [] => None end
             | XInc n =>
                 match lookup n files with
                 | Some (Some es1) =>
                     match pp f D lv es1 with
                     | Some (D1, o1) => next D1 ((lv, e) :: o1)
                     | None => None
                     end
                 | Some None => None
                 | None => next D [(lv, e)]
                 end
             end
         end) es D []
  end.
End PP.
Arguments ev {A}. Arguments live {A}. Arguments pp {A}. Arguments set {A}.

(** ** Booleans: what a preprocessor does *)

Definition bools : alg := Alg bool true false andb orb negb.

(** the lines that remain of a file; [d]: the macros that are defined before *)
Definition preprocess (files : list (string * option (list pev))) (q d : string -> bool) (es : list pev)
  : option ((string -> bool) * list pev) :=
  match pp (A := bools) q files 10 d true es with
  | Some (Dm, o) => Some (Dm, map snd (filter fst o))
  | None => None
  end.

(** ** Formulas *)

Definition k_and (c d : cond) : cond :=
  match c, d with
  | CConst true, _ => d
  | CConst false, _ => c
  | _, CConst true => c
  | _, CConst false => d
  | _, _ => CAnd c d
  end.
Definition k_or (c d : cond) : cond :=
  match c, d with
  | CConst true, _ => c
  | CConst false, _ => d
  | _, CConst true => d
  | _, CConst false => c
  | _, _ => COr c d
  end.
Definition k_not (c : cond) : cond := match c with CConst b => CConst (negb b) | CNot c => c | _ => CNot c end.
Definition conds : alg := Alg cond (CConst true) (CConst false) k_and k_or k_not.

(** ** Unknown truth values *)
Definition t_and (a b : option bool) : option bool :=
  match a, b with
  | Some false, _ | _, Some false => Some false
  | Some true, Some true => Some true
  | _, _ => None
  end.
Definition t_not (a : option bool) : option bool := option_map negb a.
Definition t_or (a b : option bool) : option bool := t_not (t_and (t_not a) (t_not b)).
Definition tris : alg := Alg (option bool) (Some true) (Some false) t_and t_or t_not.

(** ** The algebras agree *)

Record agree (A B : alg) (R : tv A -> tv B -> Prop) : Prop := {
  a_tt : R (v_tt A) (v_tt B); a_ff : R (v_ff A) (v_ff B);
  a_and : forall a b a' b', R a b -> R a' b' -> R (v_and A a a') (v_and B b b');
  a_or : forall a b a' b', R a b -> R a' b' -> R (v_or A a a') (v_or B b b');
  a_not : forall a b, R a b -> R (v_not A a) (v_not B b) }.

Section REL.
Variables (A B : alg) (R : tv A -> tv B -> Prop).
Hypothesis HR : agree A B R.
Variables (QA : string -> tv A) (QB : string -> tv B) (files : list (string * option (list pev))).
Hypothesis HQ : forall t, R (QA t) (QB t).

Definition related (x : option (defs A * list (tv A * pev))) (y : option (defs B * list (tv B * pev))) : Prop :=
  match x, y with
  | None, None => True
  | Some (Da, o), Some (E, p) =>
      (forall x, R (Da x) (E x)) /\ Forall2 (fun a b => R (fst a) (fst b) /\ snd a = snd b) o p
  | _, _ => False
  end.

Lemma ev_rel D E c : (forall x, R (D x) (E x)) -> R (ev QA D c) (ev QB E c).
Proof.
  intros HD. destruct HR. induction c as [[s|s z|s|s z]| | | |[]]; cbn [ev]; auto.
Qed.
Lemma live_rel b b' st st' : R b b' -> Forall2 (fun x y => R (fst x) (fst y) /\ R (snd x) (snd y)) st st' ->
  R (live b st) (live b' st').
Proof. intros Hb F. destruct HR. induction F as [|x y l l' [H1 H2] F IH]; cbn; auto. Qed.
Lemma set_rel D E x v w : (forall x, R (D x) (E x)) -> R v w -> forall y, R (set D x v y) (set E x w y).
Proof. intros HD HV y. unfold set. destruct (String.eqb y x); auto. Qed.

Lemma pp_related f : forall D E b b' es, (forall x, R (D x) (E x)) -> R b b' ->
  related (pp QA files f D b es) (pp QB files f E b' es).
Proof.
  induction f as [|f IH]; intros D E b b' es HD Hb; [exact Logic.I|].
  cbn [pp].
  match goal with |- related (?g1 es D []) (?g2 es E []) => set (goA := g1); set (goB := g2) end.
  assert (G : forall es D E st st', (forall x, R (D x) (E x)) ->
            Forall2 (fun x y => R (fst x) (fst y) /\ R (snd x) (snd y)) st st' ->
            related (goA es D st) (goB es E st')).
  { clear D E es HD. induction es as [|e es IHes]; intros D E st st' HD F.
    - cbn. destruct F; cbn; auto.
    - assert (HL := live_rel b b' st st' Hb F).
      assert (N : forall D' E' o o', (forall x, R (D' x) (E' x)) ->
                Forall2 (fun a b => R (fst a) (fst b) /\ snd a = snd b) o o' ->
                related (match goA es D' st with Some (X, r) => Some (X, o ++ r) | None => None end)
                        (match goB es E' st' with Some (X, r) => Some (X, o' ++ r) | None => None end)).
      { intros D' E' o o' HD' FO. specialize (IHes D' E' st st' HD' F).
        destruct (goA es D' st) as [[X r]|], (goB es E' st') as [[Y r']|]; cbn in *; auto.
        destruct IHes as [H1 H2]. split; [exact H1|]. apply Forall2_app; assumption. }
      assert (FST : forall (x : pev) D' E', (forall y, R (D' y) (E' y)) ->
                related (match goA es D' st with Some (X, r) => Some (X, [(live b st, x)] ++ r) | None => None end)
                        (match goB es E' st' with Some (X, r) => Some (X, [(live b' st', x)] ++ r) | None => None end)).
      { intros x D' E' HD'. apply N; [exact HD'|]. constructor; [split; [exact HL|reflexivity]|constructor]. }
      pose proof HR as [Ht Hf Ha Ho Hn].
      destruct e; cbn [goA goB]; fold goA goB.
      + apply FST, HD.
      + apply FST. apply set_rel; [exact HD|]. apply Ho; [exact HL|apply HD].
      + apply FST. apply set_rel; [exact HD|]. apply Ha; [apply Hn; exact HL|apply HD].
      + apply IHes; [exact HD|]. constructor; [|exact F]. split; apply ev_rel; exact HD.
      + destruct F as [|[t x] [t' y] st st' [F1 F2] F]; [exact Logic.I|]. cbn [fst snd] in *.
        apply IHes; [exact HD|]. constructor; [|exact F]. cbn [fst snd].
        split; [apply Ho|apply Ha; [apply Hn|]]; auto using ev_rel.
      + destruct F as [|[t x] [t' y] st st' [F1 F2] F]; [exact Logic.I|]. cbn [fst snd] in *.
        apply IHes; [exact HD|]. constructor; [|exact F]. cbn [fst snd]. split; [apply Ht|apply Hn; exact F1].
      + destruct F as [|x y st st' FH F]; [exact Logic.I|]. apply IHes; assumption.
      + destruct (lookup f0 files) as [[es1|]|]; [|exact Logic.I|apply FST, HD].
        specialize (IH D E (live b st) (live b' st') es1 HD HL).
        destruct (pp QA files f D (live b st) es1) as [[X r]|], (pp QB files f E (live b' st') es1) as [[Y r']|];
          cbn in IH; try contradiction; [|exact Logic.I].
        destruct IH as [H1 H2].
        apply N; [exact H1|]. constructor; [|exact H2]. split; [exact HL|reflexivity].
      + apply FST, HD.
      + apply FST, HD. }
  apply G; [exact HD|constructor].
Qed.
End REL.

Lemma conds_bools o : agree conds bools (fun c b => holds o c = b).
Proof.
  split; cbn; auto.
  - intros a b a' b' <- <-. unfold k_and. destruct a as [| | | |[]], a' as [| | | |[]]; cbn; rewrite ?andb_true_r, ?andb_false_r; auto.
  - intros a b a' b' <- <-. unfold k_or. destruct a as [| | | |[]], a' as [| | | |[]]; cbn; rewrite ?orb_true_r, ?orb_false_r; auto.
  - intros a b <-. destruct a; cbn; rewrite ?negb_involutive; auto.
Qed.
Lemma tris_bools : agree tris bools (fun a b => forall v, a = Some v -> v = b).
Proof.
  split; cbn; try congruence.
  - intros a b a' b' H H' v. destruct a as [[]|], a' as [[]|]; cbn; intros [= <-];
      rewrite <- ?(H _ eq_refl), <- ?(H' _ eq_refl), ?andb_false_r; reflexivity.
  - intros a b a' b' H H' v. destruct a as [[]|], a' as [[]|]; cbn; intros [= <-];
      rewrite <- ?(H _ eq_refl), <- ?(H' _ eq_refl), ?orb_true_r; reflexivity.
  - intros a b H v. destruct a as [[]|]; cbn; intros [= <-]; rewrite <- (H _ eq_refl); reflexivity.
Qed.
