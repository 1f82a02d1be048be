(** * C59, continued: what a program gets that includes the headers *)
From Coq Require Import ZArith List String Ascii Bool Lia.
From Verif Require Import AsmLex P_AsmText BuildText Jam Pp Build.
Import ListNotations.
Open Scope string_scope.
Open Scope list_scope.

(** the headers, read *)
Definition table : list (string * option (list pev)) := Eval vm_compute in header_table.
Lemma table_eq : header_table = table.
Proof. vm_compute. reflexivity. Qed.
Definition source_tab : list (string * option (list pev)) := Eval vm_compute in source_table.
Lemma source_tab_eq : source_table = source_tab.
Proof. vm_compute. reflexivity. Qed.

Local Opaque table source_tab.
(** ** Units are processed one include after the other *)

Lemma pp_nil A Q files f D b : pp (A := A) Q files (S f) D b [] = Some (D, []).
Proof. reflexivity. Qed.
Lemma pp_inc A Q files f D b h es1 r : lookup h files = Some (Some es1) ->
  pp (A := A) Q files (S f) D b (XInc h :: r) =
  match pp Q files f D b es1 with
  | Some (D1, o1) =>
      match pp Q files (S f) D1 b r with Some (D', o) => Some (D', ((b, XInc h) :: o1) ++ o) | None => None end
  | None => None
  end.
Proof. intros H. cbn [pp]. rewrite H. cbn [live fold_right]. destruct (pp Q files f D b es1) as [[D1 o1]|]; reflexivity. Qed.

(** ** A line in a protected header is used at most once *)

Section ONCE.
Variables (q : string -> bool) (files : list (string * option (list pev))).
Variables (L : pev -> bool) (G : string).
Hypothesis LX : forall e, L e = true -> exists ts, e = XLine ts.

Definition cnt (o : list (bool * pev)) : nat := List.length (filter (fun x => fst x && L (snd x)) o).
Lemma cnt_app a b : cnt (a ++ b) = (cnt a + cnt b)%nat.
Proof. unfold cnt. rewrite filter_app, app_length. reflexivity. Qed.
Lemma cnt_cons v e o : cnt ((v, e) :: o) = ((if v && L e then 1 else 0) + cnt o)%nat.
Proof. unfold cnt. cbn [filter fst snd]. destruct (v && L e); reflexivity. Qed.

Definition lines_in (es : list pev) : nat := List.length (filter L es).
Definition undefs (es : list pev) : bool :=
  existsb (fun e => match e with XUndef x => String.eqb x G | _ => false end) es.
(** the body of a protected header: the condition on the outside has no other branch *)
Fixpoint shielded (n : nat) (es : list pev) : bool :=
  match es with
  | [] => false
  | XIf _ :: r => shielded (S n) r
  | XElif _ :: r | XElse :: r => match n with O => false | _ => shielded n r end
  | XEnd :: r => match n with O => match r with [] => true | _ => false end | S n => shielded n r end
  | _ :: r => shielded n r
  end.
Definition file_ok (es : list pev) : bool :=
  negb (undefs es) &&
  match es with
  | XIf (CNot (CAtom (ADef g))) :: XDef g' :: body =>
      String.eqb g G && String.eqb g' G && (lines_in body <=? 1)%nat && shielded 0 body || (lines_in es =? 0)%nat
  | _ => (lines_in es =? 0)%nat
  end.
Hypothesis OK : forall h es, lookup h files = Some (Some es) -> file_ok es = true.

Notation ppb := (pp (A := bools) q files).

(** sections that are skipped have no effect *)
Lemma pp_dead f : forall D es D' o, ppb f D false es = Some (D', o) -> cnt o = O /\ forall x, D' x = D x.
Proof.
  induction f as [|f IH]; intros D es D' o; [discriminate|]. cbn [pp].
  match goal with |- ?g1 es D [] = _ -> _ => set (go := g1) end.
  assert (LV : forall st : list (bool * bool), live (A := bools) false st = false).
  { induction st as [|[a c] st IHst]; [reflexivity|]. cbn. unfold live in IHst. cbn in IHst. rewrite IHst. apply andb_false_r. }
  cut (forall es D st D' o, go es D st = Some (D', o) -> cnt o = O /\ forall x, D' x = D x).
  { intros H E. eapply H. exact E. }
  clear D es D' o. induction es as [|e es IHes]; intros D st D' o.
  - cbn. destruct st; [|discriminate]. intros [= <- <-]. auto.
  - pose proof (LV st) as HL. destruct e; cbn [go]; fold go; cbn [v_or v_and v_not bools] in *.
    1,9,10: (destruct (go es D st) as [[D2 o2]|] eqn:E; [|discriminate]; intros [= <- <-];
      destruct (IHes _ _ _ _ E) as [H1 H2]; rewrite HL; change (cnt ((false, ?e) :: o2)) with (cnt o2); auto).
    + rewrite HL. match goal with |- context [go es ?d st] => set (D1 := d) end.
      assert (HD1 : forall y, D1 y = D y).
      { intros y. subst D1. unfold set. destruct (String.eqb y x) eqn:E; [|reflexivity]. apply String.eqb_eq in E as ->. reflexivity. }
      destruct (go es D1 st) as [[D2 o2]|] eqn:E; [|discriminate]. intros [= <- <-].
      destruct (IHes _ _ _ _ E) as [H1 H2]. split; [exact H1|]. intros y. rewrite H2. apply HD1.
    + rewrite HL. match goal with |- context [go es ?d st] => set (D1 := d) end.
      assert (HD1 : forall y, D1 y = D y).
      { intros y. subst D1. unfold set. destruct (String.eqb y x) eqn:E; [|reflexivity]. apply String.eqb_eq in E as ->. reflexivity. }
      destruct (go es D1 st) as [[D2 o2]|] eqn:E; [|discriminate]. intros [= <- <-].
      destruct (IHes _ _ _ _ E) as [H1 H2]. split; [exact H1|]. intros y. rewrite H2. apply HD1.
    + apply IHes.
    + destruct st as [|[t c'] st]; [discriminate|]. apply IHes.
    + destruct st as [|[t c'] st]; [discriminate|]. apply IHes.
    + destruct st as [|[t c'] st]; [discriminate|]. apply IHes.
    + destruct (lookup f0 files) as [[es1|]|] eqn:EL; [|discriminate|].
      * rewrite HL. destruct (ppb f D false es1) as [[D1 o1]|] eqn:E1; [|discriminate].
        destruct (IH _ _ _ _ E1) as [A1 A2].
        destruct (go es D1 st) as [[D2 o2]|] eqn:E; [|discriminate]. intros [= <- <-].
        destruct (IHes _ _ _ _ E) as [H1 H2].
        change ((false, XInc f0) :: o1 ++ o2) with (((false, XInc f0) :: o1) ++ o2).
        rewrite cnt_app, cnt_cons, A1, H1. split; [reflexivity|]. intros y. rewrite H2. apply A2.
      * destruct (go es D st) as [[D2 o2]|] eqn:E; [|discriminate]. intros [= <- <-].
        destruct (IHes _ _ _ _ E) as [H1 H2]. rewrite HL. auto.
Qed.

Definition b2n (b : bool) : nat := if b then 1 else 0.

Lemma pp_once f : forall D base es D' o, file_ok es = true -> ppb f D base es = Some (D', o) ->
  (cnt o + b2n (D G) <= b2n (D' G))%nat.
Proof.
  induction f as [|f IH]; intros D base es D' o FO; [discriminate|].
  destruct base.
  2:{ intros E. destruct (pp_dead _ _ _ _ _ E) as [H1 H2]. rewrite H1, H2. lia. }
  cbn [pp].
  match goal with |- ?g1 es D [] = _ -> _ => set (go := g1) end.
  assert (IH1 : forall h es1 D b D1 o1, lookup h files = Some (Some es1) -> ppb f D b es1 = Some (D1, o1) ->
                (cnt o1 + b2n (D G) <= b2n (D1 G))%nat) by (intros h es1 D0 b D1 o1 EL E1; exact (IH D0 b es1 D1 o1 (OK h es1 EL) E1)).
  (* any code that does not undefine G *)
  assert (M : forall es D st D' o, undefs es = false -> go es D st = Some (D', o) ->
            (D G = true -> D' G = true /\ (cnt o <= lines_in es)%nat) /\
            (lines_in es = O -> (cnt o + b2n (D G) <= b2n (D' G))%nat)).
  { clear D es D' o FO. induction es as [|e es IHes]; intros D st D' o UN.
    - cbn. destruct st; [|discriminate]. intros [= <- <-]. cbn. split; [intros ->; auto|lia].
    - unfold undefs in UN. cbn [existsb] in UN. apply orb_false_iff in UN as [UE UN]. fold (undefs es) in UN.
      set (lv := live (A := bools) true st).
      assert (LI : lines_in (e :: es) = ((if L e then 1 else 0) + lines_in es)%nat)
        by (unfold lines_in; cbn [filter]; destruct (L e); reflexivity).
      assert (NX : forall D1 o1, (b2n (D G) <= b2n (D1 G))%nat ->
                (cnt o1 <= if L e then 1 else 0)%nat ->
                match go es D1 st with Some (D', r) => Some (D', o1 ++ r) | None => None end = Some (D', o) ->
                (D G = true -> D' G = true /\ (cnt o <= lines_in (e :: es))%nat) /\
                (lines_in (e :: es) = O -> (cnt o + b2n (D G) <= b2n (D' G))%nat)).
      { intros D1 o1 HD HC. destruct (go es D1 st) as [[D2 o2]|] eqn:E; [|discriminate]. intros [= <- <-].
        destruct (IHes _ _ _ _ UN E) as [H1 H2]. rewrite LI, cnt_app. split.
        - intros HG. rewrite HG in HD. destruct (D1 G) eqn:HG1; [|cbn in HD; lia].
          destruct (H1 eq_refl) as [H3 H4]. split; [exact H3|lia].
        - intros HL. specialize (H2 ltac:(lia)). destruct (L e); lia. }
      assert (C1 : forall v, (cnt [(v, e)] <= if L e then 1 else 0)%nat).
      { intros v. rewrite cnt_cons. change (cnt []) with O. destruct v, (L e); cbn; lia. }
      destruct e; cbn [go]; fold go; fold lv; cbn [v_or v_and v_not v_tt bools].
      + apply NX; [lia|apply C1].
      + apply NX; [|apply C1]. unfold set. destruct (String.eqb G x) eqn:E; [|lia].
        apply String.eqb_eq in E as <-. destruct lv, (D G); cbn; lia.
      + apply NX; [|apply C1]. unfold set. destruct (String.eqb G x) eqn:E; [|lia].
        apply String.eqb_eq in E as <-. rewrite String.eqb_refl in UE. discriminate.
      + intros E. specialize (IHes _ _ _ _ UN E). rewrite LI.
        destruct (L (XIf c)) eqn:LE; [apply LX in LE as [ts LE]; discriminate|exact IHes].
      + destruct st as [|[t c'] st]; [discriminate|]. intros E. specialize (IHes _ _ _ _ UN E). rewrite LI.
        destruct (L (XElif c)) eqn:LE; [apply LX in LE as [ts LE]; discriminate|exact IHes].
      + destruct st as [|[t c'] st]; [discriminate|]. intros E. specialize (IHes _ _ _ _ UN E). rewrite LI.
        destruct (L XElse) eqn:LE; [apply LX in LE as [ts LE]; discriminate|exact IHes].
      + destruct st as [|[t c'] st]; [discriminate|]. intros E. specialize (IHes _ _ _ _ UN E). rewrite LI.
        destruct (L XEnd) eqn:LE; [apply LX in LE as [ts LE]; discriminate|exact IHes].
      + destruct (lookup f0 files) as [[es1|]|] eqn:EL; [|discriminate|apply NX; [lia|apply C1]].
        destruct (ppb f D lv es1) as [[D1 o1]|] eqn:E1; [|discriminate].
        pose proof (IH1 _ _ _ _ _ _ EL E1) as H1. intros E.
        assert (LE : L (XInc f0) = false) by (destruct (L (XInc f0)) eqn:LE; [apply LX in LE as [ts LE]; discriminate|reflexivity]).
        destruct (go es D1 st) as [[D2 o2]|] eqn:E2; [|discriminate]. injection E as <- <-.
        destruct (IHes _ _ _ _ UN E2) as [H3 H4]. rewrite LI, LE.
        change ((lv, XInc f0) :: o1 ++ o2) with (((lv, XInc f0) :: o1) ++ o2). rewrite cnt_app, cnt_cons, LE, andb_false_r. split.
        * intros HG. rewrite HG in H1. destruct (D1 G) eqn:HG1; [|cbn in H1; lia].
          destruct (H3 eq_refl) as [H5 H6]. cbn in H1. split; [exact H5|lia].
        * intros HL. specialize (H4 ltac:(lia)). lia.
      + apply NX; [lia|apply C1].
      + apply NX; [lia|apply C1]. }
  (* a protected body that is skipped *)
  assert (SH : forall es D s t D' o, shielded (List.length s) es = true -> go es D (s ++ [(t, false)]) = Some (D', o) ->
             cnt o = O /\ forall x, D' x = D x).
  { clear D es D' o FO. induction es as [|e es IHes]; intros D s t D' o HS; [discriminate|].
    assert (LV : live (A := bools) true (s ++ [(t, false)]) = false).
    { clear. induction s as [|[a c] s IHs]; [reflexivity|]. cbn in *. unfold live in IHs. cbn in IHs. rewrite IHs. apply andb_false_r. }
    assert (NX : forall D1 o1, (forall y, D1 y = D y) -> cnt o1 = O -> shielded (List.length s) es = true ->
              match go es D1 (s ++ [(t, false)]) with Some (D', r) => Some (D', o1 ++ r) | None => None end = Some (D', o) ->
              cnt o = O /\ forall x, D' x = D x).
    { intros D1 o1 HD HC HS'. destruct (go es D1 (s ++ [(t, false)])) as [[D2 o2]|] eqn:E; [|discriminate]. intros [= <- <-].
      destruct (IHes _ _ _ _ _ HS' E) as [H1 H2]. rewrite cnt_app, HC, H1. split; [reflexivity|]. intros y. rewrite H2. apply HD. }
    assert (C1 : forall e, cnt [(false, e)] = O) by reflexivity.
    destruct e; cbn [go]; fold go; cbn [shielded] in HS; rewrite ?LV; cbn [v_or v_and v_not v_tt bools].
    - apply NX; auto.
    - apply NX; auto. intros y. unfold set. destruct (String.eqb y x) eqn:E; [|reflexivity]. apply String.eqb_eq in E as ->. reflexivity.
    - apply NX; auto. intros y. unfold set. destruct (String.eqb y x) eqn:E; [|reflexivity]. apply String.eqb_eq in E as ->. reflexivity.
    - intros E. match type of E with go es D ((?a, ?b) :: _) = _ => exact (IHes D ((a, b) :: s) t _ _ HS E) end.
    - destruct s as [|[a c'] s]; [discriminate|]. cbn [app]. intros E. match type of E with go es D ((?a, ?b) :: _) = _ => exact (IHes D ((a, b) :: s) t _ _ HS E) end.
    - destruct s as [|[a c'] s]; [discriminate|]. cbn [app]. intros E. match type of E with go es D ((?a, ?b) :: _) = _ => exact (IHes D ((a, b) :: s) t _ _ HS E) end.
    - destruct s as [|[a c'] s].
      + cbn in HS. destruct es; [|discriminate]. cbn. intros [= <- <-]. auto.
      + cbn [app]. intros E. exact (IHes D s t _ _ HS E).
    - destruct (lookup f0 files) as [[es1|]|] eqn:EL; [|discriminate|apply NX; auto].
      destruct (ppb f D false es1) as [[D1 o1]|] eqn:E1; [|discriminate].
      destruct (pp_dead _ _ _ _ _ E1) as [A1 A2]. intros E.
      apply (NX D1 ((false, XInc f0) :: o1)); auto. 
    - apply NX; auto.
    - apply NX; auto. }
  intros E. unfold file_ok in FO. apply andb_true_iff in FO as [UN FO]. apply negb_true_iff in UN.
  assert (K0 : (lines_in es =? 0)%nat = true -> (cnt o + b2n (D G) <= b2n (D' G))%nat).
  { intros Z. apply Nat.eqb_eq in Z. exact (proj2 (M _ _ _ _ _ UN E) Z). }
  destruct es as [|[| | |[[g| | |]|[[g| | |]| | | |]| | |]| | | | | |] [|[| g'| | | | | | | |] body]]; try exact (K0 FO).
  apply orb_true_iff in FO as [FO|FO]; [|exact (K0 FO)].
  apply andb_true_iff in FO as [FO SB]. apply andb_true_iff in FO as [FO LB]. apply andb_true_iff in FO as [E1 E2].
  apply String.eqb_eq in E1, E2. subst g g'. apply Nat.leb_le in LB.
  cbn [go] in E. fold go in E. cbn [ev v_not bools live fold_right snd v_or v_and] in E.
  destruct (D G) eqn:DG; cbn [negb andb orb] in E.
  - destruct (go body _ _) as [[D2 o2]|] eqn:E3 in E; [|discriminate]. injection E as <- <-.
    destruct (SH body _ [] _ _ _ SB E3) as [H1 H2]. rewrite cnt_cons, H1, H2. unfold set. rewrite String.eqb_refl. cbn. lia.
  - destruct (go body _ _) as [[D2 o2]|] eqn:E3 in E; [|discriminate]. injection E as <- <-.
    assert (UB : undefs body = false) by exact UN.
    destruct (M _ _ _ _ _ UB E3) as [H1 _]. destruct H1 as [H1 H2].
    { unfold set. rewrite String.eqb_refl. reflexivity. }
    rewrite cnt_cons, H1. cbn.
    destruct (L (XDef G)) eqn:LE; [apply LX in LE as [ts LE]; discriminate|]. cbn. lia.
Qed.
End ONCE.

Lemma live_cnt L (o : list (bool * pev)) : occurrences L (map snd (filter fst o)) = cnt L o.
Proof.
  unfold occurrences, cnt. induction o as [|[v e] o IH]; [reflexivity|].
  cbn [filter fst snd map]. destruct v; cbn [filter map andb fst snd]; [|exact IH].
  destruct (L e); cbn [List.length]; rewrite IH; reflexivity.
Qed.
Definition once_ok (L : pev -> bool) (G : string) : bool :=
  forallb (fun x => match snd x with Some es => file_ok L G es | None => true end) table.
Lemma unit_once q d hs ls L G : (forall e, L e = true -> exists ts, e = XLine ts) -> once_ok L G = true ->
  unit_lines q d hs = Some ls -> (occurrences L ls <= 1)%nat.
Proof.
  intros LX CHK. unfold unit_lines, preprocess. rewrite table_eq.
  destruct (pp (A := bools) q table 10 d true (unit_of hs)) as [[D' o]|] eqn:E; [|discriminate]. intros [= <-].
  rewrite live_cnt.
  pose proof (pp_once q table L G LX) as P.
  assert (OK : forall h es, lookup h table = Some (Some es) -> file_ok L G es = true).
  { intros h es EL. unfold once_ok in CHK. rewrite forallb_forall in CHK.
    assert (J : In (h, Some es) table).
    { revert EL. clear. induction table as [|[k v] l IH]; cbn [lookup]; [discriminate|].
      destruct (String.eqb k h) eqn:E; [apply String.eqb_eq in E as ->; intros [= ->]; left; reflexivity|right; auto]. }
    exact (CHK _ J). }
  assert (FO : file_ok L G (unit_of hs) = true).
  { unfold file_ok. assert (U : undefs G (unit_of hs) = false) by (clear; induction hs; [reflexivity|cbn; exact IHhs]).
    assert (N : lines_in L (unit_of hs) = O).
    { clear - LX. induction hs as [|h hs IH]; [reflexivity|]. unfold lines_in, unit_of in *. cbn [map filter].
      destruct (L (XInc h)) eqn:LE; [apply LX in LE as [ts LE]; discriminate|exact IH]. }
    rewrite U, N. cbn [negb andb]. destruct hs; reflexivity. }
  specialize (P OK 10%nat d true (unit_of hs) D' o FO E). destruct (D' G), (d G); cbn in P; lia.
Qed.

Definition class_names : list string :=
  Eval vm_compute in
  nodup string_dec (flat_map (fun x => match snd x with Some es => flat_map (fun e => match class_of e with Some c => [c] | None => [] end) es | None => [] end) table).
Lemma class_lines x e : defines_class x e = true -> exists ts, e = XLine ts.
Proof. unfold defines_class, class_of. destruct e; try discriminate. eauto. Qed.
Definition classes_ok : bool :=
  forallb (fun c => String.eqb c "forced_unwind" || String.eqb c "stack_context" ||
                    existsb (once_ok (defines_class c)) guards) class_names.
Lemma classes_checked : classes_ok = true.
Proof. vm_compute. reflexivity. Qed.

Definition named_ok : bool :=
  forallb (fun x => match snd x with
                    | Some es => negb (undefs "" es) &&
                        forallb (fun e => match class_of e with Some c => existsb (String.eqb c) class_names | None => true end) es
                    | None => true end) table.
Lemma named_checked : named_ok = true.
Proof. vm_compute. reflexivity. Qed.
Local Opaque class_names guards.

(** Whatever headers a program includes, in any order and however often, under any macros:
    no class is defined twice, [forced_unwind] and [stack_context] excepted. *)
Theorem C59_defined_once q d hs ls x :
  x <> "forced_unwind" -> x <> "stack_context" ->
  unit_lines q d hs = Some ls -> (occurrences (defines_class x) ls <= 1)%nat.
Proof.
  intros N1 N2 E. pose proof classes_checked as CHK. unfold classes_ok in CHK. rewrite forallb_forall in CHK.
  destruct (in_dec string_dec x class_names) as [J|J].
  - specialize (CHK x J). apply orb_true_iff in CHK as [CHK|CHK].
    + apply orb_true_iff in CHK as [CHK|CHK]; apply String.eqb_eq in CHK; contradiction.
    + apply existsb_exists in CHK as (G & _ & H). exact (unit_once q d hs ls _ G (class_lines x) H E).
  - apply (unit_once q d hs ls (defines_class x) "" (class_lines x)); [|exact E].
    pose proof named_checked as C. unfold named_ok in C.
    unfold once_ok. rewrite forallb_forall in *. intros [h [es|]] I; [|reflexivity]. specialize (C _ I). cbn [snd] in *.
    apply andb_true_iff in C as [C1 C2].
    assert (Z : lines_in (defines_class x) es = O).
    { rewrite forallb_forall in C2. clear - J C2. induction es as [|e es IH]; [reflexivity|].
      unfold lines_in in *. cbn [filter]. destruct (defines_class x e) eqn:DC.
      - exfalso. specialize (C2 e (or_introl eq_refl)). unfold defines_class in DC. destruct (class_of e) as [c|]; [|discriminate].
        apply String.eqb_eq in DC as <-. apply existsb_exists in C2 as (y & I & C2). apply String.eqb_eq in C2 as <-. contradiction.
      - apply IH. intros y I. apply C2. right. exact I. }
    unfold file_ok. rewrite C1, Z. cbn [andb Nat.eqb].
    destruct es as [|[| | |[[]|[[]| | | |]| | |]| | | | | |] [|[]]]; rewrite ?orb_true_r; reflexivity.
Qed.

(** ** What can be said when a few macros are known *)

Definition known (K : list (string * bool)) : string -> option bool := fun x => lookup x K.
Definition some_true (v : option bool) : bool := match v with Some true => true | _ => false end.
Definition some_false (v : option bool) : bool := match v with Some false => true | _ => false end.
Definition is_inc (f : string) (e : pev) : bool := match e with XInc g => String.eqb g f | _ => false end.
Definition tri_ok (K : list (string * bool)) (bad : pev -> bool) (good : list (string * string)) (h : string) : bool :=
  match lookup h table with
  | Some (Some es) =>
      match pp (A := tris) (fun _ => None) table 9 (known K) (Some true) es with
      | Some (D', o) =>
          forallb (fun x => match D' (fst x) with Some b => Bool.eqb b (snd x) | None => false end) K &&
          forallb (fun x => some_false (fst x) || negb (bad (snd x))) o &&
          forallb (fun g => negb (String.eqb (fst g) h) || existsb (fun x => some_true (fst x) && is_inc (snd g) (snd x)) o) good &&
          negb (bad (XInc h))
      | None => false
      end
  | _ => false
  end.
Definition agrees (d : string -> bool) (K : list (string * bool)) : Prop := forall x b, In (x, b) K -> d x = b.

Lemma tri_file q d K bad good h : tri_ok K bad good h = true -> agrees d K ->
  exists es D' o, lookup h table = Some (Some es) /\ pp (A := bools) q table 9 d true es = Some (D', o) /\ agrees D' K /\
    (forall e, In (true, e) o -> bad e = false) /\ (forall f, In (h, f) good -> In (true, XInc f) o) /\ bad (XInc h) = false.
Proof.
  unfold tri_ok. intros CHK AG. destruct (lookup h table) as [[es|]|]; [|discriminate|discriminate].
  destruct (pp (A := tris) (fun _ => None) table 9 (known K) (Some true) es) as [[D o]|] eqn:E; [|discriminate].
  apply andb_true_iff in CHK as [CHK C4]. apply andb_true_iff in CHK as [CHK C3]. apply andb_true_iff in CHK as [C1 C2].
  pose proof (pp_related tris bools _ tris_bools (fun _ => None) q table ltac:(discriminate) 9 (known K) d (Some true) true es) as R.
  rewrite E in R.
  assert (RK : forall x v, known K x = Some v -> v = d x).
  { intros x v H. symmetry. apply AG. unfold known in H. revert H. clear.
    induction K as [|[k w] l IH]; cbn [lookup]; [discriminate|].
    destruct (String.eqb k x) eqn:E; [apply String.eqb_eq in E as ->; intros [= ->]; left; reflexivity|right; auto]. }
  specialize (R RK ltac:(congruence)).
  destruct (pp (A := bools) q table 9 d true es) as [[D1 o1]|] eqn:EB; [|contradiction]. cbn in R. destruct R as [R1 R2].
  exists es, D1, o1. split; [reflexivity|]. split; [exact EB|]. split; [|split; [|split]].
  - intros x b J. rewrite forallb_forall in C1. specialize (C1 _ J). cbn [fst snd] in C1.
    destruct (D x) as [c|] eqn:DX; [|discriminate]. apply eqb_prop in C1 as ->. symmetry. apply R1, DX.
  - intros e J. rewrite forallb_forall in C2. clear - J C2 R2.
    induction R2 as [|[u e1] [v e2] l l' [H1 H2] R2 IH]; [contradiction|]. cbn [fst snd] in *. subst e2.
    destruct J as [[= -> ->]|J]; [|apply IH; [intros y I; apply C2; right; exact I|exact J]].
    specialize (C2 _ (or_introl eq_refl)). cbn [fst snd] in C2. destruct (bad e); [|reflexivity].
    destruct u as [[]|]; try discriminate. specialize (H1 false eq_refl). discriminate.
  - intros f J. rewrite forallb_forall in C3. specialize (C3 _ J). cbn [fst snd] in C3. rewrite String.eqb_refl in C3. cbn in C3.
    clear - C3 R2. induction R2 as [|[u e1] [v e2] l l' [H1 H2] R2 IH]; [discriminate|]. cbn [fst snd existsb] in *. subst e2.
    apply orb_true_iff in C3 as [C3|C3]; [left|right; auto].
    apply andb_true_iff in C3 as [U F]. destruct u as [[]|]; try discriminate. rewrite (H1 true eq_refl).
    destruct e1; try discriminate. cbn in F. apply String.eqb_eq in F as ->. reflexivity.
  - apply negb_true_iff, C4.
Qed.
Lemma tri_unit q K bad good hl : forallb (tri_ok K bad good) hl = true -> forall hs d, incl hs hl -> agrees d K ->
  exists ls, unit_lines q d hs = Some ls /\ (forall e, In e ls -> bad e = false) /\
             (forall h f, In h hs -> In (h, f) good -> In (XInc f) ls).
Proof.
  intros CHK. unfold unit_lines, preprocess. rewrite table_eq. rewrite forallb_forall in CHK.
  intros hs d HI AG.
  cut (exists D' o, pp (A := bools) q table 10 d true (unit_of hs) = Some (D', o) /\ (forall e, In (true, e) o -> bad e = false) /\
                    (forall h f, In h hs -> In (h, f) good -> In (true, XInc f) o)).
  { intros (D' & o & E & H1 & H2). rewrite E. eexists. split; [reflexivity|]. split.
    - intros e J. apply in_map_iff in J as ([v e'] & <- & J). apply filter_In in J as [J F]. cbn in F. subst v. apply H1, J.
    - intros h f J J'. apply in_map_iff. exists (true, XInc f). split; [reflexivity|]. apply filter_In. split; [eapply H2; eassumption|reflexivity]. }
  revert d AG. induction hs as [|h hs IH]; intros d AG.
  - exists d, []. split; [reflexivity|]. split; [intros e []|intros h f []].
  - destruct (tri_file q d K bad good h (CHK h (HI h (or_introl eq_refl))) AG) as (es & D1 & o1 & EL & E1 & AG1 & B1 & G1 & BH).
    destruct (IH (fun x J => HI x (or_intror J)) D1 AG1) as (D' & o & E2 & B2 & G2).
    exists D', (((true, XInc h) :: o1) ++ o). split.
    + cbn [unit_of map]. rewrite (pp_inc _ _ _ 9 _ _ _ _ _ EL), E1. unfold unit_of in E2. rewrite E2. reflexivity.
    + split.
      * intros e [[= <-]|J]; [exact BH|]. apply in_app_or in J as [J|J]; [apply B1, J|apply B2, J].
      * intros h' f [<-|J] J'; [right; apply in_or_app; left; apply G1, J'|right; apply in_or_app; right; eapply G2; eassumption].
Qed.

(** ** Which implementation *)

Definition publics : list string := Eval vm_compute in filter public (map fst table).
Definition unchosen (b : string) (e : pev) : bool :=
  existsb (fun k => existsb (fun c => negb (String.eqb c b) && is_inc (impl_header k c) e) backends) kinds.
Definition chosen (b : string) : list (string * string) := map (fun k => (front k, impl_header k b)) kinds.
Definition choices : list (list (string * bool) * string) :=
  [([("__CYGWIN__", false); ("BOOST_USE_UCONTEXT", true)], "ucontext");
   ([("__CYGWIN__", false); ("BOOST_USE_UCONTEXT", false); ("BOOST_USE_WINFIB", true)], "winfib");
   ([("__CYGWIN__", false); ("BOOST_USE_UCONTEXT", false); ("BOOST_USE_WINFIB", false)], "fcontext")].
Lemma choices_checked :
  forallb (fun c => forallb (tri_ok (fst c) (unchosen (snd c)) (chosen (snd c))) publics) choices = true.
Proof. vm_compute. reflexivity. Qed.

Lemma publics_checked : forallb (fun x => negb (public (fst x)) || existsb (String.eqb (fst x)) publics) headers = true.
Proof. vm_compute. reflexivity. Qed.
Local Opaque publics headers.
Lemma public_in h : public h = true -> In h publics.
Proof.
  intros H. pose proof publics_checked as C.
  rewrite forallb_forall in C. pose proof H as H0. unfold public in H. apply andb_true_iff in H as [H _].
  apply existsb_exists in H as ([k t] & I & E). cbn in E. apply String.eqb_eq in E as ->.
  specialize (C _ I). cbn [fst] in C. rewrite H0 in C. cbn in C.
  apply existsb_exists in C as (y & J & E). apply String.eqb_eq in E as ->. exact J.
Qed.

(** Whatever public headers a program includes, in any order and however often, and whatever
    other macros are defined: the implementation that it gets is that which the macros ask
    for, and none of the other two; except with a compiler for Cygwin. *)
Theorem C59_backend q d hs :
  (forall h, In h hs -> public h = true) -> d "__CYGWIN__" = false ->
  exists ls, unit_lines q d hs = Some ls /\
  (forall k b, In k kinds -> In b backends -> In (XInc (impl_header k b)) ls -> b = backend d) /\
  (forall k, In k kinds -> In (front k) hs -> In (XInc (impl_header k (backend d))) ls).
Proof.
  intros PU CY. pose proof choices_checked as CHK. rewrite forallb_forall in CHK.
  assert (X : exists K, In (K, backend d) choices /\ agrees d K).
  { unfold backend. destruct (d "BOOST_USE_UCONTEXT") eqn:U; [|destruct (d "BOOST_USE_WINFIB") eqn:W].
    - eexists; split; [left; reflexivity|]. intros x b [[= <- <-]|[[= <- <-]|[]]]; assumption.
    - eexists; split; [right; left; reflexivity|]. intros x b [[= <- <-]|[[= <- <-]|[[= <- <-]|[]]]]; assumption.
    - eexists; split; [right; right; left; reflexivity|]. intros x b [[= <- <-]|[[= <- <-]|[[= <- <-]|[]]]]; assumption. }
  destruct X as (K & I & AG). specialize (CHK _ I). cbn [fst snd] in CHK.
  destruct (tri_unit q K _ _ publics CHK hs d) as (ls & E & H1 & H2); [intros h J; apply public_in, PU, J|exact AG|].
  exists ls. split; [exact E|]. split.
  - intros k b Ik Ib J. destruct (string_dec b (backend d)) as [->|N]; [reflexivity|]. exfalso.
    specialize (H1 _ J). unfold unchosen in H1.
    assert (T : existsb (fun k' => existsb (fun c => negb (String.eqb c (backend d)) && is_inc (impl_header k' c) (XInc (impl_header k b))) backends) kinds = true).
    { apply existsb_exists. exists k. split; [exact Ik|]. apply existsb_exists. exists b. split; [exact Ib|].
      apply String.eqb_neq in N. rewrite N. cbn. apply String.eqb_refl. }
    rewrite T in H1. discriminate.
  - intros k Ik J. apply (H2 (front k)); [exact J|]. unfold chosen. change (front k, impl_header k (backend d)) with ((fun k => (front k, impl_header k (backend d))) k).
    apply in_map, Ik.
Qed.

(** ** default_stack *)

Definition stack_line (y : string) (e : pev) : bool :=
  defines_stack e && match e with XLine (_ :: Id z :: _) => String.eqb y z | _ => false end.
Lemma stack_lines y e : stack_line y e = true -> exists ts, e = XLine ts.
Proof. unfold stack_line, defines_stack. destruct e; try discriminate. eauto. Qed.
Definition SEG := "BOOST_USE_SEGMENTED_STACKS".
Definition not_stack (y : string) (e : pev) : bool := defines_stack e && negb (stack_line y e).
Lemma stacks_checked :
  once_ok (stack_line "fixedsize_stack") "BOOST_CONTEXT_FIXEDSIZE_H" &&
  once_ok (stack_line "segmented_stack") "BOOST_CONTEXT_SEGMENTED_H" &&
  forallb (tri_ok [(SEG, false)] (not_stack "fixedsize_stack") []) publics &&
  forallb (tri_ok [(SEG, true)] (not_stack "segmented_stack") []) publics = true.
Proof. vm_compute. reflexivity. Qed.

Lemma stack_name (d : string -> bool) q hs ls : (forall h, In h hs -> public h = true) -> unit_lines q d hs = Some ls ->
  occurrences defines_stack ls = occurrences (stack_line (if d SEG then "segmented_stack" else "fixedsize_stack")) ls /\
  (occurrences defines_stack ls <= 1)%nat.
Proof.
  intros PU E. pose proof stacks_checked as CHK.
  apply andb_true_iff in CHK as [CHK C4]. apply andb_true_iff in CHK as [CHK C3]. apply andb_true_iff in CHK as [C1 C2].
  assert (HI : incl hs publics) by (intros h J; apply public_in, PU, J).
  assert (X : forall y, (forall e, In e ls -> not_stack y e = false) -> occurrences defines_stack ls = occurrences (stack_line y) ls).
  { clear. intros y H. unfold occurrences. f_equal. induction ls as [|e ls IH]; [reflexivity|]. cbn [filter].
    rewrite IH by (intros; apply H; right; assumption). specialize (H e (or_introl eq_refl)). unfold not_stack in H.
    destruct (defines_stack e) eqn:DE; cbn in H.
    - apply negb_false_iff in H. rewrite H. reflexivity.
    - unfold stack_line. rewrite DE. reflexivity. }
  destruct (d SEG) eqn:DS.
  - destruct (tri_unit q _ _ _ publics C4 hs d HI) as (ls' & E' & H1 & _).
    { intros x b [[= <- <-]|[]]. exact DS. }
    rewrite E in E'. injection E' as <-. rewrite (X "segmented_stack" H1). split; [reflexivity|].
    exact (unit_once q d hs ls _ _ (stack_lines _) C2 E).
  - destruct (tri_unit q _ _ _ publics C3 hs d HI) as (ls' & E' & H1 & _).
    { intros x b [[= <- <-]|[]]. exact DS. }
    rewrite E in E'. injection E' as <-. rewrite (X "fixedsize_stack" H1). split; [reflexivity|].
    exact (unit_once q d hs ls _ _ (stack_lines _) C1 E).
Qed.

(** a line that appears with the first of some headers; [Z]: the macros that are not defined until then *)
Definition zero (Z : list string) : list (string * bool) := map (fun z => (z, false)) Z.
Definition arrive_ok (K : list (string * bool)) (Z : list string) (L : pev -> bool) (fr : list string) (h : string) : bool :=
  match lookup h table with
  | Some (Some es) =>
      match pp (A := tris) (fun _ => None) table 9 (known (K ++ zero Z)) (Some true) es with
      | Some (D', o) =>
          forallb (fun x => match D' (fst x) with Some b => Bool.eqb b (snd x) | None => false end) K &&
          (forallb (fun z => some_false (D' z)) Z && negb (existsb (String.eqb h) fr) ||
           existsb (fun x => some_true (fst x) && L (snd x)) o)
      | None => false
      end
  | _ => false
  end.
Lemma known_ok (K : list (string * bool)) (d : string -> bool) : agrees d K -> forall x v, known K x = Some v -> v = d x.
Proof.
  intros AG x v H. symmetry. apply AG. unfold known in H. revert H. clear.
  induction K as [|[k w] l IH]; cbn [lookup]; [discriminate|].
  destruct (String.eqb k x) eqn:E; [apply String.eqb_eq in E as ->; intros [= ->]; left; reflexivity|right; auto].
Qed.
Lemma occurrences_app L a b : occurrences L (a ++ b) = (occurrences L a + occurrences L b)%nat.
Proof. unfold occurrences. rewrite filter_app, app_length. reflexivity. Qed.

Lemma arrive_unit q K Z L fr hl : (forall e, L e = true -> exists ts, e = XLine ts) ->
  forallb (arrive_ok K Z L fr) hl = true -> forall hs d ls,
  incl hs hl -> agrees d K -> (forall z, In z Z -> d z = false) -> (exists h, In h hs /\ In h fr) ->
  unit_lines q d hs = Some ls -> (1 <= occurrences L ls)%nat.
Proof.
  intros LX CHK. unfold unit_lines, preprocess. rewrite table_eq. rewrite forallb_forall in CHK.
  intros hs d ls HI AG HZ FR. destruct (pp (A := bools) q table 10 d true (unit_of hs)) as [[D' o]|] eqn:E; [|discriminate].
  intros [= <-]. rewrite live_cnt. revert d o E AG HZ. induction hs as [|h hs IH]; intros d o E AG HZ.
  { destruct FR as (h & [] & _). }
  pose proof (CHK h (HI h (or_introl eq_refl))) as C. unfold arrive_ok in C.
  destruct (lookup h table) as [[es|]|] eqn:EL; [|discriminate|discriminate].
  cbn [unit_of map] in E. rewrite (pp_inc _ _ _ 9 _ _ _ _ _ EL) in E.
  destruct (pp (A := tris) (fun _ => None) table 9 (known (K ++ zero Z)) (Some true) es) as [[T t]|] eqn:ET; [|discriminate].
  pose proof (pp_related tris bools _ tris_bools (fun _ => None) q table ltac:(discriminate) 9 (known (K ++ zero Z)) d (Some true) true es) as R.
  rewrite ET in R.
  assert (AG2 : agrees d (K ++ zero Z)).
  { intros x b J. apply in_app_or in J as [J|J]; [apply AG, J|]. apply in_map_iff in J as (z & [= <- <-] & J). apply HZ, J. }
  specialize (R (known_ok _ _ AG2) ltac:(congruence)).
  destruct (pp (A := bools) q table 9 d true es) as [[D1 o1]|] eqn:EB; [|contradiction]. cbn in R. destruct R as [R1 R2].
  destruct (pp (A := bools) q table 10 D1 true (map XInc hs)) as [[D2 o2]|] eqn:E2; [|discriminate]. injection E as <- <-.
  change ((true, XInc h) :: o1 ++ o2) with (((true, XInc h) :: o1) ++ o2). rewrite cnt_app, cnt_cons.
  apply andb_true_iff in C as [C1 C2]. apply orb_true_iff in C2 as [C2|C2].
  - apply andb_true_iff in C2 as [C2 C3]. rewrite forallb_forall in C1, C2.
    assert (cnt L o2 >= 1)%nat; [|lia].
    apply (IH (fun x J => HI x (or_intror J))) with (d := D1); [|exact E2| |].
    + destruct FR as (g & [<-|J] & F); [|eauto]. exfalso. apply negb_true_iff in C3.
      assert (T1 : existsb (String.eqb h) fr = true) by (apply existsb_exists; exists h; split; [exact F|apply String.eqb_refl]).
      congruence.
    + intros x b J. specialize (C1 _ J). cbn [fst snd] in C1. destruct (T x) as [c|] eqn:DX; [|discriminate].
      apply eqb_prop in C1 as ->. symmetry. apply R1, DX.
    + intros z J. specialize (C2 _ J). destruct (T z) as [[]|] eqn:DX; try discriminate. symmetry. apply R1, DX.
  - assert (cnt L o1 >= 1)%nat; [|lia].
    clear - C2 R2. induction R2 as [|[u e1] [v e2] l l' [H1 H2] R2 IH]; [discriminate|].
    cbn [fst snd existsb] in *. subst e2. rewrite cnt_cons. apply orb_true_iff in C2 as [C2|C2]; [|specialize (IH C2); lia].
    apply andb_true_iff in C2 as [U F]. destruct u as [[]|]; try discriminate. rewrite <- (H1 true eq_refl), F. cbn. lia.
Qed.

Definition stack_cases : list (list (string * bool) * string) :=
  map (fun c => ((SEG, false) :: fst c, "fixedsize_stack")) choices ++
  map (fun c => ((SEG, true) :: ("BOOST_WINDOWS", false) :: fst c, "segmented_stack"))
    (filter (fun c => negb (String.eqb (snd c) "winfib")) choices).
Definition stack_guards (y : string) : list string :=
  ["BOOST_CONTEXT_FIBER_H"; "BOOST_CONTEXT_CONTINUATION_H";
   if String.eqb y "fixedsize_stack" then "BOOST_CONTEXT_FIXEDSIZE_H" else "BOOST_CONTEXT_SEGMENTED_H"].
Lemma arrivals_checked :
  forallb (fun c => forallb (arrive_ok (fst c) (stack_guards (snd c)) (stack_line (snd c)) (map front kinds)) publics) stack_cases = true.
Proof. vm_compute. reflexivity. Qed.
