(** List update and weighted sums, used by the counting invariants. *)
From Coq Require Import List Arith Lia.
Import ListNotations.

Fixpoint upd {A} (l : list A) (n : nat) (x : A) : list A :=
  match l, n with
  | [], _ => []
  | _ :: r, O => x :: r
  | y :: r, S m => y :: upd r m x
  end.

Fixpoint sumf {A} (f : A -> nat) (l : list A) : nat :=
  match l with [] => 0 | x :: r => f x + sumf f r end.

Lemma upd_length {A} (l : list A) n x : length (upd l n x) = length l.
Proof. revert n; induction l as [|y l IH]; intros [|n]; cbn; auto. Qed.

Lemma nth_upd_eq {A} (l : list A) n x y :
  nth_error l n = Some y -> nth_error (upd l n x) n = Some x.
Proof. revert n; induction l as [|z l IH]; intros [|n] H; cbn in *; try discriminate; auto. Qed.

Lemma nth_upd_lt {A} (l : list A) n x :
  n < length l -> nth_error (upd l n x) n = Some x.
Proof. revert n; induction l as [|z l IH]; intros [|n] H; cbn in *; try lia; auto; apply IH; lia. Qed.

Lemma nth_upd_ne {A} (l : list A) n m x :
  n <> m -> nth_error (upd l n x) m = nth_error l m.
Proof.
  revert n m; induction l as [|z l IH]; intros [|n] [|m] H; cbn in *; try lia; auto.
Qed.

Lemma nth_upd {A} (l : list A) n m x :
  nth_error (upd l n x) m =
    if Nat.eqb n m then (if Nat.ltb n (length l) then Some x else None) else nth_error l m.
Proof.
  destruct (Nat.eqb_spec n m) as [->|H]; [|now apply nth_upd_ne].
  destruct (Nat.ltb_spec m (length l)) as [Hl|Hl]; [now apply nth_upd_lt|].
  apply nth_error_None. now rewrite upd_length.
Qed.

Lemma sumf_app {A} (f : A -> nat) l r : sumf f (l ++ r) = sumf f l + sumf f r.
Proof. induction l as [|x l IH]; cbn; [reflexivity|rewrite IH; lia]. Qed.

Lemma sumf_upd {A} (f : A -> nat) l n x y :
  nth_error l n = Some y -> sumf f (upd l n x) + f y = sumf f l + f x.
Proof.
  revert n; induction l as [|z l IH]; intros [|n] H; cbn in *; try discriminate.
  - injection H as ->. lia.
  - specialize (IH _ H). lia.
Qed.

Lemma sumf_le {A} (f : A -> nat) l n y : nth_error l n = Some y -> f y <= sumf f l.
Proof.
  revert n; induction l as [|z l IH]; intros [|n] H; cbn in *; try discriminate.
  - injection H as ->. lia.
  - specialize (IH _ H). lia.
Qed.

Lemma sumf_le2 {A} (f : A -> nat) l n m x y :
  n <> m -> nth_error l n = Some x -> nth_error l m = Some y -> f x + f y <= sumf f l.
Proof.
  revert n m; induction l as [|z l IH]; intros [|n] [|m] Hn Hx Hy; cbn in *; try discriminate; try lia.
  - injection Hx as ->. pose proof (sumf_le f l m y Hy). lia.
  - injection Hy as ->. pose proof (sumf_le f l n x Hx). lia.
  - specialize (IH n m ltac:(lia) Hx Hy). lia.
Qed.

Lemma sumf_zero {A} (f : A -> nat) l : sumf f l = 0 <-> forall x, In x l -> f x = 0.
Proof.
  induction l as [|z l IH]; cbn; [split; [intros _ x []|reflexivity]|].
  split.
  - intros H x [<-|Hx]; [lia|apply IH; [lia|exact Hx]].
  - intros H. rewrite (H z (or_introl eq_refl)), (proj2 IH); auto.
Qed.

Lemma sumf_pos {A} (f : A -> nat) l :
  0 < sumf f l -> exists n x, nth_error l n = Some x /\ 0 < f x.
Proof.
  induction l as [|z l IH]; cbn; [lia|]. intros H.
  destruct (Nat.eq_dec (f z) 0) as [E|E].
  - destruct IH as [n [x [Hn Hx]]]; [lia|]. exists (S n), x; auto.
  - exists 0, z. split; [reflexivity|lia].
Qed.

Lemma sumf_ext {A} (f g : A -> nat) l : (forall x, In x l -> f x = g x) -> sumf f l = sumf g l.
Proof. induction l as [|z l IH]; cbn; intros H; [reflexivity|]. rewrite H, IH; auto. Qed.

Lemma nth_app_last {A} (l : list A) x : nth_error (l ++ [x]) (length l) = Some x.
Proof. rewrite nth_error_app2, Nat.sub_diag by lia. reflexivity. Qed.

Lemma nth_app_cases {A} (l : list A) x n y :
  nth_error (l ++ [x]) n = Some y -> (n < length l /\ nth_error l n = Some y) \/ (n = length l /\ y = x).
Proof.
  intros H. destruct (Nat.lt_ge_cases n (length l)) as [Hl|Hl].
  - left. rewrite nth_error_app1 in H; auto.
  - right. rewrite nth_error_app2 in H by lia.
    assert (Hs : n < length (l ++ [x])).
    { apply nth_error_Some. rewrite nth_error_app2 by lia. congruence. }
    rewrite app_length in Hs; cbn in Hs. assert (n = length l) by lia. subst n.
    rewrite Nat.sub_diag in H. cbn in H. split; congruence.
Qed.

Lemma nth_some_lt {A} (l : list A) n x : nth_error l n = Some x -> n < length l.
Proof. intros H. apply nth_error_Some. congruence. Qed.
