(** * A machine for the assembler layer

    The files in src/asm implement three functions, [jump_fcontext],
    [ontop_fcontext] and [make_fcontext], in the assembly language of each
    supported processor.  They are straight-line code over a small repertoire
    (move, add, mask, load, store, indirect jump), so one machine with named
    registers of individual widths, byte memory and a byte-order flag can run
    all of them.  This file defines that machine; the transcribed code is in
    AsmCode.v.

    Simplifications: instruction encodings, condition flags and caches are not
    modelled; memory has no page protection, but an access that would wrap
    around the end of the address space is a fault. *)
From Coq Require Import ZArith List String Lia Bool.
Import ListNotations.
Open Scope Z_scope.

(** ** Parameters of a processor *)

Record cpu := Cpu {
  cwb : Z;                       (* bytes in a machine word *)
  cbig : bool;                   (* most significant byte first? *)
  cwidth : list (string * Z)     (* registers that are not a word wide *)
}.

Fixpoint assoc {A} (l : list (string * A)) (x : string) : option A :=
  match l with
  | [] => None
  | (y, v) :: t => if String.eqb x y then Some v else assoc t x
  end.

(** bytes in a register *)
Definition rw (P : cpu) (r : string) : Z :=
  match assoc (cwidth P) r with Some n => n | None => cwb P end.

(** number of addresses *)
Definition space (P : cpu) : Z := 256 ^ (cwb P).

(** ** Machine states *)

Record mst := St { rg : string -> Z; mm : Z -> Z }.

Definition set_reg (P : cpu) (s : mst) (d : string) (v : Z) : mst :=
  St (fun r => if String.eqb r d then v mod 256 ^ (rw P d) else rg s r) (mm s).

(** byte [i] of the [n]-byte representation of [v] *)
Definition byte_of (big : bool) (n v i : Z) : Z :=
  (v / 256 ^ (if big then n - 1 - i else i)) mod 256.

Definition store (big : bool) (m : Z -> Z) (a n v : Z) : Z -> Z :=
  fun x => if (a <=? x) && (x <? a + n) then byte_of big n v (x - a) else m x.

Fixpoint load_le (m : Z -> Z) (a : Z) (n : nat) : Z :=
  match n with O => 0 | S k => m a + 256 * load_le m (a + 1) k end.

Fixpoint load_be (m : Z -> Z) (a : Z) (n : nat) : Z :=
  match n with O => 0 | S k => m a * 256 ^ Z.of_nat k + load_be m (a + 1) k end.

Definition load (big : bool) (m : Z -> Z) (a n : Z) : Z :=
  if big then load_be m a (Z.to_nat n) else load_le m a (Z.to_nat n).

(** A state is well formed if memory holds bytes and registers hold values of
    their width. *)
Definition wf (P : cpu) (s : mst) : Prop :=
  (forall a, 0 <= mm s a < 256) /\ (forall r, 0 <= rg s r < 256 ^ (rw P r)).

(** ** Instructions *)

Inductive instr :=
| Mov (d s : string)              (* d := s *)
| Add (d s : string) (k : Z)      (* d := s + k      (lea, add, sub)     *)
| And (d s : string) (k : Z)      (* d := s & k                          *)
| Sub (d s r : string)            (* d := s - r                          *)
| Li (d : string) (k : Z)         (* d := k                              *)
| La (d : string) (l : string)    (* d := address of label l             *)
| Ld (n : Z) (d b : string) (o : Z)   (* d := n bytes at b + o           *)
| Sto (n : Z) (s b : string) (o : Z)  (* n bytes at b + o := s           *)
| Addz (c d s : string) (k : Z)   (* if c = 0 then d := s + k            *)
| Stonz (c : string) (n : Z) (s b : string) (o : Z)  (* if c <> 0 then n bytes at b + o := s *)
| Nonz (c : string)               (* if c = 0: a branch that is not modelled *)
| Sal (d : string) (k : Z)        (* d := d << k                         *)
| Or (d s : string)               (* d := d | s                          *)
| Need (r : string) (l : string)  (* fault unless r = address of l       *)
| Go (r : string)                 (* continue at the address in r        *)
| Exit (r : string).              (* call _exit with status r            *)

Inductive outcome :=
| Goto (pc : Z) (s : mst)
| Exited (code : Z)
| Stuck.

(** The address of an access of [n] bytes at [b + o]; [None] (a fault) if it
    wraps.  The only 16-byte accesses in src/asm are [movaps], which fault
    unless the address is a multiple of 16. *)
Definition ea (P : cpu) (s : mst) (b : string) (o n : Z) : option Z :=
  let a := (rg s b + o) mod space P in
  if (a + n <=? space P) && ((n <? 16) || (a mod 16 =? 0)) then Some a else None.

Section Run.
  Variable P : cpu.
  Variable L : string -> Z.        (* where the labels were loaded *)

  Definition step1 (i : instr) (s : mst) : option mst :=
    match i with
    | Mov d r => Some (set_reg P s d (rg s r))
    | Add d r k => Some (set_reg P s d ((rg s r + k) mod space P))
    | And d r k => Some (set_reg P s d (Z.land (rg s r) (k mod space P)))
    | Sub d r r' => Some (set_reg P s d ((rg s r - rg s r') mod space P))
    | Li d k => Some (set_reg P s d (k mod space P))
    | La d l => Some (set_reg P s d (L l))
    | Ld n d b o =>
        match ea P s b o n with
        | Some a => Some (set_reg P s d (load (cbig P) (mm s) a n))
        | None => None
        end
    | Sto n r b o =>
        match ea P s b o n with
        | Some a => Some (St (rg s) (store (cbig P) (mm s) a n (rg s r)))
        | None => None
        end
    | Addz c d r k =>
        if rg s c =? 0 then Some (set_reg P s d ((rg s r + k) mod space P)) else Some s
    | Stonz c n r b o =>
        if rg s c =? 0 then Some s else
        match ea P s b o n with
        | Some a => Some (St (rg s) (store (cbig P) (mm s) a n (rg s r)))
        | None => None
        end
    | Nonz c => if rg s c =? 0 then None else Some s
    | Sal d k => Some (set_reg P s d (rg s d * 2 ^ k))
    | Or d r => Some (set_reg P s d (Z.lor (rg s d) (rg s r)))
    | Need r l => if rg s r =? L l then Some s else None
    | Go _ | Exit _ => None
    end.

  Fixpoint run (c : list instr) (s : mst) : outcome :=
    match c with
    | [] => Stuck
    | Go r :: _ => Goto (rg s r) s
    | Exit r :: _ => Exited (rg s r)
    | i :: t => match step1 i s with Some s' => run t s' | None => Stuck end
    end.
End Run.

(** ** Loads and stores *)

Lemma load_le_bound m a n : (forall x, 0 <= m x < 256) -> 0 <= load_le m a n < 256 ^ Z.of_nat n.
Proof.
  intros H. revert a. induction n as [|n IH]; intros a; [simpl; lia|].
  rewrite Nat2Z.inj_succ, Z.pow_succ_r by lia. cbn [load_le].
  specialize (IH (a + 1)). specialize (H a). lia.
Qed.

Lemma load_be_bound m a n : (forall x, 0 <= m x < 256) -> 0 <= load_be m a n < 256 ^ Z.of_nat n.
Proof.
  intros H. revert a. induction n as [|n IH]; intros a; [simpl; lia|].
  rewrite Nat2Z.inj_succ, Z.pow_succ_r by lia. cbn [load_be].
  specialize (IH (a + 1)). specialize (H a). nia.
Qed.

Lemma load_bound big m a n : 0 <= n -> (forall x, 0 <= m x < 256) -> 0 <= load big m a n < 256 ^ n.
Proof.
  intros N H. unfold load.
  pose proof (load_le_bound m a (Z.to_nat n) H).
  pose proof (load_be_bound m a (Z.to_nat n) H).
  rewrite Z2Nat.id in * by lia. destruct big; lia.
Qed.

Lemma load_le_ext m m' a n :
  (forall x, a <= x < a + Z.of_nat n -> m x = m' x) -> load_le m a n = load_le m' a n.
Proof.
  revert a. induction n as [|n IH]; intros a H; [reflexivity|]. cbn [load_le].
  rewrite (H a) by lia. rewrite (IH (a + 1)); [reflexivity|]. intros; apply H; lia.
Qed.

Lemma load_be_ext m m' a n :
  (forall x, a <= x < a + Z.of_nat n -> m x = m' x) -> load_be m a n = load_be m' a n.
Proof.
  revert a. induction n as [|n IH]; intros a H; [reflexivity|]. cbn [load_be].
  rewrite (H a) by lia. rewrite (IH (a + 1)); [reflexivity|]. intros; apply H; lia.
Qed.

Lemma load_ext big m m' a n :
  (forall x, a <= x < a + n -> m x = m' x) -> load big m a n = load big m' a n.
Proof.
  intros H. unfold load. destruct (Z.le_gt_cases 0 n).
  - destruct big; [apply load_be_ext|apply load_le_ext]; intros x X; apply H; lia.
  - replace (Z.to_nat n) with O by lia. destruct big; reflexivity.
Qed.

Lemma load_le_bytes v m a n :
  (forall i, 0 <= i < Z.of_nat n -> m (a + i) = (v / 256 ^ i) mod 256) ->
  load_le m a n = v mod 256 ^ Z.of_nat n.
Proof.
  revert v a. induction n as [|n IH]; intros v a H.
  - simpl. rewrite Z.mod_1_r. reflexivity.
  - cbn [load_le]. rewrite (IH (v / 256) (a + 1)).
    + rewrite Nat2Z.inj_succ, Z.pow_succ_r by lia.
      specialize (H 0 ltac:(lia)). rewrite Z.add_0_r, Z.pow_0_r, Z.div_1_r in H. rewrite H.
      rewrite Z.rem_mul_r by (try apply Z.pow_nonzero; lia). lia.
    + intros i I. replace (a + 1 + i) with (a + (i + 1)) by lia. rewrite H by lia.
      rewrite Z.pow_add_r, Z.pow_1_r by lia.
      rewrite Z.div_div by (try apply Z.pow_pos_nonneg; lia). f_equal. f_equal. lia.
Qed.

Lemma load_be_bytes v m a n :
  (forall i, 0 <= i < Z.of_nat n -> m (a + i) = (v / 256 ^ (Z.of_nat n - 1 - i)) mod 256) ->
  load_be m a n = v mod 256 ^ Z.of_nat n.
Proof.
  revert a. induction n as [|n IH]; intros a H.
  - simpl. rewrite Z.mod_1_r. reflexivity.
  - cbn [load_be]. rewrite (IH (a + 1)).
    + specialize (H 0 ltac:(lia)). rewrite Z.add_0_r in H. rewrite H.
      replace (Z.of_nat (S n) - 1 - 0) with (Z.of_nat n) by lia.
      rewrite Nat2Z.inj_succ, Z.pow_succ_r by lia. rewrite (Z.mul_comm 256).
      rewrite (Z.rem_mul_r v) by (try apply Z.pow_nonzero; lia). lia.
    + intros i I. replace (a + 1 + i) with (a + (i + 1)) by lia. rewrite H by lia.
      f_equal. f_equal. f_equal. lia.
Qed.

Lemma load_store_same big m a n v : 0 <= n -> load big (store big m a n v) a n = v mod 256 ^ n.
Proof.
  intros N. unfold load. destruct big.
  - rewrite (load_be_bytes v); [rewrite Z2Nat.id by lia; reflexivity|].
    intros i I. rewrite Z2Nat.id in * by lia. unfold store.
    replace ((a <=? a + i) && (a + i <? a + n)) with true
      by (symmetry; apply andb_true_intro; split; [apply Z.leb_le|apply Z.ltb_lt]; lia).
    unfold byte_of. f_equal. f_equal. f_equal. lia.
  - rewrite (load_le_bytes v); [rewrite Z2Nat.id by lia; reflexivity|].
    intros i I. rewrite Z2Nat.id in * by lia. unfold store.
    replace ((a <=? a + i) && (a + i <? a + n)) with true
      by (symmetry; apply andb_true_intro; split; [apply Z.leb_le|apply Z.ltb_lt]; lia).
    unfold byte_of. f_equal. f_equal. f_equal. lia.
Qed.

Lemma store_out big m a n v x : x < a \/ a + n <= x -> store big m a n v x = m x.
Proof.
  intros H. unfold store. destruct ((a <=? x) && (x <? a + n)) eqn:E; [|reflexivity].
  apply andb_true_iff in E. rewrite Z.leb_le, Z.ltb_lt in E. lia.
Qed.

Lemma store_byte big m a n v x : (forall y, 0 <= m y < 256) -> 0 <= store big m a n v x < 256.
Proof.
  intros H. unfold store. destruct (_ && _); [|apply H]. unfold byte_of. apply Z.mod_pos_bound. lia.
Qed.

Lemma load_store_disj big m a n v b k :
  b + k <= a \/ a + n <= b -> load big (store big m a n v) b k = load big m b k.
Proof. intros H. apply load_ext. intros x X. apply store_out. lia. Qed.
