(** Fixed-width machine words as integers [0 <= x < 2^b].

    Every pointer computation of the modelled code is on [uintptr_t]/[size_t]
    (or, in the assembler layer, on a register), so it is written with an
    explicit wrap modulo [2^b]; [b] is the pointer width (64, or 32 for the
    ILP32 ports).  Nothing here models a particular source line: this is the
    arithmetic of C++ unsigned integers ([basic.fundamental]/2). *)
From Coq Require Import ZArith Lia Bool.
Open Scope Z_scope.

Definition wrap (b x : Z) : Z := x mod 2 ^ b.
Definition wadd (b x y : Z) : Z := wrap b (x + y).
Definition wsub (b x y : Z) : Z := wrap b (x - y).
Definition wmul (b x y : Z) : Z := wrap b (x * y).
(** bitwise complement of an unsigned [b]-bit value *)
Definition wnot (b x : Z) : Z := 2 ^ b - 1 - x.
Definition is_word (b x : Z) : Prop := 0 <= x < 2 ^ b.

Lemma wrap_small b x : 0 <= x < 2 ^ b -> wrap b x = x.
Proof. intros H; unfold wrap; apply Z.mod_small; lia. Qed.

Lemma wrap_word b x : 0 <= b -> is_word b (wrap b x).
Proof. intros Hb; unfold is_word, wrap; apply Z.mod_pos_bound; apply Z.pow_pos_nonneg; lia. Qed.

Lemma wadd_small b x y : 0 <= x + y < 2 ^ b -> wadd b x y = x + y.
Proof. apply wrap_small. Qed.
Lemma wsub_small b x y : 0 <= x - y < 2 ^ b -> wsub b x y = x - y.
Proof. apply wrap_small. Qed.
Lemma wmul_small b x y : 0 <= x * y < 2 ^ b -> wmul b x y = x * y.
Proof. apply wrap_small. Qed.

Lemma wrap_plus_M b x : 0 <= b -> wrap b (x + 2 ^ b) = wrap b x.
Proof.
  intros Hb; unfold wrap.
  replace (x + 2 ^ b) with (x + 1 * 2 ^ b) by ring.
  apply Z_mod_plus_full.
Qed.

Lemma wsub_wadd b x y : 0 <= b -> is_word b x -> wsub b (wadd b x y) y = x.
Proof.
  intros Hb Hx; unfold wsub, wadd, wrap.
  rewrite Zminus_mod_idemp_l. replace (x + y - y) with x by ring.
  apply Z.mod_small; exact Hx.
Qed.

(** Masking with [~(2^k - 1)] rounds down to a multiple of [2^k]. *)
Lemma land_align b k x :
  0 <= k <= b -> is_word b x ->
  Z.land x (wnot b (2 ^ k - 1)) = x - x mod 2 ^ k.
Proof.
  intros Hk Hx; unfold is_word in Hx.
  assert (Hm : wnot b (2 ^ k - 1) = Z.shiftl (Z.ones (b - k)) k).
  { unfold wnot. rewrite Z.shiftl_mul_pow2 by lia. rewrite Z.ones_equiv, <- Z.sub_1_r.
    rewrite Z.mul_sub_distr_r, <- Z.pow_add_r by lia.
    replace (b - k + k) with b by lia. lia. }
  rewrite Hm.
  assert (Hr : x - x mod 2 ^ k = Z.shiftl (Z.shiftr x k) k).
  { rewrite Z.shiftl_mul_pow2, Z.shiftr_div_pow2 by lia.
    rewrite Z.mul_comm. pose proof (Z.div_mod x (2 ^ k)).
    assert (2 ^ k <> 0) by (apply Z.pow_nonzero; lia). lia. }
  rewrite Hr. apply Z.bits_inj'; intros n Hn.
  rewrite Z.land_spec, !Z.shiftl_spec by lia.
  destruct (Z.ltb_spec n k) as [Hlt|Hge].
  - rewrite !(Z.testbit_neg_r _ (n - k)) by lia. apply andb_false_r.
  - rewrite Z.shiftr_spec by lia. replace (n - k + k) with n by lia.
    destruct (Z.ltb_spec n b) as [Hb|Hb].
    + rewrite Z.ones_spec_low by lia. apply andb_true_r.
    + replace (Z.testbit x n) with false; [reflexivity|].
      destruct (Z.eq_dec x 0) as [->|Hnz]; [now rewrite Z.testbit_0_l|].
      symmetry; apply Z.bits_above_log2; [lia|].
      assert (Z.log2 x < b) by (apply Z.log2_lt_pow2; lia). lia.
Qed.

Lemma mod_mul_l x a c : 0 < a -> 0 < c -> (x mod (a * c)) mod a = x mod a.
Proof.
  intros Ha Hc. rewrite Z.rem_mul_r by lia.
  rewrite Z.mul_comm, Z_mod_plus_full. apply Z.mod_mod; lia.
Qed.
