(** CRC-32 as a linear map: facts used by C46 and the hashing theorems. *)
From Verif Require Import Prelude StdModel DecoderModel FormatSpec ReaderSpec.
From Coq Require Import Lia ZifyBool.

Lemma crc_bit_alt c : crc_bit c = Z.lxor (Z.shiftr c 1) (if Z.odd c then crc_poly else 0).
Proof.
  unfold crc_bit. change 2 with (2 ^ 1) at 1 2. rewrite <- Z.shiftr_div_pow2 by lia.
  destruct (Z.odd c); [reflexivity|now rewrite Z.lxor_0_r].
Qed.
Lemma crc_bit_lxor a b : crc_bit (Z.lxor a b) = Z.lxor (crc_bit a) (crc_bit b).
Proof.
  rewrite !crc_bit_alt, Z.shiftr_lxor. rewrite <- !Z.bit0_odd, Z.lxor_spec, !Z.bit0_odd.
  set (x := Z.shiftr a 1). set (y := Z.shiftr b 1). apply Z.bits_inj'. intros n Hn. rewrite !Z.lxor_spec.
  destruct (Z.odd a), (Z.odd b); cbn [xorb]; rewrite ?Z.bits_0; destruct (Z.testbit x n), (Z.testbit y n), (Z.testbit crc_poly n); reflexivity.
Qed.
Lemma crc_bit_double x : crc_bit (2 * x) = x.
Proof.
  unfold crc_bit. replace (Z.odd (2 * x)) with false by (symmetry; rewrite Z.odd_mul; reflexivity).
  rewrite Z.mul_comm. apply Z.div_mul. lia.
Qed.
Lemma crc_bit_0 : crc_bit 0 = 0. Proof. reflexivity. Qed.
Lemma iter_out {A} n (f : A -> A) x : Nat.iter (S n) f x = f (Nat.iter n f x).
Proof. reflexivity. Qed.
Lemma iter_S {A} n (f : A -> A) x : Nat.iter (S n) f x = Nat.iter n f (f x).
Proof. induction n; [reflexivity|]. rewrite iter_out, IHn. reflexivity. Qed.
Lemma iter_add {A} n m (f : A -> A) x : Nat.iter (n + m) f x = Nat.iter n f (Nat.iter m f x).
Proof. induction n; [reflexivity|]. cbn [Nat.add]. now rewrite !iter_out, IHn. Qed.
Lemma iter_lxor n : forall a b, Nat.iter n crc_bit (Z.lxor a b) = Z.lxor (Nat.iter n crc_bit a) (Nat.iter n crc_bit b).
Proof. induction n; intros; [reflexivity|]. now rewrite !iter_out, IHn, crc_bit_lxor. Qed.
Lemma iter_shift n : forall x, Nat.iter n crc_bit (2 ^ Z.of_nat n * x) = x.
Proof.
  induction n; intros x. { change (2 ^ Z.of_nat 0) with 1. now rewrite Z.mul_1_l. }
  rewrite iter_S. replace (2 ^ Z.of_nat (S n) * x) with (2 * (2 ^ Z.of_nat n * x)).
  - rewrite crc_bit_double. apply IHn.
  - rewrite Nat2Z.inj_succ, Z.pow_succ_r by lia. lia.
Qed.
(** 32-bit registers stay 32-bit, non-zero ones non-zero. *)
Lemma lxor_32 a b : 0 <= a < 2 ^ 32 -> 0 <= b < 2 ^ 32 -> 0 <= Z.lxor a b < 2 ^ 32.
Proof.
  intros Ha Hb. assert (N : 0 <= Z.lxor a b) by (apply Z.lxor_nonneg; lia). split; [auto|].
  destruct (Z.eq_dec (Z.lxor a b) 0) as [->|E]; [lia|]. apply Z.log2_lt_pow2; [lia|].
  pose proof (Z.log2_lxor a b ltac:(lia) ltac:(lia)).
  assert (La : Z.log2 a < 32) by (destruct (Z.eq_dec a 0); [subst; cbn; lia|apply Z.log2_lt_pow2; lia]).
  assert (Lb : Z.log2 b < 32) by (destruct (Z.eq_dec b 0); [subst; cbn; lia|apply Z.log2_lt_pow2; lia]).
  lia.
Qed.
Lemma crc_bit_range c : 0 <= c < 2 ^ 32 -> 0 <= crc_bit c < 2 ^ 32.
Proof.
  intros H. assert (0 <= c / 2 < 2 ^ 32). { change (2 ^ 32) with 4294967296 in *. split; [apply Z.div_pos; lia|]. apply Z.div_lt_upper_bound; lia. }
  unfold crc_bit. destruct (Z.odd c); [|auto]. apply lxor_32; [auto|]. unfold crc_poly. lia.
Qed.
Lemma crc_bit_nonzero c : 0 < c < 2 ^ 32 -> crc_bit c <> 0.
Proof.
  intros H E. change (2 ^ 32) with 4294967296 in *. unfold crc_bit in E. destruct (Z.odd c) eqn:O.
  - apply Z.lxor_eq in E. assert (c / 2 < 2147483648) by (apply Z.div_lt_upper_bound; lia). unfold crc_poly in E. lia.
  - pose proof (Z.div_mod c 2 ltac:(lia)). pose proof (Zmod_odd c) as M. rewrite O in M. lia.
Qed.
Lemma iter_range n c : 0 <= c < 2 ^ 32 -> 0 <= Nat.iter n crc_bit c < 2 ^ 32.
Proof. intros H. induction n; [exact H|rewrite iter_out; now apply crc_bit_range]. Qed.
Lemma iter_nonzero n c : 0 < c < 2 ^ 32 -> Nat.iter n crc_bit c <> 0.
Proof.
  intros H. induction n; [cbn; lia|]. rewrite iter_out. apply crc_bit_nonzero.
  pose proof (iter_range n c ltac:(lia)). lia.
Qed.

(** The register after a message is linear in register and message. *)
Lemma lxor_byte b x : 0 <= b < 256 -> Z.lxor b (256 * x) = b + 256 * x.
Proof.
  intros H. symmetry. apply Z.add_nocarry_lxor. apply Z.bits_inj'. intros n Hn. rewrite Z.land_spec, Z.bits_0.
  change 256 with (2 ^ 8). destruct (Z.ltb_spec n 8).
  - rewrite Z.mul_comm, Z.mul_pow2_bits_low by lia. apply andb_false_r.
  - replace (Z.testbit b n) with false; [reflexivity|]. symmetry.
    destruct (Z.eq_dec b 0) as [->|]; [apply Z.bits_0|]. apply Z.bits_above_log2; [lia|].
    assert (Z.log2 b < 8) by (apply Z.log2_lt_pow2; lia). lia.
Qed.
Lemma write_linear bs : bytes bs -> forall h,
  hasher_write h bs = Nat.iter (8 * length bs) crc_bit (Z.lxor h (from_le bs)).
Proof.
  induction 1 as [|b r Hb B IH]; intros h.
  - cbn. now rewrite Z.lxor_0_r.
  - unfold hasher_write in *. cbn [fold_left from_le length]. rewrite IH. unfold crc_byte.
    replace (8 * S (length r))%nat with (8 * length r + 8)%nat by lia. rewrite iter_add. f_equal.
    rewrite <- lxor_byte by apply Hb. rewrite <- Z.lxor_assoc.
    change 256 with (2 ^ Z.of_nat 8). rewrite (iter_lxor 8 (Z.lxor h b)), iter_shift. reflexivity.
Qed.
Lemma write_app h a b : hasher_write h (a ++ b) = hasher_write (hasher_write h a) b.
Proof. apply fold_left_app. Qed.
Lemma write_range bs : bytes bs -> forall h, 0 <= h < 2 ^ 32 -> 0 <= hasher_write h bs < 2 ^ 32.
Proof.
  unfold hasher_write. induction 1 as [|b r Hb B IH]; intros h Hh; cbn [fold_left]; [auto|]. apply IH.
  unfold crc_byte. apply iter_range, lxor_32; [auto|]. unfold is_byte in Hb. change (2 ^ 32) with 4294967296. lia.
Qed.
Lemma crc32_range bs : bytes bs -> 0 <= crc32 bs < 2 ^ 32.
Proof.
  intros B. unfold crc32, hasher_finalize. apply lxor_32; [|unfold crc_ones; lia].
  apply write_range; [auto|]. unfold hasher_new, crc_ones. lia.
Qed.
(** Differences between messages survive. *)
Lemma write_diff a b k w h : bytes a -> bytes b -> length a = length b -> 0 <= k ->
  Z.lxor (from_le a) (from_le b) = 2 ^ k * w -> 0 < w < 2 ^ 32 -> k <= 8 * zlen a ->
  hasher_write h a <> hasher_write h b.
Proof.
  intros Ba Bb L Hk D W Hl E. rewrite !write_linear in E by auto. rewrite <- L in E.
  assert (Z0 : Z.lxor (Nat.iter (8 * length a) crc_bit (Z.lxor h (from_le a))) (Nat.iter (8 * length a) crc_bit (Z.lxor h (from_le b))) = 0)
    by (rewrite E; apply Z.lxor_nilpotent).
  rewrite <- iter_lxor in Z0.
  assert (X : Z.lxor (Z.lxor h (from_le a)) (Z.lxor h (from_le b)) = 2 ^ k * w).
  { rewrite <- D. apply Z.bits_inj'. intros n Hn. rewrite !Z.lxor_spec.
    destruct (Z.testbit h n), (Z.testbit (from_le a) n), (Z.testbit (from_le b) n); reflexivity. }
  rewrite X in Z0. replace (8 * length a)%nat with ((8 * length a - Z.to_nat k) + Z.to_nat k)%nat in Z0 by (unfold zlen in Hl; lia).
  rewrite iter_add in Z0. replace (2 ^ k) with (2 ^ Z.of_nat (Z.to_nat k)) in Z0 by (f_equal; lia).
  rewrite iter_shift in Z0. now apply iter_nonzero in Z0.
Qed.
(** Equal messages keep different registers different. *)
Lemma write_inj bs h h' : bytes bs -> 0 <= h < 2 ^ 32 -> 0 <= h' < 2 ^ 32 ->
  hasher_write h bs = hasher_write h' bs -> h = h'.
Proof.
  intros B H H' E. rewrite !write_linear in E by auto.
  destruct (Z.eq_dec (Z.lxor h h') 0) as [Q|Q]; [now apply Z.lxor_eq|]. exfalso.
  assert (Z0 := Z.lxor_nilpotent (Nat.iter (8 * length bs) crc_bit (Z.lxor h (from_le bs)))). rewrite E in Z0 at 2.
  rewrite <- iter_lxor in Z0.
  replace (Z.lxor (Z.lxor h (from_le bs)) (Z.lxor h' (from_le bs))) with (Z.lxor h h') in Z0.
  - revert Z0. apply iter_nonzero. pose proof (lxor_32 h h' H H'). lia.
  - apply Z.bits_inj'. intros n Hn. rewrite !Z.lxor_spec.
    destruct (Z.testbit h n), (Z.testbit h' n), (Z.testbit (from_le bs) n); reflexivity.
Qed.
Lemma finalize_inj a b : hasher_finalize a = hasher_finalize b -> a = b.
Proof.
  unfold hasher_finalize. intros E. rewrite <- (Z.lxor_0_r a), <- (Z.lxor_0_r b), <- (Z.lxor_nilpotent crc_ones).
  now rewrite <- !Z.lxor_assoc, E.
Qed.

(** Bits of a message: bit [i] is bit [i mod 8] of byte [i / 8]. *)
Lemma from_le_bit bs : bytes bs -> forall i, 0 <= i ->
  Z.testbit (from_le bs) i = Z.testbit (nth (Z.to_nat (i / 8)) bs 0) (i mod 8).
Proof.
  induction 1 as [|b r Hb B IH]; intros i Hi; cbn [from_le].
  - rewrite Z.bits_0. destruct (Z.to_nat (i / 8)); cbn; now rewrite Z.bits_0.
  - rewrite <- lxor_byte by apply Hb. rewrite Z.lxor_spec. change 256 with (2 ^ 8). rewrite (Z.mul_comm (2 ^ 8)).
    destruct (Z.ltb_spec i 8).
    + rewrite Z.mul_pow2_bits_low by lia. rewrite xorb_false_r. rewrite Z.div_small, Z.mod_small by lia. reflexivity.
    + rewrite Z.mul_pow2_bits by lia. rewrite IH by lia.
      replace (Z.testbit b i) with false.
      2:{ symmetry. unfold is_byte in Hb. destruct (Z.eq_dec b 0) as [->|]; [apply Z.bits_0|]. apply Z.bits_above_log2; [lia|].
          assert (Z.log2 b < 8) by (apply Z.log2_lt_pow2; lia). lia. }
      rewrite xorb_false_l. replace (i - 8) with (i + (-1) * 8) by lia. rewrite Z.div_add, Z.mod_add by lia.
      assert (1 <= i / 8) by (apply Z.div_le_lower_bound; lia).
      replace (Z.to_nat (i / 8)) with (S (Z.to_nat (i / 8 + -1))) by lia. reflexivity.
Qed.
Lemma from_le_nonneg bs : bytes bs -> 0 <= from_le bs.
Proof. induction 1; cbn [from_le]; unfold is_byte in *; lia. Qed.
Lemma from_le_inj a : forall b, bytes a -> bytes b -> length a = length b -> from_le a = from_le b -> a = b.
Proof.
  induction a as [|x a IH]; intros [|y b] Ba Bb L E; try discriminate; [auto|].
  apply Forall_cons_iff in Ba as [Hx Ba]. apply Forall_cons_iff in Bb as [Hy Bb]. cbn [from_le length] in E, L. unfold is_byte in *.
  assert (x = y) by lia. subst. f_equal. apply IH; auto; lia.
Qed.
