(** The register computation of StdModel.v is the polynomial remainder of CrcSpec.v. *)
From Verif Require Import Prelude StdModel DecoderModel FormatSpec ReaderSpec CrcSpec CrcProofs.
From Coq Require Import Lia ZifyBool.

Definition b2z (b : bool) : Z := if b then 1 else 0.
(** One message bit enters the register. *)
Definition feed (c : Z) (b : bool) : Z := crc_bit (Z.lxor c (b2z b)).

Lemma feed_bits k : forall c b, 0 <= b ->
  fold_left feed (map (fun i => Z.odd (b / 2 ^ Z.of_nat i)) (seq 0 k)) c = Nat.iter k crc_bit (Z.lxor c (b mod 2 ^ Z.of_nat k)).
Proof.
  induction k as [|k IH]; intros c b Hb. { cbn. change (2 ^ 0) with 1. now rewrite Z.mod_1_r, Z.lxor_0_r. }
  rewrite seq_S, map_app, fold_left_app, IH by auto. cbn [map fold_left Nat.add]. unfold feed. rewrite iter_out. f_equal.
  assert (E : b mod 2 ^ Z.of_nat (S k) = Z.lxor (b mod 2 ^ Z.of_nat k) (2 ^ Z.of_nat k * b2z (Z.odd (b / 2 ^ Z.of_nat k)))).
  { apply Z.bits_inj'. intros n Hn. rewrite Z.lxor_spec. destruct (Z.lt_ge_cases n (Z.of_nat k)) as [H|H].
    - rewrite !Z.mod_pow2_bits_low by lia. rewrite Z.mul_comm, Z.mul_pow2_bits_low by lia. now rewrite xorb_false_r.
    - rewrite (Z.mod_pow2_bits_high b (Z.of_nat k)) by lia. rewrite xorb_false_l.
      rewrite Z.mul_comm, Z.mul_pow2_bits by lia. destruct (Z.eq_dec n (Z.of_nat k)) as [->|N].
      + rewrite Z.mod_pow2_bits_low by lia. rewrite Z.sub_diag. rewrite <- Z.bit0_odd, Z.div_pow2_bits, Z.add_0_l by lia. unfold b2z. destruct (Z.testbit b (Z.of_nat k)); reflexivity.
      + rewrite Z.mod_pow2_bits_high by lia. unfold b2z. destruct (Z.odd _); [|now rewrite Z.bits_0].
        symmetry. change 1 with (2 ^ 0). apply Z.pow2_bits_false. lia. }
  rewrite E, <- Z.lxor_assoc. rewrite (iter_lxor k (Z.lxor c _)), iter_shift. reflexivity.
Qed.
Lemma feed_byte c b : is_byte b -> fold_left feed (byte_bits b) c = crc_byte c b.
Proof.
  intros H. unfold is_byte in H. unfold crc_byte. pose proof (feed_bits 8 c b ltac:(lia)) as E. change (2 ^ Z.of_nat 8) with 256 in E. rewrite Z.mod_small in E by lia.
  rewrite <- E. reflexivity.
Qed.
Lemma feed_message m : bytes m -> forall c, fold_left feed (message_bits m) c = hasher_write c m.
Proof.
  induction 1 as [|b m Hb _ IH]; intros c; [reflexivity|]. unfold message_bits, hasher_write in *. cbn [flat_map fold_left].
  rewrite fold_left_app, feed_byte by auto. apply IH.
Qed.

(** * The register is the remainder, reversed *)
Definition reversed (r c : Z) : Prop := 0 <= r < 2 ^ 32 /\ 0 <= c < 2 ^ 32 /\ forall i, 0 <= i < 32 -> Z.testbit r i = Z.testbit c (31 - i).
Definition low_poly : Z := 79764919.
Lemma generator_low : crc32_generator = Z.lxor (2 ^ 32) low_poly. Proof. reflexivity. Qed.
Lemma low_range : 0 <= low_poly < 2 ^ 32. Proof. unfold low_poly. lia. Qed.
Lemma low_reversed : forall i, 0 <= i < 32 -> Z.testbit low_poly i = Z.testbit crc_poly (31 - i).
Proof.
  intros i H. assert (A : forallb (fun n => Bool.eqb (Z.testbit low_poly (Z.of_nat n)) (Z.testbit crc_poly (31 - Z.of_nat n))) (seq 0 32) = true) by (vm_compute; reflexivity).
  rewrite forallb_forall in A. specialize (A (Z.to_nat i) ltac:(apply in_seq; lia)). rewrite Z2Nat.id in A by lia. now apply Bool.eqb_prop.
Qed.
Lemma mod_32 x : 0 <= x mod 2 ^ 32 < 2 ^ 32. Proof. apply Z.mod_pos_bound. lia. Qed.
Lemma bit_high r i : 0 <= r < 2 ^ 32 -> 32 <= i -> Z.testbit r i = false.
Proof. intros H Hi. rewrite <- (Z.mod_small r (2 ^ 32)) by lia. apply Z.mod_pow2_bits_high. lia. Qed.
Lemma step_reversed r c (b : bool) : reversed r c ->
  reversed (Z.lxor ((2 * r) mod 2 ^ 32) (if xorb (Z.odd c) b then low_poly else 0)) (feed c b).
Proof.
  intros (Hr & Hc & H). assert (Rf : 0 <= feed c b < 2 ^ 32).
  { apply crc_bit_range. apply lxor_32; [auto|]. unfold b2z. destruct b; lia. }
  split; [|split; [exact Rf|]].
  - apply lxor_32; [apply mod_32|]. destruct (xorb _ _); [apply low_range|lia].
  - intros i Hi. unfold feed. rewrite crc_bit_alt, !Z.lxor_spec.
    assert (O : Z.odd (Z.lxor c (b2z b)) = xorb (Z.odd c) b) by (rewrite <- !Z.bit0_odd, Z.lxor_spec; destruct b; reflexivity).
    rewrite O, Z.shiftr_spec by lia. rewrite Z.lxor_spec.
    assert (B1 : Z.testbit (b2z b) (31 - i + 1) = false).
    { destruct b; cbn [b2z]; [|apply Z.bits_0]. change 1 with (2 ^ 0) at 1. apply Z.pow2_bits_false. lia. }
    rewrite B1, xorb_false_r. f_equal.
    + rewrite Z.mod_pow2_bits_low by lia. destruct (Z.eq_dec i 0) as [->|N].
      * rewrite Z.testbit_even_0. symmetry. apply bit_high; [auto|lia].
      * replace i with (Z.succ (i - 1)) at 1 by lia. rewrite Z.testbit_even_succ by lia. rewrite H by lia. f_equal. lia.
    + destruct (xorb _ _); [now apply low_reversed|now rewrite !Z.bits_0].
Qed.
Lemma double_split r c (b : bool) : reversed r c ->
  Z.lxor (2 * r) (b2z b * 2 ^ 32) = Z.lxor (if xorb (Z.odd c) b then crc32_generator else 0) (Z.lxor ((2 * r) mod 2 ^ 32) (if xorb (Z.odd c) b then low_poly else 0)).
Proof.
  intros (Hr & Hc & H).
  assert (E : 2 * r = Z.lxor ((2 * r) mod 2 ^ 32) (b2z (Z.odd c) * 2 ^ 32)).
  { apply Z.bits_inj'. intros n Hn. rewrite Z.lxor_spec. destruct (Z.lt_ge_cases n 32) as [L|L].
    - rewrite Z.mod_pow2_bits_low, Z.mul_pow2_bits_low by lia. now rewrite xorb_false_r.
    - rewrite Z.mod_pow2_bits_high, Z.mul_pow2_bits by lia. rewrite xorb_false_l.
      replace n with (Z.succ (n - 1)) at 1 by lia. rewrite Z.testbit_even_succ by lia.
      destruct (Z.eq_dec n 32) as [->|N].
      + change (32 - 1) with 31. rewrite H by lia. change (31 - 31) with 0. rewrite Z.bit0_odd. destruct (Z.odd c); reflexivity.
      + rewrite bit_high by lia. destruct (Z.odd c); cbn [b2z]; [|now rewrite Z.bits_0]. symmetry. change 1 with (2 ^ 0). apply Z.pow2_bits_false. lia. }
  rewrite E at 1. set (x := (2 * r) mod 2 ^ 32). rewrite generator_low.
  apply Z.bits_inj'. intros n Hn. rewrite !Z.lxor_spec.
  destruct (Z.odd c), b; cbn [xorb b2z]; rewrite ?Z.mul_1_l, ?Z.mul_0_l, ?Z.lxor_spec, ?Z.bits_0;
    destruct (Z.testbit x n), (Z.testbit (2 ^ 32) n), (Z.testbit low_poly n); reflexivity.
Qed.
Lemma mul_double q g : 0 <= q -> gf2_mul (2 * q) g = 2 * gf2_mul q g.
Proof. destruct q; cbn [gf2_mul Z.mul Pos.mul]; intros; [reflexivity|reflexivity|lia]. Qed.
Lemma mul_double_1 q g : 0 <= q -> gf2_mul (2 * q + 1) g = Z.lxor g (2 * gf2_mul q g).
Proof. destruct q; intros; [cbn; now rewrite Z.lxor_0_r|reflexivity|lia]. Qed.
Lemma double_lxor a b : 2 * Z.lxor a b = Z.lxor (2 * a) (2 * b).
Proof. rewrite !(Z.mul_comm 2). change 2 with (2 ^ 1). rewrite <- !Z.shiftl_mul_pow2 by lia. apply Z.shiftl_lxor. Qed.

Definition inv (f n c : Z) : Prop := exists q r, 0 <= q /\ reversed r c /\ Z.lxor (f * 2 ^ 32) ((2 ^ 32 - 1) * 2 ^ n) = Z.lxor (gf2_mul q crc32_generator) r.
Lemma inv_step f n c (b : bool) : 0 <= n -> inv f n c -> inv (2 * f + (if b then 1 else 0)) (n + 1) (feed c b).
Proof.
  intros Hn (q & r & Hq & Hr & E). set (o := xorb (Z.odd c) b).
  exists (2 * q + b2z o), (Z.lxor ((2 * r) mod 2 ^ 32) (if o then low_poly else 0)).
  split; [unfold b2z; destruct o; lia|]. split; [now apply step_reversed|].
  assert (L : (2 * f + (if b then 1 else 0)) * 2 ^ 32 = Z.lxor (2 * (f * 2 ^ 32)) (b2z b * 2 ^ 32)).
  { rewrite Z.mul_assoc. rewrite <- !Z.shiftl_mul_pow2, <- Z.shiftl_lxor by lia. f_equal.
    apply Z.bits_inj'. intros i Hi. rewrite Z.lxor_spec. destruct b; cbn [b2z]; [|now rewrite Z.add_0_r, Z.bits_0, xorb_false_r].
    destruct (Z.eq_dec i 0) as [->|N]; [now rewrite Z.testbit_odd_0, Z.testbit_even_0|].
    replace i with (Z.succ (i - 1)) by lia. rewrite Z.testbit_odd_succ, Z.testbit_even_succ by lia. change 1 with (2 ^ 0) at 3. rewrite Z.pow2_bits_false by lia. now rewrite xorb_false_r. }
  rewrite L. rewrite Z.pow_add_r by lia. change (2 ^ 1) with 2. replace ((2 ^ 32 - 1) * (2 ^ n * 2)) with (2 * ((2 ^ 32 - 1) * 2 ^ n)) by lia.
  rewrite (Z.lxor_comm (2 * (f * 2 ^ 32))), Z.lxor_assoc, <- double_lxor, E, double_lxor.
  rewrite Z.lxor_comm, Z.lxor_assoc, (double_split r c b) by auto. fold o. rewrite <- Z.lxor_assoc. f_equal.
  destruct o; cbn [b2z]; [rewrite mul_double_1 by auto; apply Z.lxor_comm|]. rewrite Z.add_0_r, mul_double by auto. apply Z.lxor_0_r.
Qed.
Lemma inv_bits bits : forall f n c, 0 <= n -> inv f n c ->
  inv (fold_left (fun f (b : bool) => 2 * f + (if b then 1 else 0)) bits f) (n + zlen bits) (fold_left feed bits c).
Proof.
  induction bits as [|b bits IH]; intros f n c Hn H; cbn [fold_left]; [unfold zlen; cbn; now rewrite Z.add_0_r|].
  replace (n + zlen (b :: bits)) with (n + 1 + zlen bits) by (unfold zlen; cbn [length]; lia). apply IH; [lia|]. now apply inv_step.
Qed.
Lemma message_len m : zlen (message_bits m) = 8 * zlen m.
Proof. induction m as [|b m IH]; [reflexivity|]. unfold message_bits, zlen in *. cbn [flat_map]. rewrite app_length. cbn [length]. change (length (byte_bits b)) with 8%nat. lia. Qed.
Lemma crc32_standard m : bytes m -> is_crc32 m (crc32 m).
Proof.
  intros B. split; [now apply crc32_range|].
  destruct (inv_bits (message_bits m) 0 0 crc_ones ltac:(lia)) as (q & r & Hq & Hr & E).
  { exists 0, (2 ^ 32 - 1). split; [lia|]. split; [|reflexivity]. split; [lia|]. split; [unfold crc_ones; lia|].
    intros i Hi. change (2 ^ 32 - 1) with (Z.ones 32). change crc_ones with (Z.ones 32). now rewrite !Z.ones_spec_low by lia. }
  rewrite Z.add_0_l, message_len in E. rewrite feed_message in Hr by auto. destruct Hr as (Hr & Hc & H).
  exists r. split; [split; [auto|exists q; auto]|]. intros i Hi. unfold crc32, hasher_finalize, hasher_new. rewrite Z.lxor_spec.
  rewrite H by lia. replace (31 - (31 - i)) with i by lia. change crc_ones with (Z.ones 32) at 2. rewrite Z.ones_spec_low by lia. now rewrite xorb_true_r.
Qed.

(** * There is only one remainder *)
Lemma lxor_parts a b (x y : bool) : Z.lxor (2 * a + b2z x) (2 * b + b2z y) = 2 * Z.lxor a b + b2z (xorb x y).
Proof.
  assert (P : forall c z, 2 * c + b2z z = Z.lxor (2 * c) (b2z z)).
  { intros c z. apply Z.bits_inj'. intros i Hi. rewrite Z.lxor_spec. destruct z; cbn [b2z]; [|now rewrite Z.add_0_r, Z.bits_0, xorb_false_r].
    destruct (Z.eq_dec i 0) as [->|N]; [now rewrite Z.testbit_odd_0, Z.testbit_even_0|].
    replace i with (Z.succ (i - 1)) by lia. rewrite Z.testbit_odd_succ, Z.testbit_even_succ by lia. change 1 with (2 ^ 0) at 3. rewrite Z.pow2_bits_false by lia. now rewrite xorb_false_r. }
  rewrite !P, double_lxor. apply Z.bits_inj'. intros i Hi. rewrite !Z.lxor_spec. destruct x, y; cbn [b2z xorb]; rewrite ?Z.bits_0;
    destruct (Z.testbit (2 * a) i), (Z.testbit (2 * b) i), (Z.testbit 1 i); reflexivity.
Qed.
Lemma halve a : 0 <= a -> exists a' x, a = 2 * a' + b2z x /\ 0 <= a'.
Proof. intros H. exists (a / 2), (Z.odd a). split; [rewrite Zodd_mod; pose proof (Z.div_mod a 2 ltac:(lia)); pose proof (Z.mod_pos_bound a 2 ltac:(lia)); unfold b2z, Zeq_bool; destruct (Z.compare_spec (a mod 2) 1); lia|apply Z.div_pos; lia]. Qed.
Lemma mul_parts q x g : 0 <= q -> gf2_mul (2 * q + b2z x) g = Z.lxor (if x : bool then g else 0) (2 * gf2_mul q g).
Proof. intros H. destruct x; cbn [b2z]; [now apply mul_double_1|]. rewrite Z.add_0_r, mul_double by auto. now rewrite Z.lxor_0_l. Qed.
Lemma mul_lxor g n : forall a b, 0 <= a < 2 ^ Z.of_nat n -> 0 <= b < 2 ^ Z.of_nat n -> gf2_mul (Z.lxor a b) g = Z.lxor (gf2_mul a g) (gf2_mul b g).
Proof.
  induction n as [|n IH]; intros a b Ha Hb. { change (2 ^ Z.of_nat 0) with 1 in *. assert (a = 0) as -> by lia. assert (b = 0) as -> by lia. reflexivity. }
  rewrite Nat2Z.inj_succ, Z.pow_succ_r in Ha, Hb by lia.
  destruct (halve a) as (a' & x & -> & A'); [lia|]. destruct (halve b) as (b' & y & -> & B'); [lia|].
  assert (0 <= b2z x <= 1 /\ 0 <= b2z y <= 1) by (unfold b2z; destruct x, y; lia).
  rewrite lxor_parts, !mul_parts by (auto; now apply Z.lxor_nonneg; lia). rewrite IH, double_lxor by lia.
  apply Z.bits_inj'. intros i Hi. rewrite !Z.lxor_spec. destruct x, y; cbn [xorb]; rewrite ?Z.bits_0;
    destruct (Z.testbit g i), (Z.testbit (2 * gf2_mul a' g) i), (Z.testbit (2 * gf2_mul b' g) i); reflexivity.
Qed.
Lemma mul_top p : Z.testbit (gf2_mul_pos p crc32_generator) (32 + Z.log2 (Zpos p)) = true.
Proof.
  induction p as [p IH|p IH|]; cbn [gf2_mul_pos]; [| |reflexivity].
  - change (Z.pos p~1) with (2 * Z.pos p + 1). rewrite Z.log2_succ_double by lia. rewrite Z.lxor_spec.
    assert (T : Z.testbit (2 * gf2_mul_pos p crc32_generator) (32 + Z.succ (Z.log2 (Z.pos p))) = true).
    { replace (32 + Z.succ (Z.log2 (Z.pos p))) with (Z.succ (32 + Z.log2 (Z.pos p))) by lia. rewrite Z.testbit_even_succ; [exact IH|]. pose proof (Z.log2_nonneg (Z.pos p)). lia. }
    rewrite T. pose proof (Z.log2_nonneg (Z.pos p)). rewrite Z.bits_above_log2; [reflexivity|vm_compute; discriminate|].
    change (Z.log2 crc32_generator) with 32. lia.
  - change (Z.pos p~0) with (2 * Z.pos p). rewrite Z.log2_double by lia.
    replace (32 + Z.succ (Z.log2 (Z.pos p))) with (Z.succ (32 + Z.log2 (Z.pos p))) by lia. rewrite Z.testbit_even_succ; [exact IH|]. pose proof (Z.log2_nonneg (Z.pos p)). lia.
Qed.
Lemma remainder_unique f r r' : crc32_remainder f r -> crc32_remainder f r' -> r = r'.
Proof.
  intros (Hr & q & Hq & E) (Hr' & q' & Hq' & E'). rewrite E in E'.
  assert (X : gf2_mul (Z.lxor q q') crc32_generator = Z.lxor r r').
  { rewrite (mul_lxor crc32_generator (Z.to_nat (Z.max q q'))).
    - apply Z.bits_inj'. intros i Hi. assert (T := f_equal (fun z => Z.testbit z i) E'). cbn beta in T. rewrite !Z.lxor_spec in *.
      destruct (Z.testbit (gf2_mul q crc32_generator) i), (Z.testbit (gf2_mul q' crc32_generator) i), (Z.testbit r i), (Z.testbit r' i); cbn in *; congruence.
    - rewrite Z2Nat.id by lia. pose proof (Z.pow_gt_lin_r 2 (Z.max q q') ltac:(lia) ltac:(lia)). lia.
    - rewrite Z2Nat.id by lia. pose proof (Z.pow_gt_lin_r 2 (Z.max q q') ltac:(lia) ltac:(lia)). lia. }
  assert (N : 0 <= Z.lxor q q') by (apply Z.lxor_nonneg; lia). pose proof (lxor_32 r r' Hr Hr') as L.
  destruct (Z.lxor q q') as [|p|p]; [cbn in X; symmetry in X; now apply Z.lxor_eq in X| |lia].
  exfalso. pose proof (mul_top p) as T. cbn [gf2_mul] in X. rewrite X in T. rewrite bit_high in T; [discriminate|auto|]. pose proof (Z.log2_nonneg (Z.pos p)). lia.
Qed.
Lemma crc32_unique m v v' : is_crc32 m v -> is_crc32 m v' -> v = v'.
Proof.
  intros (Hv & r & R & T) (Hv' & r' & R' & T'). assert (r' = r) as -> by (eapply remainder_unique; eauto).
  apply Z.bits_inj'. intros i Hi. destruct (Z.lt_ge_cases i 32); [now rewrite T, T' by lia|]. now rewrite !bit_high by auto.
Qed.
