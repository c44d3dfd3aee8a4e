(** Reading what the format specification writes. *)
From Verif Require Import Prelude StdModel BrassTypes DecoderModel CodeModel FormatSpec CodeGenericProofs.
From Coq Require Import Lia.

Lemma eats_ret {A} c (a : A) : eats c (ret a) [] a c.
Proof. intros p rest. cbn. unfold ret, mk. now rewrite Z.add_0_r. Qed.
Lemma eats_bind {A B} c (m : M A) b1 a c1 (k : A -> M B) b2 b c2 :
  eats c m b1 a c1 -> eats c1 (k a) b2 b c2 -> eats c (bind m k) (b1 ++ b2) b c2.
Proof.
  intros H1 H2 p rest. unfold bind. rewrite <- app_assoc, H1, H2, zlen_app. f_equal. f_equal. lia.
Qed.
Lemma eats_bind_nil {A B} c (m : M A) a c1 (k : A -> M B) b2 b c2 :
  eats c m [] a c1 -> eats c1 (k a) b2 b c2 -> eats c (bind m k) b2 b c2.
Proof. intros H1 H2. change b2 with ([] ++ b2). eapply eats_bind; eauto. Qed.
Lemma eats_bind_last {A B} c (m : M A) b1 a c1 (k : A -> M B) b c2 :
  eats c m b1 a c1 -> eats c1 (k a) [] b c2 -> eats c (bind m k) b1 b c2.
Proof. intros H1 H2. rewrite <- (app_nil_r b1). eapply eats_bind; eauto. Qed.
Lemma eats_unwrap {A} c (m : M A) bs a c' : eats c m bs a c' -> eats c (unwrap m) bs a c'.
Proof. intros H p rest. unfold unwrap. now rewrite H. Qed.
Lemma eats_unwrap_mapped {A} c (m : M A) bs a c' : eats c m bs a c' -> eats c (unwrap_mapped m) bs a c'.
Proof. intros H p rest. unfold unwrap_mapped. now rewrite H. Qed.
Lemma eats_ok_mapped {A} c (m : M A) bs a c' : eats c m bs a c' -> eats c (ok_mapped m) bs (Some a) c'.
Proof. intros H p rest. unfold ok_mapped. now rewrite H. Qed.
Lemma eats_ok {A} c (m : M A) bs a c' : eats c m bs a c' -> eats c (ok m) bs (Some a) c'.
Proof. intros H p rest. unfold ok. now rewrite H. Qed.
Lemma eats_get_code c : eats c get_code [] c c.
Proof. intros p rest. cbn. unfold get_code, mk; cbn. now rewrite Z.add_0_r. Qed.
Lemma eats_put_code c c' : eats c (put_code c') [] tt c'.
Proof. intros p rest. cbn. unfold put_code, mk; cbn. now rewrite Z.add_0_r. Qed.
Lemma eats_check_error c : eats c check_error [] tt c.
Proof. intros p rest. cbn. unfold check_error, mk; cbn. now rewrite Z.add_0_r. Qed.
Lemma eats_expect {A} c p (o : option A) a : o = Some a -> eats c (expect p o) [] a c.
Proof. intros ->. apply eats_ret. Qed.
Lemma eats_lift {A} c (a : A) : eats c (lift (Ok a)) [] a c.
Proof. apply eats_ret. Qed.
(** When the next step also looks at the position. *)
Lemma eats_get_pos {A} c (k : Z -> M A) bs a c' : (forall p, eats c (k p) bs a c') -> eats c (bind get_pos k) bs a c'.
Proof. intros H p rest. unfold bind, get_pos. apply H. Qed.

(** * Lists *)
Lemma zinsert_end {A} (l : list A) i x : i = zlen l -> zinsert l i x = Some (l ++ [x]).
Proof.
  intros ->. unfold zlen. induction l as [|y l IH]; cbn [length zinsert app]; [reflexivity|].
  replace (Z.of_nat (S (length l)) =? 0) with false by (symmetry; apply Z.eqb_neq; lia).
  replace (Z.of_nat (S (length l)) - 1) with (Z.of_nat (length l)) by lia. rewrite IH. reflexivity.
Qed.
Lemma zinsert_mid {A} (l r : list A) i x : i = zlen l -> zinsert (l ++ r) i x = Some (l ++ x :: r).
Proof.
  intros ->. unfold zlen. induction l as [|y l IH]; cbn [length zinsert app].
  - destruct r; reflexivity.
  - replace (Z.of_nat (S (length l)) =? 0) with false by (symmetry; apply Z.eqb_neq; lia).
    replace (Z.of_nat (S (length l)) - 1) with (Z.of_nat (length l)) by lia. rewrite IH. reflexivity.
Qed.
Lemma znth_nth_error {A} (l : list A) i : 0 <= i -> znth l i = nth_error l (Z.to_nat i).
Proof.
  revert i; induction l as [|x l IH]; intros i H; cbn [znth]; [now destruct (Z.to_nat i)|].
  destruct (Z.eqb_spec i 0) as [->|N]; [reflexivity|]. rewrite IH by lia.
  replace (Z.to_nat i) with (S (Z.to_nat (i - 1))) by lia. reflexivity.
Qed.
Lemma znth_nth {A} (l : list A) i d : 0 <= i < zlen l -> znth l i = Some (nth (Z.to_nat i) l d).
Proof. intros H. rewrite znth_nth_error by lia. apply nth_error_nth'. unfold zlen in H. lia. Qed.
Lemma znth_app_l {A} (l r : list A) i : 0 <= i < zlen l -> znth (l ++ r) i = znth l i.
Proof. intros H. rewrite !znth_nth_error by lia. apply nth_error_app1. unfold zlen in H; lia. Qed.
Lemma znth_app_r {A} (l r : list A) i : zlen l <= i -> znth (l ++ r) i = znth r (i - zlen l).
Proof.
  intros H. pose proof (zlen_nonneg l). rewrite !znth_nth_error by lia.
  rewrite nth_error_app2 by (unfold zlen in *; lia). f_equal. unfold zlen in *; lia.
Qed.
Lemma zset_mid {A} (l r : list A) i x y : i = zlen l -> zset (l ++ x :: r) i y = Some (l ++ y :: r).
Proof.
  intros ->. unfold zlen. induction l as [|z l IH]; cbn [length zset app].
  - reflexivity.
  - replace (Z.of_nat (S (length l)) =? 0) with false by (symmetry; apply Z.eqb_neq; lia).
    replace (Z.of_nat (S (length l)) - 1) with (Z.of_nat (length l)) by lia. rewrite IH. reflexivity.
Qed.
Lemma zlen_cons {A} (x : A) l : zlen (x :: l) = 1 + zlen l.
Proof. unfold zlen. cbn [length]. lia. Qed.
Lemma zlen_map {A B} (f : A -> B) l : zlen (map f l) = zlen l.
Proof. unfold zlen. now rewrite map_length. Qed.
Lemma zlen_repeat {A} (x : A) n : 0 <= n -> zlen (zrepeat x n) = n.
Proof. intros. unfold zlen, zrepeat. rewrite repeat_length. lia. Qed.
Lemma to_nat_zlen {A} (l : list A) : Z.to_nat (zlen l) = length l.
Proof. unfold zlen. lia. Qed.

(** * Loops: [af]/[cf] give the accumulator and [decoder.code] after a prefix of the items. *)
Lemma eats_for_loop {A X} (enc : X -> list Z) (af : list X -> A) (cf : list X -> code) body :
  forall xs pre i,
  i = zlen pre ->
  (forall p x q, pre ++ xs = p ++ x :: q -> zlen pre <= zlen p ->
     eats (cf p) (body (zlen p) (af p)) (enc x) (af (p ++ [x])) (cf (p ++ [x]))) ->
  eats (cf pre) (for_loop (length xs) i body (af pre)) (flat_map enc xs) (af (pre ++ xs)) (cf (pre ++ xs)).
Proof.
  induction xs as [|x xs IH]; intros pre i Hi H; cbn [length for_loop flat_map].
  - rewrite app_nil_r. apply eats_ret.
  - subst i. eapply eats_bind.
    + apply (H pre x xs); [reflexivity|lia].
    + replace (pre ++ x :: xs) with ((pre ++ [x]) ++ xs) by now rewrite <- app_assoc.
      apply IH.
      * rewrite zlen_app. reflexivity.
      * intros p y q E L. apply (H p y q).
        -- now rewrite <- E, <- app_assoc.
        -- rewrite zlen_app in L. unfold zlen in L at 2. cbn in L. lia.
Qed.
Lemma eats_for_range {A X} (enc : X -> list Z) (af : list X -> A) (cf : list X -> code) body xs n :
  n = zlen xs ->
  (forall p x q, xs = p ++ x :: q ->
     eats (cf p) (body (zlen p) (af p)) (enc x) (af (p ++ [x])) (cf (p ++ [x]))) ->
  eats (cf []) (for_range n body (af [])) (flat_map enc xs) (af xs) (cf xs).
Proof.
  intros -> H. unfold for_range. rewrite to_nat_zlen.
  apply (eats_for_loop enc af cf body xs [] 0); [reflexivity|].
  intros p x q E _. apply H in E. exact E.
Qed.

Lemma eats_insert_end {A} c (l : list A) i x : i = zlen l -> eats c (vec_insert l i x) [] (l ++ [x]) c.
Proof. intros H. apply eats_expect. now apply zinsert_end. Qed.

(** * Fixed-width integers *)
Lemma le_bytes_length n v : length (le_bytes n v) = n.
Proof. revert v; induction n; intros; cbn [le_bytes length]; [reflexivity|]. now rewrite IHn. Qed.
Lemma from_le_bytes n : forall v, 0 <= v < 256 ^ Z.of_nat n -> from_le (le_bytes n v) = v.
Proof.
  induction n; intros v H; cbn [le_bytes from_le]; [cbn in H; lia|].
  rewrite Nat2Z.inj_succ, Z.pow_succ_r in H by lia.
  rewrite IHn; [pose proof (Z.div_mod v 256); lia|].
  split; [apply Z.div_pos; lia|apply Z.div_lt_upper_bound; lia].
Qed.
Lemma le_bytes_bytes n : forall v, bytes (le_bytes n v).
Proof.
  induction n; intros v; cbn [le_bytes]; constructor; [|apply IHn].
  unfold is_byte. apply Z.mod_pos_bound; lia.
Qed.

Lemma eats_read_bytes c bs n : n = zlen bs -> eats c (read_bytes n) bs bs c.
Proof.
  intros -> p rest. unfold read_bytes, mk. cbn [d_buf d_pos d_code errs].
  rewrite zlen_app. pose proof (zlen_nonneg rest).
  replace (zlen bs + zlen rest <? zlen bs) with false by (symmetry; apply Z.ltb_ge; lia).
  rewrite to_nat_zlen, firstn_app, skipn_app, Nat.sub_diag, firstn_all, skipn_all. cbn.
  now rewrite app_nil_r.
Qed.
Lemma eats_u8 c b : eats c decode_u8 [b] b c.
Proof.
  unfold decode_u8, decode_unsigned. eapply eats_bind_last; [apply eats_read_bytes; reflexivity|].
  cbn [from_le]. rewrite Z.mul_0_r, Z.add_0_r. apply eats_ret.
Qed.
Lemma eats_unsigned c n v : 0 <= v < 256 ^ Z.of_nat n ->
  eats c (decode_unsigned (Z.of_nat n)) (enc_le n v) v c.
Proof.
  intros H. unfold decode_unsigned, enc_le. rewrite Z.mod_small by lia.
  eapply eats_bind_last; [apply eats_read_bytes; unfold zlen; now rewrite le_bytes_length|].
  rewrite from_le_bytes by lia. apply eats_ret.
Qed.
Lemma eats_signed c n v : (0 < n)%nat -> - (256 ^ Z.of_nat n / 2) <= v < 256 ^ Z.of_nat n / 2 ->
  eats c (decode_signed (Z.of_nat n)) (enc_le n v) v c.
Proof.
  intros Hn H. unfold decode_signed, enc_le.
  assert (P : 256 ^ Z.of_nat n = 2 * 2 ^ (8 * Z.of_nat n - 1)).
  { rewrite <- Z.pow_succ_r by lia. change 256 with (2 ^ 8). rewrite <- Z.pow_mul_r by lia. f_equal. lia. }
  assert (P' : 2 ^ (8 * Z.of_nat n) = 256 ^ Z.of_nat n).
  { change 256 with (2 ^ 8). rewrite <- Z.pow_mul_r by lia. reflexivity. }
  set (h := 2 ^ (8 * Z.of_nat n - 1)) in *.
  assert (Hh : 0 < h) by (apply Z.pow_pos_nonneg; lia).
  rewrite P in H. rewrite (Z.mul_comm 2 h), Z.div_mul in H by lia.
  eapply eats_bind_last; [apply eats_read_bytes; unfold zlen; now rewrite le_bytes_length|].
  rewrite from_le_bytes by (apply Z.mod_pos_bound; lia).
  replace (to_signed (8 * Z.of_nat n) (v mod 256 ^ Z.of_nat n)) with v; [apply eats_ret|].
  unfold to_signed. fold h. rewrite P', P.
  destruct (Z.ltb_spec v 0).
  - assert (E : v mod (2 * h) = v + 2 * h) by (symmetry; apply Z.mod_unique with (-1); lia).
    rewrite E. destruct (Z.ltb_spec (v + 2 * h) h); lia.
  - rewrite Z.mod_small by lia. destruct (Z.ltb_spec v h); lia.
Qed.
Lemma eats_i32 c v : i32_range v -> eats c decode_i32 (enc_le 4 v) v c.
Proof. intros H. apply (eats_signed c 4); [lia|]. exact H. Qed.
Lemma eats_f64 c v : 0 <= v < 2 ^ 64 -> eats c decode_f64 (enc_le 8 v) v c.
Proof. intros H. apply (eats_unsigned c 8). exact H. Qed.

(** * Indices *)
Lemma land_mod a k : 0 <= k -> Z.land a (2 ^ k - 1) = a mod 2 ^ k.
Proof. intros. rewrite <- Z.land_ones by lia. f_equal. rewrite Z.ones_equiv. lia. Qed.

(** A statement about the bytes 0..255 is checked by computation. *)
Definition all_bytes : list Z := map Z.of_nat (seq 0 256).
Lemma all_bytes_in b : 0 <= b < 256 -> In b all_bytes.
Proof.
  intros H. unfold all_bytes. apply in_map_iff. exists (Z.to_nat b). split; [lia|]. apply in_seq. lia.
Qed.
Lemma byte_case (P : Z -> bool) : forallb P all_bytes = true -> forall b, 0 <= b < 256 -> P b = true.
Proof. intros H b Hb. rewrite forallb_forall in H. apply H. now apply all_bytes_in. Qed.

Lemma byte_bit7 b : 0 <= b < 256 -> (Z.land b 128 =? 0) = (b <? 128).
Proof.
  intros H. apply eqb_prop. apply (byte_case (fun b => Bool.eqb (Z.land b 128 =? 0) (b <? 128)));
  [vm_compute; reflexivity|auto].
Qed.
Lemma byte_bit6 b : 0 <= b < 256 -> (Z.land b 64 =? 0) = (b mod 128 <? 64).
Proof.
  intros H. apply eqb_prop. apply (byte_case (fun b => Bool.eqb (Z.land b 64 =? 0) (b mod 128 <? 64)));
  [vm_compute; reflexivity|auto].
Qed.
Lemma byte_bit5 b : 0 <= b < 256 -> (Z.land b 32 =? 0) = (b mod 64 <? 32).
Proof.
  intros H. apply eqb_prop. apply (byte_case (fun b => Bool.eqb (Z.land b 32 =? 0) (b mod 64 <? 32)));
  [vm_compute; reflexivity|auto].
Qed.
Lemma byte_low7 b : 0 <= b < 256 -> Z.land b 127 = b mod 128.
Proof. intros. change 127 with (2 ^ 7 - 1). now rewrite land_mod. Qed.
Lemma byte_low5 b : Z.land b 31 = b mod 32.
Proof. change 31 with (2 ^ 5 - 1). now rewrite land_mod. Qed.
Lemma lor_shift x y : 0 <= x < 256 -> Z.lor x (Z.shiftl y 8) = x + 256 * y.
Proof.
  intros H. rewrite <- Z.lxor_lor, <- Z.add_nocarry_lxor.
  - rewrite Z.shiftl_mul_pow2 by lia. lia.
  - apply Z.bits_inj'. intros n Hn. rewrite Z.land_spec, Z.bits_0.
    destruct (Z.ltb_spec n 8).
    + rewrite Z.shiftl_spec_low by lia. apply andb_false_r.
    + rewrite (Z.bits_above_log2 x); [reflexivity|lia|].
      destruct (Z.eq_dec x 0) as [->|]; [cbn; lia|].
      assert (Z.log2 x < 8) by (apply Z.log2_lt_pow2; lia). lia.
  - apply Z.bits_inj'. intros n Hn. rewrite Z.land_spec, Z.bits_0.
    destruct (Z.ltb_spec n 8).
    + rewrite Z.shiftl_spec_low by lia. apply andb_false_r.
    + rewrite (Z.bits_above_log2 x); [reflexivity|lia|].
      destruct (Z.eq_dec x 0) as [->|]; [cbn; lia|].
      assert (Z.log2 x < 8) by (apply Z.log2_lt_pow2; lia). lia.
Qed.

(** Leading bytes. *)
Lemma index_1byte c b : 0 <= b < 128 -> eats c read_index [b] b c.
Proof.
  intros H. unfold read_index. eapply eats_bind_last; [apply eats_u8|].
  rewrite byte_bit7 by lia. replace (b <? 128) with true by (symmetry; apply Z.ltb_lt; lia).
  rewrite byte_low7 by lia. rewrite Z.mod_small by lia. apply eats_ret.
Qed.
Lemma index_2byte c b x : 128 <= b < 192 -> 0 <= x < 256 ->
  eats c read_index [b; x] ((if b mod 64 <? 32 then 1 else -1) * (b mod 32 * 256 + x)) c.
Proof.
  intros H Hx. unfold read_index. change [b; x] with ([b] ++ [x]).
  eapply eats_bind; [apply eats_u8|].
  rewrite byte_bit7, byte_bit6, byte_bit5 by lia.
  replace (b <? 128) with false by (symmetry; apply Z.ltb_ge; lia).
  replace (b mod 128) with (b - 128) by (apply Z.mod_unique with 1; lia).
  replace (b - 128 <? 64) with true by (symmetry; apply Z.ltb_lt; lia).
  eapply eats_bind_last; [apply eats_unwrap, eats_u8|]. cbv zeta.
  rewrite lor_shift, byte_low5 by lia.
  replace (if b mod 64 <? 32 then x + 256 * (b mod 32) else - (x + 256 * (b mod 32)))
    with ((if b mod 64 <? 32 then 1 else -1) * (b mod 32 * 256 + x)) by (destruct (_ <? _); lia).
  apply eats_ret.
Qed.
Lemma index_4byte c b x y z : 192 <= b < 256 -> 0 <= x < 256 -> 0 <= y < 256 -> 0 <= z < 256 ->
  eats c read_index [b; x; y; z] (to_signed 32 (b + 256 * x + 65536 * y + 16777216 * z)) c.
Proof.
  intros H Hx Hy Hz. unfold read_index. change [b; x; y; z] with ([b] ++ [x] ++ [y] ++ [z]).
  eapply eats_bind; [apply eats_u8|].
  rewrite byte_bit7, byte_bit6 by lia.
  replace (b <? 128) with false by (symmetry; apply Z.ltb_ge; lia).
  replace (b mod 128) with (b - 128) by (apply Z.mod_unique with 1; lia).
  replace (b - 128 <? 64) with false by (symmetry; apply Z.ltb_ge; lia).
  eapply eats_bind; [apply eats_u8|]. eapply eats_bind; [apply eats_u8|].
  eapply eats_bind_last; [apply eats_u8|]. cbn [from_le].
  replace (b + 256 * x + 65536 * y + 16777216 * z)
    with (b + 256 * (x + 256 * (y + 256 * (z + 256 * 0)))) by lia.
  apply eats_ret.
Qed.

Lemma eats_index c v : small v -> eats c read_index (enc_index v) v c.
Proof.
  unfold small. intros H. unfold enc_index.
  destruct (Z.leb_spec 0 v), (Z.ltb_spec v 128); cbn [andb];
    try (apply index_1byte; lia); try (exfalso; lia).
  - replace (v <? 0) with false by (symmetry; apply Z.ltb_ge; lia).
    replace (Z.abs v <? 8192) with true by (symmetry; apply Z.ltb_lt; lia).
    rewrite Z.abs_eq by lia.
    assert (0 <= v / 256 < 32) by (split; [apply Z.div_pos|apply Z.div_lt_upper_bound]; lia).
    replace v with ((if (128 + 0 + v / 256) mod 64 <? 32 then 1 else -1) *
                    ((128 + 0 + v / 256) mod 32 * 256 + v mod 256)) at 3.
    + apply index_2byte; [lia|apply Z.mod_pos_bound; lia].
    + replace ((128 + 0 + v / 256) mod 64) with (v / 256) by (apply Z.mod_unique with 2; lia).
      replace ((128 + 0 + v / 256) mod 32) with (v / 256) by (apply Z.mod_unique with 4; lia).
      replace (v / 256 <? 32) with true by (symmetry; apply Z.ltb_lt; lia).
      pose proof (Z.div_mod v 256). lia.
  - replace (v <? 0) with true by (symmetry; apply Z.ltb_lt; lia).
    set (a := Z.abs v). assert (v = - a) by lia. assert (0 < a < 8192) by lia. clearbody a. subst v.
    replace (a <? 8192) with true by (symmetry; apply Z.ltb_lt; lia).
    assert (0 <= a / 256 < 32) by (split; [apply Z.div_pos|apply Z.div_lt_upper_bound]; lia).
    replace (- a) with ((if (128 + 32 + a / 256) mod 64 <? 32 then 1 else -1) *
                    ((128 + 32 + a / 256) mod 32 * 256 + a mod 256)).
    + apply index_2byte; [lia|apply Z.mod_pos_bound; lia].
    + replace ((128 + 32 + a / 256) mod 64) with (32 + a / 256) by (apply Z.mod_unique with 2; lia).
      replace ((128 + 32 + a / 256) mod 32) with (a / 256) by (apply Z.mod_unique with 5; lia).
      replace (32 + a / 256 <? 32) with false by (symmetry; apply Z.ltb_ge; lia).
      pose proof (Z.div_mod a 256). lia.
Qed.

Lemma usmall_small v : usmall v -> small v.
Proof. unfold usmall, small. lia. Qed.
Lemma eats_INDEX c v : small v -> eats c INDEX (enc_index v) v c.
Proof. intros. apply eats_unwrap. now apply eats_index. Qed.
Lemma eats_UINDEX c v : usmall v -> eats c UINDEX (enc_index v) v c.
Proof.
  intros H. unfold UINDEX. eapply eats_bind_last;
    [apply eats_unwrap_mapped, eats_INDEX; now apply usmall_small|].
  destruct (Z.ltb_spec v 0); [unfold usmall in H; lia|]. apply eats_ret.
Qed.
