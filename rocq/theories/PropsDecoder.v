(** Theorems C23-C26: the primitive reads of the decoder.
    Model: DecoderModel.v.  Vocabulary: FormatSpec.v, ReaderSpec.v. *)
From Verif Require Import Prelude StdModel BrassTypes DecoderModel CodeModel FormatSpec ReaderSpec.
From Verif Require Import CodeGenericProofs FormatProofs.
From Coq Require Import Lia ZifyBool.
Ltac Zify.zify_post_hook ::= Z.div_mod_to_equations.

(** * C23 *)
(** The fixed-width readers: name, reading function, width in bytes, signedness. *)
Inductive fixed := RU8 | RI8 | RU16 | RI16 | RU32 | RI32 | RU64 | RI64 | RF64.
Definition reader (k : fixed) : M Z :=
  match k with
  | RU8 => decode_u8 | RI8 => decode_i8 | RU16 => decode_u16 | RI16 => decode_i16
  | RU32 => decode_u32 | RI32 => decode_i32 | RU64 => decode_u64 | RI64 => decode_i64
  | RF64 => decode_f64
  end.
Definition width (k : fixed) : Z :=
  match k with RU8 | RI8 => 1 | RU16 | RI16 => 2 | RU32 | RI32 => 4 | RU64 | RI64 | RF64 => 8 end.
Definition is_signed (k : fixed) : bool :=
  match k with RI8 | RI16 | RI32 | RI64 => true | _ => false end.
(** [v] is the little-endian value of [bs]: the number in the type's range congruent to
    b0 + 256 b1 + 65536 b2 + ... modulo 256^width. *)
Definition le_sum (bs : list Z) : Z := fold_right (fun b v => b + 256 * v) 0 bs.
Definition is_value (k : fixed) (bs : list Z) (v : Z) : Prop :=
  let m := 2 ^ (8 * width k) in
  v mod m = le_sum bs mod m /\ (if is_signed k then - (m / 2) <= v < m / 2 else 0 <= v < m).

Lemma from_le_sum bs : from_le bs = le_sum bs.
Proof. induction bs as [|b r IH]; [reflexivity|]. cbn [from_le]. rewrite IH. reflexivity. Qed.

Lemma to_signed_range n v : 0 < n -> 0 <= v < 2 ^ n ->
  to_signed n v mod 2 ^ n = v mod 2 ^ n /\ - (2 ^ n / 2) <= to_signed n v < 2 ^ n / 2.
Proof.
  intros Hn Hv. unfold to_signed. assert (E : 2 ^ n = 2 * 2 ^ (n - 1)).
  { rewrite <- (Z.pow_succ_r 2) by lia. f_equal. lia. }
  assert (0 < 2 ^ (n - 1)) by (apply Z.pow_pos_nonneg; lia).
  destruct (Z.ltb_spec v (2 ^ (n - 1))).
  - split; [reflexivity|]. rewrite E, Z.mul_comm, Z.div_mul by lia. lia.
  - split.
    + replace (v - 2 ^ n) with (v + (-1) * 2 ^ n) by lia. apply Z.mod_add. lia.
    + rewrite E, Z.mul_comm, Z.div_mul by lia. lia.
Qed.

(** Each reader decodes the next [width] bytes little-endian and consumes exactly those. *)
Theorem C23_value k s : bytes (d_buf s) -> width k <= zlen (d_buf s) ->
  exists v, is_value k (firstn (Z.to_nat (width k)) (d_buf s)) v /\ reader k s = (Ok v, after s (width k)).
Proof.
  intros B L. set (bs := firstn (Z.to_nat (width k)) (d_buf s)).
  assert (Bb : bytes bs) by now apply bytes_firstn.
  assert (Lb : Z.of_nat (length bs) = width k).
  { unfold bs. rewrite firstn_length. unfold zlen in L. destruct k; cbn in *; lia. }
  pose proof (from_le_bound bs Bb) as R. rewrite Lb in R.
  assert (P : 256 ^ width k = 2 ^ (8 * width k)) by (destruct k; reflexivity). rewrite P in R.
  assert (W : 0 < 8 * width k) by (destruct k; cbn; lia).
  destruct (is_signed k) eqn:Sg.
  - exists (to_signed (8 * width k) (from_le bs)). split.
    + unfold is_value. rewrite Sg. cbv zeta. rewrite <- (from_le_sum bs). now apply to_signed_range.
    + assert (Q : reader k = decode_signed (width k)) by (destruct k; try discriminate; reflexivity).
      rewrite Q. unfold decode_signed, bind, read_bytes.
      destruct (Z.ltb_spec (zlen (d_buf s)) (width k)); [lia|]. reflexivity.
  - exists (from_le bs). split.
    + unfold is_value. rewrite Sg. cbv zeta. rewrite <- (from_le_sum bs). split; [reflexivity|exact R].
    + assert (Q : reader k = decode_unsigned (width k)) by (destruct k; try discriminate; reflexivity).
      rewrite Q. unfold decode_unsigned, bind, read_bytes.
      destruct (Z.ltb_spec (zlen (d_buf s)) (width k)); [lia|]. reflexivity.
Qed.

(** On short input: NoMoreData at the current position, nothing consumed. *)
Theorem C23_short k s : zlen (d_buf s) < width k ->
  reader k s = (Err {| e_kind := NoMoreData; e_pos := d_pos s |}, s).
Proof.
  intros L.
  assert (Q : reader k = decode_signed (width k) \/ reader k = decode_unsigned (width k))
    by (destruct k; auto; right; reflexivity).
  destruct Q as [-> | ->]; unfold decode_signed, decode_unsigned, bind, read_bytes;
    (destruct (Z.ltb_spec (zlen (d_buf s)) (width k)); [reflexivity|lia]).
Qed.

(** The value is unique, so the two theorems above determine every read. *)
Theorem C23_unique k bs v w : is_value k bs v -> is_value k bs w -> v = w.
Proof.
  unfold is_value. destruct k; cbn -[Z.modulo Z.pow Z.div]; 
  (change (2 ^ 8) with 256 || change (2 ^ 16) with 65536 || change (2 ^ 32) with 4294967296
   || change (2 ^ 64) with 18446744073709551616); lia.
Qed.

(** Round trip with the little-endian writer of the format. *)
Theorem C23_roundtrip k v s rest :
  (if is_signed k then - (2 ^ (8 * width k) / 2) <= v < 2 ^ (8 * width k) / 2 else 0 <= v < 2 ^ (8 * width k)) ->
  d_buf s = enc_le (Z.to_nat (width k)) v ++ rest ->
  reader k s = (Ok v, {| d_buf := rest; d_pos := d_pos s + width k; d_code := d_code s; errs := errs s; d_log := d_log s |}).
Proof.
  intros R E.
  assert (L : zlen (enc_le (Z.to_nat (width k)) v) = width k).
  { unfold zlen, enc_le. rewrite le_bytes_length. destruct k; reflexivity. }
  assert (P : 256 ^ Z.of_nat (Z.to_nat (width k)) = 2 ^ (8 * width k)) by (destruct k; reflexivity).
  assert (F : firstn (Z.to_nat (width k)) (d_buf s) = enc_le (Z.to_nat (width k)) v).
  { rewrite E, firstn_app. replace (length (enc_le (Z.to_nat (width k)) v)) with (Z.to_nat (width k)).
    - rewrite Nat.sub_diag, firstn_O, app_nil_r. apply firstn_all2. unfold enc_le. rewrite le_bytes_length. lia.
    - unfold enc_le. now rewrite le_bytes_length. }
  assert (K : skipn (Z.to_nat (width k)) (d_buf s) = rest).
  { rewrite E, skipn_app. replace (length (enc_le (Z.to_nat (width k)) v)) with (Z.to_nat (width k)).
    - rewrite Nat.sub_diag. cbn [skipn]. rewrite skipn_all2; [reflexivity|].
      unfold enc_le. rewrite le_bytes_length. lia.
    - unfold enc_le. now rewrite le_bytes_length. }
  assert (Lb : width k <= zlen (d_buf s)).
  { rewrite E, zlen_app, L. pose proof (zlen_nonneg rest). lia. }
  assert (V : from_le (enc_le (Z.to_nat (width k)) v) = v mod 2 ^ (8 * width k)).
  { unfold enc_le. rewrite from_le_bytes, P; [reflexivity|]. rewrite P.
    apply Z.mod_pos_bound, Z.pow_pos_nonneg; [lia|destruct k; cbn; lia]. }
  destruct (is_signed k) eqn:Sg.
  - assert (Q : reader k = decode_signed (width k)) by (destruct k; try discriminate; reflexivity).
    rewrite Q. unfold decode_signed, bind, read_bytes.
    destruct (Z.ltb_spec (zlen (d_buf s)) (width k)); [lia|]. rewrite F, K, V. unfold ret. f_equal. f_equal.
    destruct k; try discriminate; unfold to_signed; cbn -[Z.modulo Z.pow Z.div] in *;
    change (2 ^ 7) with 128 in *; change (2 ^ 8) with 256 in *; change (2 ^ 15) with 32768 in *;
    change (2 ^ 16) with 65536 in *; change (2 ^ 31) with 2147483648 in *; change (2 ^ 32) with 4294967296 in *;
    change (2 ^ 63) with 9223372036854775808 in *; change (2 ^ 64) with 18446744073709551616 in *;
    match goal with |- (if ?b then _ else _) = _ => destruct b eqn:? end; lia.
  - assert (Q : reader k = decode_unsigned (width k)) by (destruct k; try discriminate; reflexivity).
    rewrite Q. unfold decode_unsigned, bind, read_bytes.
    destruct (Z.ltb_spec (zlen (d_buf s)) (width k)); [lia|]. rewrite F, K, V. unfold ret. f_equal. f_equal.
    apply Z.mod_small. exact R.
Qed.
Example C23_ex :
  decode_i16 (mk [254; 255; 9] 3 code_new) = (Ok (-2), mk [9] 5 code_new) /\
  decode_u32 (mk [1; 2; 0; 128] 0 code_new) = (Ok 2147484161, mk [] 4 code_new) /\
  decode_i32 (mk [1; 2; 3] 7 code_new) = (Err {| e_kind := NoMoreData; e_pos := 7 |}, mk [1; 2; 3] 7 code_new).
Proof. repeat split; vm_compute; reflexivity. Qed.

(** * C24 *)
Lemma good_exact {A} (m : M A) : (forall w, Good w m) -> exact_position m.
Proof. intros G s r s' B E. destruct (g_fwd _ _ (G true) s r s' B E) as [H _]. exact H. Qed.

(** Every reading function of the API, for any argument. *)
Theorem C24_functions :
  (forall k, exact_position (reader k)) /\ exact_position read_index /\ exact_position INDEX /\
  exact_position UINDEX /\ exact_position read_string /\ exact_position read_ustring /\
  exact_position get_type /\ exact_position read_type /\
  (forall n lens, exact_position (read_strings n lens)) /\ exact_position read_function /\
  exact_position read_opcode /\ (forall nops, exact_position (debug_infos nops)) /\
  exact_position code_read.
Proof.
  repeat split; intros; apply good_exact; intros w.
  - destruct k; (apply good_decode_unsigned || apply good_decode_signed); lia.
  - apply good_read_index.
  - apply good_INDEX.
  - apply good_UINDEX.
  - apply good_read_string.
  - apply good_read_ustring.
  - apply good_get_type.
  - apply good_read_type.
  - apply good_read_strings.
  - apply good_read_function.
  - apply good_read_opcode.
  - apply good_debug_infos.
  - apply good_code_read.
Qed.

(** In particular for a whole read, whatever its outcome: the position plus the number of remaining
    bytes is the input length, and the remaining bytes are the input from that position on. *)
Theorem C24_whole_read e buf r s' : bytes buf -> code_read (start e buf) = (r, s') ->
  0 <= d_pos s' <= zlen buf /\ d_pos s' + zlen (d_buf s') = zlen buf /\
  d_buf s' = skipn (Z.to_nat (d_pos s')) buf.
Proof.
  intros B E. destruct C24_functions as (_ & _ & _ & _ & _ & _ & _ & _ & _ & _ & _ & _ & H).
  destruct (H (start e buf) r s' B E) as (used & U & P). cbn in U, P.
  assert (P' : d_pos s' = zlen used) by lia. rewrite U, zlen_app, P'.
  pose proof (zlen_nonneg used). pose proof (zlen_nonneg (d_buf s')).
  repeat split; try lia. rewrite skipn_app, to_nat_zlen, skipn_all, Nat.sub_diag. reflexivity.
Qed.
Example C24_ex : exists s', code_read (start None [72; 76; 66; 9; 1]) =
  (Err {| e_kind := UnsupportedBytecodeVersion; e_pos := 4 |}, s') /\ d_buf s' = [1].
Proof. eexists. split; vm_compute; reflexivity. Qed.

(** * C25 *)
(** One- and two-byte indices decode to themselves, consuming exactly their encoding. *)
Theorem C25_short_partial c v : -8192 < v < 8192 -> eats c read_index (enc_index v) v c.
Proof. exact (eats_index c v). Qed.
Theorem C25_short_unsigned_partial c v : 0 <= v < 8192 -> eats c UINDEX (enc_index v) v c.
Proof. exact (eats_UINDEX c v). Qed.
(** No four-byte index decodes to its value. *)
Theorem C25_long_refuted c v : 8192 <= Z.abs v < 2 ^ 29 ->
  exists w, w <> v /\ eats c read_index (enc_index v) w c.
Proof.
  intros H. change (2 ^ 29) with 536870912 in H.
  set (a := Z.abs v) in *. set (sg := if v <? 0 then 32 else 0).
  assert (E : enc_index v = [192 + sg + a / 16777216; a / 65536 mod 256; a / 256 mod 256; a mod 256]).
  { unfold enc_index. fold a sg. change (2 ^ 24) with 16777216. change (2 ^ 16) with 65536.
    destruct (Z.leb_spec 0 v), (Z.ltb_spec v 128); cbn [andb];
      try (exfalso; unfold a in *; lia); destruct (Z.ltb_spec a 8192); try lia; reflexivity. }
  assert (S : sg = 0 \/ sg = 32) by (unfold sg; destruct (v <? 0); auto).
  assert (A : 0 <= a / 16777216 < 32) by lia.
  eexists. split; [|rewrite E; apply index_4byte; lia].
  unfold to_signed. change (2 ^ (32 - 1)) with 2147483648. change (2 ^ 32) with 4294967296.
  set (b := 192 + sg + a / 16777216).
  assert (V : (v < 0 /\ sg = 32 /\ v = - a) \/ (0 <= v /\ sg = 0 /\ v = a)).
  { unfold sg, a. destruct (Z.ltb_spec v 0); lia. }
  set (x := a / 65536 mod 256). set (y := a / 256 mod 256).
  assert (X : 0 <= x < 256) by (unfold x; lia). assert (Y : 0 <= y < 256) by (unfold y; lia).
  clearbody x y. set (z := a mod 256).
  assert (Z0 : 0 <= z < 256) by (unfold z; lia).
  assert (Zm : exists q, a = 256 * q + z) by (exists (a / 256); unfold z; lia).
  clearbody z. destruct Zm as [q Hq]. unfold b. clear b E. set (t := a / 16777216) in *. clearbody t a sg.
  clear H. intros W.
  destruct (Z.ltb_spec (192 + sg + t + 256 * x + 65536 * y + 16777216 * z) 2147483648);
    destruct V as [(V1 & -> & V2)|(V1 & -> & V2)]; lia.
Qed.
Example C25_ex : eats code_new read_index (enc_index (-300)) (-300) code_new /\
  read_index (mk (enc_index 8192) 0 code_new) = (Ok 2097344, mk [] 4 code_new).
Proof. split; [apply C25_short_partial; lia|vm_compute; reflexivity]. Qed.

(** * C26 *)
(** Bytes consumed by an index whose first byte is [b]. *)
Definition index_len (b : Z) : Z := if b <? 128 then 1 else if b <? 192 then 2 else 4.
Definition index_range (b v : Z) : Prop :=
  if b <? 128 then 0 <= v <= 127 else if b <? 192 then -8191 <= v <= 8191 else - 2 ^ 31 <= v < 2 ^ 31.

Lemma u8_at s x t : d_buf s = x :: t -> decode_u8 s = (Ok x, after s 1).
Proof.
  intros E. unfold decode_u8, decode_unsigned, bind, read_bytes. rewrite E, zlen_cons.
  pose proof (zlen_nonneg t). destruct (Z.ltb_spec (1 + zlen t) 1); [lia|].
  unfold ret, after. rewrite E. f_equal. f_equal. change (firstn (Z.to_nat 1) (x :: t)) with [x]. cbn [from_le]. lia.
Qed.
Lemma u8_none s : d_buf s = [] -> exists e, decode_u8 s = (Err e, s).
Proof. intros E. unfold decode_u8, decode_unsigned, bind, read_bytes. rewrite E. eexists. reflexivity. Qed.

Theorem C26_complete s b r : bytes (d_buf s) -> d_buf s = b :: r -> index_len b <= zlen (d_buf s) ->
  exists v, index_range b v /\ read_index s = (Ok v, after s (index_len b)).
Proof.
  intros B E L. rewrite E in L. pose proof B as B0. rewrite E in B0. apply Forall_cons_iff in B0.
  destruct B0 as [Hb Br]. unfold is_byte in Hb.
  pose proof u8_at as U8.
  unfold read_index, bind. rewrite (U8 s b r E), byte_bit7 by lia.
  unfold index_len, index_range in *. destruct (Z.ltb_spec b 128).
  - exists (Z.land b 127). rewrite byte_low7 by lia. split; [lia|]. reflexivity.
  - rewrite byte_bit6 by lia. destruct (Z.ltb_spec b 192).
    + replace (b mod 128 <? 64) with true by lia.
      destruct r as [|x t]; [change (zlen [b]) with 1 in L; lia|].
      apply Forall_cons_iff in Br. destruct Br as [Hx _]. unfold is_byte in Hx.
      unfold unwrap. rewrite (U8 (after s 1) x t) by (unfold after; rewrite E; reflexivity).
      rewrite byte_low5, lor_shift, byte_bit5 by lia.
      eexists. split; [|unfold ret; f_equal; unfold after; cbn; rewrite E; cbn; f_equal; lia].
      destruct (b mod 64 <? 32); lia.
    + replace (b mod 128 <? 64) with false by lia.
      destruct r as [|x [|y [|z t]]]; cbn in L; try (unfold zlen in L; cbn in L; lia).
      rewrite (U8 (after s 1) x (y :: z :: t)) by (unfold after; rewrite E; reflexivity).
      rewrite (U8 (after (after s 1) 1) y (z :: t)) by (unfold after; cbn; rewrite E; reflexivity).
      rewrite (U8 (after (after (after s 1) 1) 1) z t) by (unfold after; cbn; rewrite E; reflexivity).
      eexists. split; [|unfold ret; f_equal; unfold after; cbn; rewrite E; cbn; f_equal; lia].
      apply Forall_cons_iff in Br. destruct Br as [Hx Br]. apply Forall_cons_iff in Br. destruct Br as [Hy Br].
      apply Forall_cons_iff in Br. destruct Br as [Hz _]. unfold is_byte in *.
      assert (R : 0 <= from_le [b; x; y; z] < 2 ^ 32).
      { cbn [from_le]. change (2 ^ 32) with 4294967296. lia. }
      destruct (to_signed_range 32 _ ltac:(lia) R) as [_ Q]. exact Q.
Qed.

(** On short input no index is produced. *)
Theorem C26_short s : bytes (d_buf s) ->
  (d_buf s = [] \/ exists b r, d_buf s = b :: r /\ zlen (d_buf s) < index_len b) ->
  forall v s', read_index s <> (Ok v, s').
Proof.
  intros B [E|(b & r & E & L)] v s' R.
  - unfold read_index, bind, decode_u8, decode_unsigned, bind, read_bytes in R. rewrite E in R. discriminate.
  - destruct (g_fwd _ _ (good_read_index true) _ _ _ B R) as [(used & U & P) _].
    rewrite E in B. apply Forall_cons_iff in B. destruct B as [Hb Br]. unfold is_byte in Hb.
    pose proof u8_at as U8. pose proof u8_none as U0.
    rewrite E in L. unfold index_len in L. revert R. unfold read_index, bind. rewrite (U8 s b r E), byte_bit7 by lia.
    destruct (Z.ltb_spec b 128); [rewrite zlen_cons in L; pose proof (zlen_nonneg r); lia|].
    rewrite byte_bit6 by lia. destruct (Z.ltb_spec b 192).
    + replace (b mod 128 <? 64) with true by lia.
      destruct r as [|x t]; [|rewrite !zlen_cons in L; pose proof (zlen_nonneg t); lia].
      destruct (U0 (after s 1)) as [e Q]; [unfold after; rewrite E; reflexivity|].
      unfold unwrap. rewrite Q. discriminate.
    + replace (b mod 128 <? 64) with false by lia.
      destruct r as [|x r].
      { destruct (U0 (after s 1)) as [e Q]; [unfold after; rewrite E; reflexivity|]. rewrite Q. discriminate. }
      rewrite (U8 (after s 1) x r) by (unfold after; rewrite E; reflexivity).
      destruct r as [|y r].
      { destruct (U0 (after (after s 1) 1)) as [e Q]; [unfold after; cbn; rewrite E; reflexivity|]. rewrite Q. discriminate. }
      rewrite (U8 (after (after s 1) 1) y r) by (unfold after; cbn; rewrite E; reflexivity).
      destruct r as [|z r].
      { destruct (U0 (after (after (after s 1) 1) 1)) as [e Q]; [unfold after; cbn; rewrite E; reflexivity|].
        rewrite Q. discriminate. }
      exfalso. rewrite !zlen_cons in L. pose proof (zlen_nonneg r). lia.
Qed.
Example C26_ex : index_len 161 = 2 /\ read_index (mk [161; 44; 7] 10 code_new) = (Ok (-300), mk [7] 12 code_new)
  /\ read_index (mk [161] 10 code_new) = (Panic PUnwrap, mk [] 11 code_new)
  /\ read_index (mk [200; 1; 2] 10 code_new) = (Err {| e_kind := NoMoreData; e_pos := 13 |}, mk [] 13 code_new).
Proof. repeat split; vm_compute; reflexivity. Qed.
