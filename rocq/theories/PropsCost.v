(** Theorem C78: what refusing a damaged file costs.  Model: CodeModel.v.  Vocabulary: ErrSpec.v. *)
From Verif Require Import Prelude StdModel BrassTypes DecoderModel CodeModel FormatSpec ReaderSpec ErrSpec.
From Verif Require Import CodeGenericProofs FormatProofs StringsProofs ReaderPost ErrProofs ErrExact.
From Coq Require Import Lia ZifyBool.
Ltac Zify.zify_post_hook ::= Z.div_mod_to_equations.

(** A decoder of [w]-byte values: it takes [w] bytes, or fails with NoMoreData and takes nothing. *)
Definition takes (w : Z) (d : M Z) : Prop := 0 < w /\ forall b p c l,
  (w <= zlen b -> exists x, d (S_ b p c l) = (Ok x, S_ (skipn (Z.to_nat w) b) (p + w) c l)) /\
  (zlen b < w -> d (S_ b p c l) = (Err (err NoMoreData p), S_ b p c l)).
Lemma takes_i32 : takes 4 decode_i32.
Proof.
  split; [lia|]. intros b p c l. unfold decode_i32, decode_signed, bind, read_bytes. cbn [d_buf S_]. split; intros L.
  - eexists. destruct (Z.ltb_spec (zlen b) 4); [lia|]. reflexivity.
  - destruct (Z.ltb_spec (zlen b) 4); [reflexivity|lia].
Qed.
Lemma takes_f64 : takes 8 decode_f64.
Proof.
  split; [lia|]. intros b p c l. unfold decode_f64, decode_u64, decode_unsigned, bind, read_bytes. cbn [d_buf S_]. split; intros L.
  - eexists. destruct (Z.ltb_spec (zlen b) 8); [lia|]. reflexivity.
  - destruct (Z.ltb_spec (zlen b) 8); [reflexivity|lia].
Qed.
Definition body (d : M Z) (i : Z) (l : list Z) : M (list Z) :=
  r <- ok_mapped d ;; match r with Some x => vec_insert l i x | None => ret l end.
Lemma table_cut w d n : takes w d -> forall i b p c l acc, zlen b < w ->
  for_loop n i (body d) acc (S_ b p c l) = (Ok acc, S_ b p c (l ++ repeat (err NoMoreData p) n)).
Proof.
  intros [_ T]. induction n as [|n IH]; intros i b p c l acc L; cbn [for_loop repeat]; [now rewrite app_nil_r|].
  assert (E : body d i acc (S_ b p c l) = (Ok acc, S_ b p c (l ++ [err NoMoreData p]))).
  { unfold body, bind, ok_mapped. rewrite (proj2 (T b p c l)) by auto. rewrite map_S by reflexivity. reflexivity. }
  rewrite (bind_step _ _ _ _ _ E), IH by auto. now rewrite <- app_assoc.
Qed.
Lemma insert_end (l : list Z) x : zinsert l (zlen l) x = Some (l ++ [x]).
Proof. now apply FormatProofs.zinsert_end. Qed.
Lemma body_step w d b p c l acc : takes w d -> w <= zlen b ->
  exists x, body d (zlen acc) acc (S_ b p c l) = (Ok (acc ++ [x]), S_ (skipn (Z.to_nat w) b) (p + w) c l) /\ zlen (skipn (Z.to_nat w) b) = zlen b - w.
Proof.
  intros [W T] H. destruct (proj1 (T b p c l) H) as [x Ex]. exists x. split.
  - unfold body, bind, ok_mapped. rewrite Ex. unfold vec_insert, expect. rewrite insert_end. reflexivity.
  - unfold zlen in *. rewrite skipn_length. lia.
Qed.
Lemma table_S w d n : takes w d -> forall b p c l acc, zlen b < w * Z.of_nat n -> let k := zlen b / w in
  exists acc' b', for_loop n (zlen acc) (body d) acc (S_ b p c l) =
    (Ok acc', S_ b' (p + w * k) c (l ++ repeat (err NoMoreData (p + w * k)) (n - Z.to_nat k))).
Proof.
  intros T. assert (W := proj1 T). induction n as [|n IH]; intros b p c l acc L; cbv zeta; [pose proof (zlen_nonneg b); lia|].
  pose proof (zlen_nonneg b) as Lb. destruct (Z.lt_ge_cases (zlen b) w) as [H|H].
  - rewrite (Z.div_small (zlen b) w) by lia. rewrite (table_cut w) by auto. exists acc, b. rewrite Z.mul_0_r, Z.add_0_r. reflexivity.
  - destruct (body_step w d b p c l acc T H) as (x & E & Ls). cbn [for_loop]. rewrite (bind_step _ _ _ _ _ E).
    replace (zlen acc + 1) with (zlen (acc ++ [x])) by (rewrite zlen_app; reflexivity).
    destruct (IH (skipn (Z.to_nat w) b) (p + w) c l (acc ++ [x]) ltac:(rewrite Ls; lia)) as (acc' & b' & ->). exists acc', b'. rewrite Ls.
    assert (D : zlen b / w = (zlen b - w) / w + 1).
    { replace (zlen b) with ((zlen b - w) + 1 * w) at 1 by lia. rewrite Z.div_add by lia. reflexivity. }
    pose proof (Z.div_pos (zlen b - w) w ltac:(lia) W). set (k := (zlen b - w) / w) in *. rewrite D.
    replace (p + w + w * k) with (p + w * (k + 1)) by lia.
    replace (n - Z.to_nat k)%nat with (S n - Z.to_nat (k + 1))%nat by lia. reflexivity.
Qed.
Lemma table_full w d n : takes w d -> forall b p c l acc, w * Z.of_nat n <= zlen b ->
  exists acc' b', for_loop n (zlen acc) (body d) acc (S_ b p c l) = (Ok acc', S_ b' (p + w * Z.of_nat n) c l) /\ zlen b' = zlen b - w * Z.of_nat n.
Proof.
  intros T. assert (W := proj1 T). induction n as [|n IH]; intros b p c l acc L; cbn [for_loop].
  - exists acc, b. rewrite Z.mul_0_r, Z.add_0_r. split; [reflexivity|lia].
  - destruct (body_step w d b p c l acc T ltac:(lia)) as (x & E & Ls). rewrite (bind_step _ _ _ _ _ E).
    replace (zlen acc + 1) with (zlen (acc ++ [x])) by (rewrite zlen_app; reflexivity).
    destruct (IH (skipn (Z.to_nat w) b) (p + w) c l (acc ++ [x]) ltac:(rewrite Ls; lia)) as (acc' & b' & -> & L'). exists acc', b'.
    split; [f_equal; f_equal; lia|lia].
Qed.
Lemma kept_repeat p n : (0 < n)%nat -> kept None (repeat (err NoMoreData p) n) = Some (err NoMoreData p).
Proof.
  destruct n as [|n]; [lia|]. intros _. cbn [repeat]. apply kept_first; [reflexivity|]. apply Forall_forall. intros x Hx. apply repeat_spec in Hx. now subst.
Qed.

(** * C78 *)
(** A file of any version whose integer table is cut short, whatever its header counts (not negative) and however they are encoded: it is
    refused at the first missing integer, but only after one error for each of the missing ones: the reader goes on to the end
    of the announced table. *)
Theorem C78_cut_integers v encs ks nints rest : 2 <= v <= 5 -> bytes (concat encs ++ rest) ->
  map index_value encs = map Some ks -> zlen ks = nfields v -> Forall (fun k => 0 <= k) ks ->
  nth_error ks 1 = Some nints -> zlen rest < 4 * nints ->
  let p := 4 + zlen (concat encs) + 4 * (zlen rest / 4) in
  let e := {| e_kind := NoMoreData; e_pos := p |} in
  exists s, code_read (start None ([72; 76; 66; v] ++ concat encs ++ rest)) = (Err e, s) /\
    d_log s = repeat e (Z.to_nat (nints - zlen rest / 4)).
Proof.
  intros Hv B E L F N C. cbv zeta. unfold code_read. cbv zeta. rewrite (bind_step _ _ _ _ _ (magic_S v _ Hv)).
  unfold bind at 1. rewrite (counts_S v _ ks) by auto. rewrite end_S, (negs_none encs ks) by auto. cbn [kept]. cbv iota.
  assert (Ni : c_nints (header_code v ks) = nints).
  { assert (G : c_nints (header_code v ks) = Z.max 0 (nth 1 ks 0)) by (unfold header_code; destruct (5 <=? v), (4 <=? v); reflexivity).
    rewrite G, (nth_error_nth _ _ _ N). rewrite Forall_forall in F. specialize (F nints (nth_error_In _ _ N)). lia. }
  assert (N0 : 0 <= nints) by (rewrite Forall_forall in F; exact (F nints (nth_error_In _ _ N))). pose proof (zlen_nonneg rest).
  set (p := 4 + zlen (concat encs)) in *.
  destruct (table_S 4 decode_i32 (Z.to_nat nints) takes_i32 rest p code_new [] [] ltac:(lia)) as (acc' & b' & R). cbv zeta in R. cbn [app] in R.
  assert (Rt : read_table decode_i32 nints (S_ rest p code_new []) = (Ok acc', S_ b' (p + 4 * (zlen rest / 4)) code_new (repeat (err NoMoreData (p + 4 * (zlen rest / 4))) (Z.to_nat nints - Z.to_nat (zlen rest / 4))))) by exact R.
  unfold bind at 1. unfold read_ints. rewrite Ni. rewrite (bind_step _ _ _ _ _ Rt). rewrite end_S, kept_repeat by lia.
  eexists. split; [reflexivity|]. cbn [d_log S_]. unfold err. f_equal. lia.
Qed.
(** The same for a file cut inside its table of floating-point numbers. *)
Theorem C78_cut_floats v encs ks nints nfloats rest : 2 <= v <= 5 -> bytes (concat encs ++ rest) ->
  map index_value encs = map Some ks -> zlen ks = nfields v -> Forall (fun k => 0 <= k) ks ->
  nth_error ks 1 = Some nints -> nth_error ks 2 = Some nfloats -> 4 * nints <= zlen rest < 4 * nints + 8 * nfloats ->
  let there := (zlen rest - 4 * nints) / 8 in
  let e := {| e_kind := NoMoreData; e_pos := 4 + zlen (concat encs) + 4 * nints + 8 * there |} in
  exists s, code_read (start None ([72; 76; 66; v] ++ concat encs ++ rest)) = (Err e, s) /\
    d_log s = repeat e (Z.to_nat (nfloats - there)).
Proof.
  intros Hv B E L F N N2 C. cbv zeta. unfold code_read. cbv zeta. rewrite (bind_step _ _ _ _ _ (magic_S v _ Hv)).
  unfold bind at 1. rewrite (counts_S v _ ks) by auto. rewrite end_S, (negs_none encs ks) by auto. cbn [kept]. cbv iota.
  rewrite Forall_forall in F. pose proof (F nints (nth_error_In _ _ N)). pose proof (F nfloats (nth_error_In _ _ N2)).
  assert (Ni : c_nints (header_code v ks) = nints).
  { assert (G : c_nints (header_code v ks) = Z.max 0 (nth 1 ks 0)) by (unfold header_code; destruct (5 <=? v), (4 <=? v); reflexivity).
    rewrite G, (nth_error_nth _ _ _ N). lia. }
  assert (Nf : forall l, c_nfloats (set_ints l (header_code v ks)) = nfloats).
  { intros l. assert (G : c_nfloats (set_ints l (header_code v ks)) = Z.max 0 (nth 2 ks 0)) by (unfold header_code; destruct (5 <=? v), (4 <=? v); reflexivity).
    rewrite G, (nth_error_nth _ _ _ N2). lia. }
  set (p := 4 + zlen (concat encs)) in *.
  destruct (table_full 4 decode_i32 (Z.to_nat nints) takes_i32 rest p code_new [] [] ltac:(lia)) as (acc & b & R & Lb).
  rewrite Z2Nat.id in R, Lb by lia.
  assert (Rt : read_table decode_i32 nints (S_ rest p code_new []) = (Ok acc, S_ b (p + 4 * nints) code_new [])) by exact R.
  unfold bind at 1. unfold read_ints. rewrite Ni. rewrite (bind_step _ _ _ _ _ Rt), end_S. cbn [kept]. cbv iota.
  destruct (table_S 8 decode_f64 (Z.to_nat nfloats) takes_f64 b (p + 4 * nints) code_new [] [] ltac:(lia)) as (acc' & b' & R2). cbv zeta in R2. cbn [app] in R2. rewrite Lb in R2.
  set (k := (zlen rest - 4 * nints) / 8) in *.
  assert (Rf : read_table decode_f64 nfloats (S_ b (p + 4 * nints) code_new []) = (Ok acc', S_ b' (p + 4 * nints + 8 * k) code_new (repeat (err NoMoreData (p + 4 * nints + 8 * k)) (Z.to_nat nfloats - Z.to_nat k)))) by exact R2.
  unfold bind at 1. unfold read_floats. rewrite Nf. rewrite (bind_step _ _ _ _ _ Rf). rewrite end_S, kept_repeat by (unfold k; lia).
  eexists. split; [reflexivity|]. cbn [d_log S_]. unfold err. f_equal. unfold k. lia.
Qed.
(** So the work done for a file is not bounded by its size: 16 bytes, at least [n] times round the loop, for every [n] below
    [2^31] that the count can denote in four bytes; e.g. [2^31 - 1]. *)
Definition small_bomb (b x y z : Z) : list Z := [72; 76; 66; 2; 0; b; x; y; z; 0; 0; 0; 0; 0; 0; 0].
Theorem C78_work_refuted b x y z : 192 <= b < 256 -> is_byte x -> is_byte y -> 0 <= z < 128 ->
  let n := b + 256 * x + 65536 * y + 16777216 * z in
  let file := small_bomb b x y z in
  exists s, code_read (start None file) = (Err {| e_kind := NoMoreData; e_pos := 16 |}, s) /\ zlen file = 16 /\ zlen (d_log s) = n.
Proof.
  intros Hb Hx Hy Hz. cbv zeta. unfold is_byte in *. set (n := b + 256 * x + 65536 * y + 16777216 * z).
  assert (V : index_value [b; x; y; z] = Some n).
  { unfold index_value. destruct (Z.leb_spec 192 b); [|lia]. cbv zeta. fold n. destruct (Z.ltb_spec n 2147483648); [reflexivity|unfold n in *; lia]. }
  destruct (C78_cut_integers 2 [[0]; [b; x; y; z]; [0]; [0]; [0]; [0]; [0]; [0]; [0]] [0; n; 0; 0; 0; 0; 0; 0; 0] n []) as (s & R & Ls).
  - lia.
  - cbn [concat app]. unfold bytes, is_byte. repeat constructor; lia.
  - cbn [map]. rewrite V. reflexivity.
  - reflexivity.
  - repeat constructor; unfold n; lia.
  - reflexivity.
  - unfold zlen; cbn [length]; unfold n; lia.
  - exists s. split; [exact R|]. split; [reflexivity|]. rewrite Ls. unfold zlen. rewrite repeat_length. cbn [length]. unfold n. lia.
Qed.
Example C78_ex : exists s, code_read (start None (small_bomb 255 255 255 127)) = (Err {| e_kind := NoMoreData; e_pos := 16 |}, s) /\ zlen (d_log s) = 2147483647.
Proof. destruct (C78_work_refuted 255 255 255 127) as (s & R & _ & L); try (unfold is_byte; lia). eauto. Qed.
(** Two of five integers there. *)
Example C78_ex2 : exists s, code_read (start None ([72; 76; 66; 2; 0; 5; 0; 0; 0; 0; 0; 0; 0] ++ [1; 0; 0; 0; 2; 0; 0; 0; 9; 9])) =
  (Err {| e_kind := NoMoreData; e_pos := 21 |}, s) /\ zlen (d_log s) = 3.
Proof. eexists. split; [vm_compute; reflexivity|reflexivity]. Qed.
(** Both integers and one of three floating-point numbers there. *)
Example C78_ex3 : exists s, code_read (start None ([72; 76; 66; 2; 0; 2; 3; 0; 0; 0; 0; 0; 0] ++ [1; 0; 0; 0; 2; 0; 0; 0; 1; 2; 3; 4; 5; 6; 7; 8; 9])) =
  (Err {| e_kind := NoMoreData; e_pos := 29 |}, s) /\ zlen (d_log s) = 2.
Proof. eexists. split; [vm_compute; reflexivity|reflexivity]. Qed.
