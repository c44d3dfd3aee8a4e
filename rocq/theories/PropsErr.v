(** Theorems C63-C65, C72, C73: what the reader's errors and crashes say about the file, the exact value
    of every variable-length index, and which of several errors is reported.
    Model: DecoderModel.v, CodeModel.v.  Vocabulary: ErrSpec.v. *)
From Verif Require Import Prelude StdModel BrassTypes DecoderModel CodeModel FormatSpec ReaderSpec ErrSpec.
From Verif Require Import CodeGenericProofs FormatProofs ErrProofs ErrExact ErrReturn PropsModule.
From Coq Require Import Lia ZifyBool.
Ltac Zify.zify_post_hook ::= Z.div_mod_to_equations.

(** * C63 *)
(** In a process that has not recorded an error before, every error the reader returns is explained by
    the bytes of the file at the position the error carries. *)
Theorem C63_errors file e cell : bytes file -> read_module None file = (Err e, cell) -> error_explained file e.
Proof.
  intros B R. unfold read_module in R. destruct (code_read (start None file)) as [r s] eqn:X. injection R as -> <-.
  destruct (code_read_explained file B None _ _ X) as [_ [H|H]]; [exact H|discriminate].
Qed.
(** After any earlier calls, it is explained by this file or it is the error left by the earlier call; so
    is the error left for the next call. *)
Theorem C63_later old file e cell : bytes file -> read_module old file = (Err e, cell) ->
  (error_explained file e \/ old = Some e) /\ forall e', cell = Some e' -> error_explained file e' \/ old = Some e'.
Proof.
  intros B R. unfold read_module in R. destruct (code_read (start old file)) as [r s] eqn:X. injection R as -> <-.
  destruct (code_read_explained file B old _ _ X) as [J H]. split; [exact H|]. intros e' E. exact (J_known file old s J e' E).
Qed.
(** Several files read one after the other by one process; calls that crash are caught and the process
    goes on. *)
Inductive reads : list (list Z * res derr code) -> option derr -> Prop :=
| reads_nil : reads [] None
| reads_snoc h old file r cell : reads h old -> bytes file -> read_module old file = (r, cell) ->
    reads (h ++ [(file, r)]) cell.
(** Every error returned is explained by some file read so far: by one that was read without a crash, as
    above, or, if it was left behind by a crash, as above or by a byte section that did not fit. *)
Definition accounted (h : list (list Z * res derr code)) (e : derr) : Prop :=
  exists file r, In (file, r) h /\ match r with Panic _ => error_left file e | _ => error_explained file e end.
Theorem C63_history h cell : reads h cell ->
  (forall file e, In (file, Err e) h -> accounted h e) /\
   (forall e, cell = Some e -> accounted h e).
Proof.
  intros R. induction R as [|h old file r cell R [IH1 IH2] B E]; [split; [intros ? ? []|discriminate]|].
  unfold read_module in E. destruct (code_read (start old file)) as [r0 s] eqn:X. injection E as -> <-.
  pose proof (code_read_explained file B old _ _ X) as Y.
  assert (W : forall e, accounted h e -> accounted (h ++ [(file, r)]) e).
  { intros e (f & q & I & H). exists f, q. split; [rewrite in_app_iff; now left|exact H]. }
  assert (L : In (file, r) (h ++ [(file, r)])) by (rewrite in_app_iff; right; now left).
  split.
  - intros f e I. apply in_app_iff in I. destruct I as [I|[I|[]]].
    + apply W. eapply IH1; eauto.
    + injection I as -> ->. destruct Y as [_ [H|H]]; [|now apply W, IH2]. exists f, (Err e). auto.
  - intros e Q. destruct r as [c|e0|p].
    + destruct (J_known _ _ _ Y e Q) as [H|H]; [|now apply W, IH2]. exists file, (Ok c). auto.
    + destruct (J_known _ _ _ (proj1 Y) e Q) as [H|H]; [|now apply W, IH2]. exists file, (Err e0). auto.
    + destruct Y as [_ (_ & _ & K & F & _)]. rewrite K in Q. apply kept_in in Q. destruct Q as [Q|Q]; [|now apply W, IH2].
      exists file, (Panic p). split; [auto|]. rewrite Forall_forall in F. auto.
Qed.
(** The sections left by a crash are not only a possibility: a byte section of 16 bytes in a file of 24
    crashes the reader and the next file, which is fine, is refused with an error about position 23. *)
Example C63_left_ex :
  let cut := [72; 76; 66; 5; 0; 0; 0; 0; 0; 0; 0; 0; 0; 0; 0; 0; 0; 0; 0; 16; 0; 0; 0; 7] in
  let fine := [72; 76; 66; 4] ++ [0; 0; 0; 0; 0; 0; 0; 0; 0; 0] ++ [0; 0; 0; 0] in
  exists p, reads [(cut, Panic p); (fine, Err {| e_kind := NoMoreData; e_pos := 23 |})] (Some {| e_kind := NoMoreData; e_pos := 23 |}).
Proof.
  cbv zeta. eexists. apply (reads_snoc [(_, _)]) with (old := Some {| e_kind := NoMoreData; e_pos := 23 |}).
  - apply (reads_snoc []) with (old := None); [constructor| |vm_compute; reflexivity].
    repeat (apply Forall_cons; [unfold is_byte; lia|]). constructor.
  - repeat (apply Forall_cons; [unfold is_byte; lia|]). constructor.
  - vm_compute; reflexivity.
Qed.
(** Each of the errors does occur: bad magic, unsupported version, cut number table, negative count. *)
Definition ex_header (v : Z) (ks : list Z) : list Z := [72; 76; 66; v] ++ flat_map enc_index ks.
Example C63_ex :
  fst (read_module None [72; 76; 67; 5]) = Err {| e_kind := InvalidBytecodeHeader; e_pos := 3 |} /\
  fst (read_module None [72; 76; 66; 7; 0]) = Err {| e_kind := UnsupportedBytecodeVersion; e_pos := 4 |} /\
  fst (read_module None (ex_header 4 [0; 1; 0; 0; 0; 0; 0; 0; 0; 0] ++ [1; 2])) = Err {| e_kind := NoMoreData; e_pos := 14 |} /\
  fst (read_module None (ex_header 4 [0; 0; -5; 0; 0; 0; 0; 0; 0; 0])) = Err {| e_kind := NegativeIndex; e_pos := 8 |} /\
  fst (read_module None (ex_header 4 [0; 0; 0; 0; 1; 1; 0; 0; 0; 0] ++ [0; 0; 0; 0; 23; 0])) = Err {| e_kind := InvalidType; e_pos := 19 |} /\
  error_explained (ex_header 4 [0; 0; -5; 0; 0; 0; 0; 0; 0; 0]) {| e_kind := NegativeIndex; e_pos := 8 |}.
Proof.
  do 5 (split; [vm_compute; reflexivity|]).
  apply C63_errors with (cell := Some {| e_kind := NegativeIndex; e_pos := 8 |}); [|vm_compute; reflexivity].
  apply Forall_forall. intros b I. unfold is_byte. vm_compute in I. repeat (destruct I as [<-|I]; [lia|]). destruct I.
Qed.

(** * C64 *)
(** Every crash of the reader happens at a place in the file that explains it. *)
Theorem C64_crashes old file p s : bytes file -> code_read (start old file) = (Panic p, s) ->
  crash_explained file p (d_pos s).
Proof. intros B X. exact (proj1 (code_read_explained file B old _ _ X)). Qed.
(** In particular none of the reader's own indexing, insertion and conversion steps can fail. *)
Corollary C64_kinds old file p cell : bytes file -> read_module old file = (Panic p, cell) ->
  p = PUnwrap \/ p = PSlice \/ (p = PCapacity /\ znth file 3 = Some 5) \/ (p = POverflow /\ 2 ^ 26 <= zlen file).
Proof.
  intros B R. unfold read_module in R. destruct (code_read (start old file)) as [r s] eqn:X. injection R as -> _.
  destruct (C64_crashes _ _ _ _ B X) as [_ H]. destruct p; tauto.
Qed.
Example C64_ex :
  (* a file cut in a two-byte count *)
  (exists s, code_read (start None [72; 76; 66; 4; 0; 128]) = (Panic PUnwrap, s) /\ d_pos s = 6) /\
  (* a negative byte-section size *)
  (exists s, code_read (start None (ex_header 5 [0; 0; 0; 0; 0; 0; 0; 0; 0; 0; 0] ++ [0; 0; 0; 0; 255; 255; 255; 255])) = (Panic PCapacity, s) /\ d_pos s = 23) /\
  (* a string longer than the text *)
  (exists s, code_read (start None (ex_header 4 [0; 0; 0; 1; 0; 0; 0; 0; 0; 0] ++ [2; 0; 0; 0; 104; 0; 9])) = (Panic PSlice, s) /\ d_pos s = 21).
Proof. repeat split; eexists; (split; [vm_compute; reflexivity|reflexivity]). Qed.

(** * C65 *)
(** A complete encoding at the decoder's position is read to exactly its value. *)
Theorem C65_complete s enc rest v : bytes (d_buf s) -> d_buf s = enc ++ rest -> index_value enc = Some v ->
  read_index s = (Ok v, after s (zlen enc)) /\ d_buf (after s (zlen enc)) = rest.
Proof.
  intros B E V. destruct (read_index_exact s B) as [(enc' & v' & rest' & E' & V' & R & Rb)|(_ & N & _)]; [|now destruct (N enc rest v E)].
  assert (Q : enc' = enc /\ v' = v /\ rest' = rest); [|destruct Q as (-> & -> & ->); auto].
  rewrite E in E'. clear - E' V V'. unfold index_value in *.
  destruct enc as [|b [|x [|y [|z [|]]]]]; try discriminate; destruct enc' as [|b' [|x' [|y' [|z' [|]]]]]; try discriminate;
    repeat match goal with H : context [if ?c then _ else _] |- _ => destruct c eqn:? end; try discriminate; cbn [app] in E'; injection E'; intros; subst;
    try (injection V as <-); try (injection V' as <-); auto; exfalso; lia.
Qed.
(** Otherwise the rest of the file is shorter than the encoding its first byte starts, and reading it
    crashes when a two-byte form lacks its second byte and fails at the end of the file otherwise. *)
Theorem C65_short s : bytes (d_buf s) -> (forall enc rest v, d_buf s = enc ++ rest -> index_value enc <> Some v) ->
  zlen (d_buf s) < 4 /\
  read_index s =
    ((if match d_buf s with [b] => b <? 192 | _ => false end then Panic PUnwrap
      else Err {| e_kind := NoMoreData; e_pos := d_pos s + zlen (d_buf s) |}), after s (zlen (d_buf s))).
Proof.
  intros B N. destruct (read_index_exact s B) as [(enc & v & rest & E & V & _)|(L & _ & _)]; [now destruct (N enc rest v E)|].
  split; [exact L|]. destruct (d_buf s) as [|b r] eqn:E.
  { unfold read_index, bind. rewrite u8_nil by auto. change (zlen (@nil Z)) with 0. unfold with_info, after. cbn [Z.to_nat skipn]. rewrite !Z.add_0_r. now rewrite st_eta. }
  apply Forall_cons_iff in B. destruct B as [Hb Br]. unfold is_byte in Hb.
  assert (R1 : read_index s = read_index s) by reflexivity. unfold read_index at 2 in R1. unfold bind at 1 in R1.
  rewrite (u8_cons _ _ _ E), byte_bit7 in R1 by lia. pose proof (after_buf _ _ _ E) as E1.
  destruct (Z.ltb_spec b 128) as [Lb|Lb].
  { exfalso. apply (N [b] r b); [reflexivity|]. cbn. now destruct (Z.ltb_spec b 128); [|lia]. }
  rewrite byte_bit6 in R1 by lia. destruct (Z.ltb_spec b 192) as [L2|L2].
  { replace (b mod 128 <? 64) with true in R1 by lia. destruct r as [|x r].
    - rewrite R1. destruct (Z.ltb_spec b 192); [|lia]. unfold bind, unwrap. rewrite u8_nil by auto. reflexivity.
    - exfalso. eapply (N [b; x] r); [reflexivity|]. cbn. replace ((128 <=? b) && (b <? 192)) with true by lia. reflexivity. }
  replace (b mod 128 <? 64) with false in R1 by lia.
  destruct r as [|x r]. { rewrite R1. destruct (Z.ltb_spec b 192); [lia|]. unfold bind. rewrite u8_nil by auto. reflexivity. }
  assert (S2 : after (after s 1) 1 = after s 2) by (rewrite after_after by lia; reflexivity).
  pose proof (after_buf _ _ _ E1) as E2. rewrite S2 in E2.
  unfold bind at 1 in R1. rewrite (u8_cons _ _ _ E1), S2 in R1.
  destruct r as [|y r]. { rewrite R1. unfold bind. rewrite u8_nil by auto. reflexivity. }
  assert (S3 : after (after s 2) 1 = after s 3) by (rewrite after_after by lia; reflexivity).
  pose proof (after_buf _ _ _ E2) as E3. rewrite S3 in E3.
  unfold bind at 1 in R1. rewrite (u8_cons _ _ _ E2), S3 in R1.
  destruct r as [|z r]. { rewrite R1. unfold bind. rewrite u8_nil by auto. reflexivity. }
  exfalso. rewrite !zlen_cons in L. pose proof (zlen_nonneg r). lia.
Qed.
Example C65_ex : index_value [161; 44] = Some (-300) /\ index_value [192; 0; 32; 0] = Some 2097344 /\ index_value [255; 255; 255; 255] = Some (-1) /\
  read_index (mk [192; 0; 32; 0; 9] 5 code_new) = (Ok 2097344, mk [9] 9 code_new).
Proof. repeat split; vm_compute; reflexivity. Qed.

(** * C72 *)
(** [d_log s] lists the errors found in this file so far, in the order they are found.  They are in file
    order; the one left for the next call is the one [kept]; and a call that returns an error returns
    that one, except for a bad magic, an unsupported version, and a byte-section size that is cut. *)
Theorem C72_kept old file r s : bytes file -> code_read (start old file) = (r, s) ->
  errs s = kept old (d_log s) /\ in_order (d_log s) (d_pos s) /\
   Forall (match r with Panic _ => error_left file | _ => error_explained file end) (d_log s) /\
   match r with
  | Ok _ => True
  | Err e => kept old (d_log s) = Some e \/
      d_log s = [] /\ (e_kind e = InvalidBytecodeHeader \/ e_kind e = UnsupportedBytecodeVersion \/ (e_kind e = NoMoreData /\ old = None))
  | Panic _ => True
  end.
Proof.
  intros B X. pose proof (code_read_explained file B old _ _ X) as Y. destruct r as [c|e|p].
  - destruct Y as (_ & _ & K & F & O). auto.
  - pose proof (code_read_err _ _ _ _ B X) as Z. destruct Y as [(_ & _ & K & F & O) _]. rewrite <- K. auto.
  - destruct Y as [_ (_ & _ & K & F & O)]. auto.
Qed.
(** A reader that accepts has found nothing, in this file or before. *)
Theorem C72_accepts old file c s : bytes file -> code_read (start old file) = (Ok c, s) -> errs s = None -> d_log s = [] /\ old = None.
Proof. intros B X E. destruct (C72_kept _ _ _ _ B X) as [K _]. rewrite E in K. symmetry in K. now apply kept_none in K. Qed.
(** In a header with negative counts, however they are spelled, the last one is reported. *)
Theorem C72_last_negative v before enc after ks1 k ks2 rest : 2 <= v <= 5 ->
  let file := [72; 76; 66; v] ++ concat (before ++ enc :: after) ++ rest in
  bytes file -> zlen (before ++ enc :: after) = header_fields v ->
  map index_value before = map Some ks1 -> index_value enc = Some k -> map index_value after = map Some ks2 ->
  k < 0 -> Forall (fun k => 0 <= k) ks2 ->
  let e := {| e_kind := NegativeIndex; e_pos := 4 + zlen (concat before) + zlen enc |} in
  read_module None file = (Err e, Some e).
Proof.
  intros Hv file B L E1 E2 E3 Hk F e. subst file. unfold read_module.
  destruct (header_error v before enc after ks1 k ks2 rest Hv) as (s & R & Q); auto.
  - now apply Forall_app in B.
  - rewrite L. unfold header_fields, nfields. destruct (Z.ltb_spec v 4), (Z.eqb_spec v 4), (Z.leb_spec 4 v), (Z.leb_spec 5 v); lia.
  - rewrite R, Q. reflexivity.
Qed.
(** Among several unknown type kinds the first one is reported, if nothing else is wrong. *)
Theorem C72_first_kind counts before k after globals vs rest :
  let kinds := before ++ k :: after in let file := small_file counts kinds globals rest in
  bytes file -> small_counts counts (zlen kinds) (zlen globals) -> zlen kinds <= I32_MAX ->
  Forall (fun k => plain_kind k = true) before -> 23 <= k -> Forall (fun k => plain_kind k = true \/ 23 <= k) after ->
  map index_value globals = map Some vs -> Forall (fun v => 0 <= v < zlen kinds) vs ->
  let e := {| e_kind := InvalidType; e_pos := 4 + zlen (concat counts) + 4 + zlen before + 1 |} in
  read_module None file = (Err e, Some e).
Proof.
  intros kinds file B C M F1 Hk F2 V G e.
  assert (BK : forall l, Forall (fun k => plain_kind k = true) l -> forall p, badk p l = []).
  { clear. induction 1 as [|x l H _ IH]; intros p; [reflexivity|]. cbn [badk]. rewrite IH. unfold plain_kind in H. cbn [existsb] in H.
    destruct (Z.leb_spec 23 x); [lia|reflexivity]. }
  assert (BA : forall a b p, badk p (a ++ b) = badk p a ++ badk (p + zlen a) b).
  { clear. induction a as [|x a IH]; intros b p; cbn [app badk]; [now rewrite Z.add_0_r|]. rewrite IH, zlen_cons, app_assoc. do 2 f_equal. lia. }
  assert (BN : forall l p, Forall (fun x => never_replaces (e_kind x) = true) (badk p l)).
  { clear. induction l as [|x l IH]; intros p; cbn [badk]; [constructor|]. apply Forall_app. split; [|auto]. destruct (23 <=? x); constructor; auto. }
  assert (BR : badr (8 + zlen (concat counts) + zlen kinds) (zlen kinds) globals = []).
  { revert vs V G. generalize (8 + zlen (concat counts) + zlen kinds). clear. induction globals as [|g l IH]; intros p vs V G; [reflexivity|].
    destruct vs as [|w vs]; [discriminate|]. cbn [map] in V. assert (V1 : index_value g = Some w) by congruence. assert (V2 : map index_value l = map Some vs) by congruence.
    inversion G; subst. cbn [badr]. erewrite IH by eauto. unfold badr1. rewrite V1. replace ((w <? 0) || (zlen kinds <=? w)) with false by lia. reflexivity. }
  destruct (small_error counts kinds globals vs rest e B C) as (s & R & Q); auto.
  - apply Forall_app. split; [eapply Forall_impl; [|exact F1]; intros; now left|]. constructor; [now right|exact F2].
  - unfold kinds. now destruct before.
  - unfold small_end. rewrite BR, app_nil_r. unfold kinds. rewrite BA, BK by auto. cbn [app badk]. replace (23 <=? k) with true by lia. cbn [app].
    rewrite kept_first; [|reflexivity|apply BN]. subst e. unfold err. do 2 f_equal. lia.
  - unfold read_module. fold file in R. rewrite R, Q. reflexivity.
Qed.
(** So neither the first nor the last error of a file is what a caller can count on. *)
Definition c72_two_negative : list Z := [72; 76; 66; 4] ++ [0; 160; 1; 160; 1; 0; 0; 0; 0; 0; 0; 0].
Definition c72_two_kinds : list Z := [72; 76; 66; 4] ++ [0; 0; 0; 0; 2; 0; 0; 0; 0; 0] ++ [0; 0; 0; 0] ++ [23; 24].
Theorem C72_first_refuted : ~ (forall file e s, bytes file -> code_read (start None file) = (Err e, s) -> d_log s <> [] -> exists l, d_log s = e :: l).
Proof.
  intros H. assert (B : bytes c72_two_negative) by (repeat (apply Forall_cons; [unfold is_byte; lia|]); constructor).
  destruct (code_read (start None c72_two_negative)) as [r s] eqn:X.
  assert (Y : r = Err {| e_kind := NegativeIndex; e_pos := 9 |} /\ d_log s = [{| e_kind := NegativeIndex; e_pos := 7 |}; {| e_kind := NegativeIndex; e_pos := 9 |}]).
  { vm_compute in X. injection X as <- <-. split; reflexivity. }
  destruct Y as [-> L]. destruct (H _ _ _ B X) as [l E]; rewrite L in *; discriminate.
Qed.
Theorem C72_last_refuted : ~ (forall file e s, bytes file -> code_read (start None file) = (Err e, s) -> d_log s <> [] -> exists l, d_log s = l ++ [e]).
Proof.
  intros H. assert (B : bytes c72_two_kinds) by (repeat (apply Forall_cons; [unfold is_byte; lia|]); constructor).
  destruct (code_read (start None c72_two_kinds)) as [r s] eqn:X.
  assert (Y : r = Err {| e_kind := InvalidType; e_pos := 19 |} /\ d_log s = [{| e_kind := InvalidType; e_pos := 19 |}; {| e_kind := InvalidType; e_pos := 20 |}]).
  { vm_compute in X. injection X as <- <-. split; reflexivity. }
  destruct Y as [-> L]. destruct (H _ _ _ B X) as [l E]; rewrite L in *; [discriminate|]. change [?a; ?b] with ([a] ++ [b]) in E. apply app_inj_tail in E. destruct E. discriminate.
Qed.
Example C72_ex :
  fst (read_module None c72_two_negative) = Err {| e_kind := NegativeIndex; e_pos := 9 |} /\
  fst (read_module None c72_two_kinds) = Err {| e_kind := InvalidType; e_pos := 19 |} /\
  (small_counts [[0]; [0]; [0]; [0]; [3]; [1]; [0]; [0]; [0]; [0]] 3 1 /\
   read_module None (small_file [[0]; [0]; [0]; [0]; [3]; [1]; [0]; [0]; [0]; [0]] [3; 30; 40] [[2]] [9]) =
     (Err {| e_kind := InvalidType; e_pos := 20 |}, Some {| e_kind := InvalidType; e_pos := 20 |})).
Proof. split; [vm_compute; reflexivity|]. split; [vm_compute; reflexivity|]. split; [|vm_compute; reflexivity]. exists 0, 0, 0, 0. repeat split; lia. Qed.

(** * C73 *)
(** A module without types and with a global: the reader crashes on the first global, whatever index it
    gives, and leaves an error for the next call. *)
Theorem C73_no_types counts g globals rest :
  let file := small_file counts [] (g :: globals) rest in
  bytes file -> small_counts counts 0 (zlen (g :: globals)) -> Forall (fun e => index_value e <> None) (g :: globals) ->
  read_module None file = (Panic PUnwrap, Some {| e_kind := InvalidTypeIndex; e_pos := 4 + zlen (concat counts) + 4 + zlen g |}).
Proof.
  intros file B C V. destruct (small_crash counts (g :: globals) rest B C) as (s & R & Q); [discriminate|auto|].
  unfold read_module. fold file in R. rewrite R, Q. unfold err. do 3 f_equal. lia.
Qed.
(** With types, a global whose type index is out of range is refused, and it is the last such one that
    is reported, also when a type kind is unknown. *)
Theorem C73_last_global counts kinds before g after v vs rest :
  let globals := before ++ g :: after in let file := small_file counts kinds globals rest in
  bytes file -> small_counts counts (zlen kinds) (zlen globals) -> kinds <> [] -> zlen kinds <= I32_MAX ->
  Forall (fun k => plain_kind k = true \/ 23 <= k) kinds ->
  Forall (fun e => index_value e <> None) before -> index_value g = Some v -> ~ 0 <= v < zlen kinds ->
  map index_value after = map Some vs -> Forall (fun v => 0 <= v < zlen kinds) vs ->
  let e := {| e_kind := InvalidTypeIndex; e_pos := 4 + zlen (concat counts) + 4 + zlen kinds + zlen (concat before) + zlen g |} in
  read_module None file = (Err e, Some e).
Proof.
  intros globals file B C NE M F Vb Vg Hv Va Ga e.
  assert (Q : exists ws, map index_value before = map Some ws).
  { clear - Vb. induction Vb as [|x l H _ [ws IH]]; [exists []; reflexivity|]. destruct (index_value x) as [w|] eqn:E; [|congruence]. exists (w :: ws). cbn [map]. congruence. }
  destruct Q as [ws Vb'].
  assert (BR : forall n p vs l, map index_value l = map Some vs -> Forall (fun v => 0 <= v < n) vs -> badr p n l = []).
  { clear. intros n p vs l. revert p vs. induction l as [|y l IH]; intros p vs V G; [reflexivity|].
    destruct vs as [|w vs]; [discriminate|]. cbn [map] in V. assert (V1 : index_value y = Some w) by congruence. assert (V2 : map index_value l = map Some vs) by congruence.
    inversion G; subst. cbn [badr]. erewrite IH by eauto. unfold badr1. rewrite V1. replace ((w <? 0) || (n <=? w)) with false by lia. reflexivity. }
  assert (BA : forall n a b p, badr p n (a ++ b) = badr p n a ++ badr (p + zlen (concat a)) n b).
  { clear. induction a as [|x a IH]; intros b p; cbn [app badr concat]; [now rewrite Z.add_0_r|]. rewrite IH, zlen_app, app_assoc. do 2 f_equal. lia. }
  destruct (small_error counts kinds globals (ws ++ v :: vs) rest e B C) as (s & R & Q); auto.
  - unfold globals. rewrite !map_app. cbn [map]. congruence.
  - unfold small_end, globals. rewrite BA. cbn [badr]. rewrite (BR _ _ vs after) by auto. rewrite app_nil_r. unfold badr1. rewrite Vg.
    replace ((v <? 0) || (zlen kinds <=? v)) with true by lia. rewrite app_assoc, kept_last by reflexivity. subst e. unfold err. do 2 f_equal. lia.
  - unfold read_module. fold file in R. rewrite R, Q. reflexivity.
Qed.
Example C73_ex :
  read_module None (small_file [[0]; [0]; [0]; [0]; [0]; [1]; [0]; [0]; [0]; [0]] [] [[0]] []) =
    (Panic PUnwrap, Some {| e_kind := InvalidTypeIndex; e_pos := 19 |}) /\
  read_module None (small_file [[0]; [0]; [0]; [0]; [2]; [3]; [0]; [0]; [0]; [0]] [3; 40] [[2]; [160; 5]; [1]] [9]) =
    (Err {| e_kind := InvalidTypeIndex; e_pos := 23 |}, Some {| e_kind := InvalidTypeIndex; e_pos := 23 |}) /\
  small_counts [[0]; [0]; [0]; [0]; [2]; [3]; [0]; [0]; [0]; [0]] 2 3.
Proof. split; [vm_compute; reflexivity|]. split; [vm_compute; reflexivity|]. exists 0, 0, 0, 0. repeat split; lia. Qed.
