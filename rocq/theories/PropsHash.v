(** Theorems C46-C52 and C57-C59: hot-reload hashing.
    Model: HashModel.v.  Vocabulary: HashSpec.v, AcceptSpec.v, ReaderSpec.v. *)
From Verif Require Import Prelude StdModel BrassTypes DecoderModel CodeModel FormatSpec ReaderSpec HashModel HashSpec AcceptSpec.
From Verif Require Import CrcSpec CrcStandard.
From Verif Require Import CodeGenericProofs FormatProofs StringsProofs ReaderSizes AcceptProofs CrcProofs HashProofs HashAlloc HashPanics PropsModule.
From Coq Require Import Lia ZifyBool.

(** * C46 *)
(** Feeding the pieces of a message one after the other gives the checksum of the whole message. *)
Theorem C46_incremental (pieces : list (list Z)) :
  hasher_finalize (fold_left hasher_write pieces hasher_new) = crc32 (concat pieces).
Proof.
  unfold crc32. f_equal. generalize hasher_new. induction pieces as [|p ps IH]; intros h; cbn [fold_left concat]; [reflexivity|].
  now rewrite write_app, IH.
Qed.
(** The value is the standard CRC-32 (CrcSpec.v: the remainder of a polynomial division), which no other value is. *)
Theorem C46_standard m v : bytes m -> is_crc32 m v <-> v = crc32 m.
Proof. intros B. pose proof (crc32_standard m B) as S. split; [intros H; now apply (crc32_unique m)|now intros ->]. Qed.
Theorem C46_range m : bytes m -> 0 <= crc32 m < 2 ^ 32.
Proof. apply crc32_range. Qed.
Example C46_check_value : crc32 [49; 50; 51; 52; 53; 54; 55; 56; 57] = 3421780262. Proof. reflexivity. Qed.

Lemma bit_from_le m i : bytes m -> 0 <= i -> Z.testbit (from_le m) i = bit m i.
Proof. intros B Hi. rewrite from_le_bit by auto. reflexivity. Qed.
Lemma bit_out m i : 8 * zlen m <= i -> bit m i = false.
Proof.
  intros H. unfold bit. rewrite nth_overflow; [apply Z.bits_0|]. unfold zlen in H.
  assert (Z.of_nat (length m) <= i / 8) by (apply Z.div_le_lower_bound; lia). lia.
Qed.
(** Two different messages of the same length whose differing bits all lie within 32 consecutive
    positions have different checksums. *)
Theorem C46_burst a b s : bytes a -> bytes b -> zlen a = zlen b -> a <> b -> 0 <= s ->
  (forall i, 0 <= i -> bit a i <> bit b i -> s <= i < s + 32) -> crc32 a <> crc32 b.
Proof.
  intros Ba Bb L N Hs H E. unfold crc32 in E. apply finalize_inj in E. revert E.
  assert (L' : length a = length b) by (unfold zlen in L; lia).
  set (d := Z.lxor (from_le a) (from_le b)).
  assert (Nd : d <> 0) by (intros E; apply Z.lxor_eq in E; apply N; now apply from_le_inj).
  assert (Pd : 0 <= d) by (apply Z.lxor_nonneg; pose proof (from_le_nonneg a Ba); pose proof (from_le_nonneg b Bb); lia).
  assert (Bd : forall i, 0 <= i -> Z.testbit d i = true -> s <= i < s + 32).
  { intros i Hi T. apply H; [auto|]. unfold d in T. rewrite Z.lxor_spec, !bit_from_le in T by auto. intros Eq. rewrite Eq in T. now destruct (bit b i). }
  set (w := Z.shiftr d s).
  assert (Ed : d = 2 ^ s * w).
  { apply Z.bits_inj'. intros i Hi. rewrite Z.mul_comm, Z.mul_pow2_bits by auto. unfold w.
    destruct (Z.lt_ge_cases i s) as [Hlt|Hge].
    - rewrite (Z.testbit_neg_r (Z.shiftr d s) (i - s)) by lia. destruct (Z.testbit d i) eqn:T; [|reflexivity]. apply Bd in T; lia.
    - rewrite Z.shiftr_spec by lia. f_equal. lia. }
  assert (Hw : 0 < w < 2 ^ 32).
  { assert (0 <= w) by (apply Z.shiftr_nonneg; auto). assert (w <> 0) by (intros E0; rewrite E0, Z.mul_0_r in Ed; lia). split; [lia|].
    destruct (Z.lt_ge_cases w (2 ^ 32)) as [|Hge]; [auto|exfalso].
    assert (Hl : 32 <= Z.log2 w) by (apply Z.log2_le_pow2; lia).
    assert (T : Z.testbit w (Z.log2 w) = true) by (apply Z.bit_log2; lia). unfold w in T at 1. rewrite Z.shiftr_spec in T by lia. apply Bd in T; lia. }
  apply (write_diff a b s w); auto.
  destruct (Z.lt_ge_cases (8 * zlen a) s) as [Hlt|]; [exfalso|lia].
  assert (T : Z.testbit d (Z.log2 d) = true) by (apply Z.bit_log2; lia). pose proof (Z.log2_nonneg d).
  pose proof (Bd _ H0 T) as R. unfold d in T. rewrite Z.lxor_spec, !bit_from_le in T by auto. fold d in T. rewrite !bit_out in T by lia. discriminate.
Qed.
(** In particular: two messages differing only within four consecutive bytes. *)
Lemma bit_app_l p r i : 0 <= i < 8 * zlen p -> bit (p ++ r) i = bit p i.
Proof.
  intros H. unfold bit. rewrite app_nth1; [reflexivity|]. unfold zlen in H.
  assert (i / 8 < Z.of_nat (length p)) by (apply Z.div_lt_upper_bound; lia). assert (0 <= i / 8) by (apply Z.div_pos; lia). lia.
Qed.
Lemma bit_app_r p r i : 8 * zlen p <= i -> bit (p ++ r) i = bit r (i - 8 * zlen p).
Proof.
  intros H. unfold bit. assert (zlen p <= i / 8) by (apply Z.div_le_lower_bound; lia). unfold zlen in *.
  rewrite app_nth2 by lia. replace (i - 8 * Z.of_nat (length p)) with (i + - Z.of_nat (length p) * 8) by lia.
  rewrite Z.div_add, Z.mod_add by lia. f_equal. f_equal. lia.
Qed.
Theorem C46_window p x y r : bytes (p ++ x ++ r) -> bytes (p ++ y ++ r) -> zlen x = zlen y -> zlen x <= 4 -> x <> y ->
  crc32 (p ++ x ++ r) <> crc32 (p ++ y ++ r).
Proof.
  intros Ba Bb L L4 N. pose proof (zlen_nonneg p). pose proof (zlen_nonneg x). apply (C46_burst _ _ (8 * zlen p)); auto; [rewrite !zlen_app; lia| |lia|].
  - intros E. apply app_inv_head in E. apply app_inv_tail in E. auto.
  - intros i Hi D. destruct (Z.lt_ge_cases i (8 * zlen p)) as [Hlt|Hge].
    + exfalso. apply D. rewrite !bit_app_l by lia. reflexivity.
    + split; [auto|]. destruct (Z.lt_ge_cases i (8 * zlen p + 32)) as [|Hge2]; [auto|exfalso]. apply D.
      rewrite !bit_app_r by lia. now rewrite L.
Qed.
Example C46_ex : crc32 [1; 2; 3; 4; 5; 6] <> crc32 [1; 2; 9; 4; 0; 6] /\ crc32 ([1] ++ [2] ++ [3]) <> crc32 ([1] ++ [5] ++ [3]).
Proof. split; vm_compute; discriminate. Qed.
(** The window bound is sharp: five bytes can cancel out. *)
Example C46_window_tight : exists x y, bytes x /\ bytes y /\ zlen x = 5 /\ zlen y = 5 /\ x <> y /\ crc32 x = crc32 y.
Proof.
  exists [0; 0; 0; 0; 0], [65; 6; 113; 219; 1].
  split; [|split; [|split; [reflexivity|split; [reflexivity|split; [discriminate|vm_compute; reflexivity]]]]].
  - do 5 (constructor; [unfold is_byte; lia|]). constructor.
  - do 5 (constructor; [unfold is_byte; lia|]). constructor.
Qed.

(** * C47 *)
(** The hash of a type is the CRC-32 of its serialisation [shape]: counts, names, field-name hashes, and the
    inner hashes of the types it mentions. *)
Theorem C47_shape t : counted t -> vt_hash true t = Ok (crc32 (shape (fun _ => []) t)) /\
  (targeted t -> Forall counted (mentions t) ->
   vt_hash false t = Ok (crc32 (shape (fun u => enc_le 4 (crc32 (shape (fun _ => []) u))) t))).
Proof. intros C. split; [exact (vt_hash_true t C)|]. intros T M. exact (vt_hash_false t C T M). Qed.
Lemma accepted_alloc e0 buf c : bytes buf -> accepted e0 buf c -> contents_ok c /\ sizes_ok c.
Proof. intros B A. apply accepted_run in A as [s A]. destruct (accepted_ok e0 buf c s B A) as (H1 & H2 & _). auto. Qed.
(** Every declared type of every accepted module qualifies. *)
Theorem C47_accepted e0 buf c t : bytes buf -> accepted e0 buf c -> In t (declared c) ->
  vt_hash true t = Ok (inner_hash t) /\ vt_hash false t = Ok (outer_hash t).
Proof.
  intros B A Ht. destruct (accepted_alloc e0 buf c B A) as [CO SO]. destruct (declared_types c CO t Ht) as (C & T & M & _).
  split; [now apply vt_hash_true|now apply vt_hash_false].
Qed.
(** Super type, prototype contents, bindings, global slots and the run-time slot do not matter. *)
Theorem C47_irrelevant b k a p name s s' fields nf np nb nb' pr pr' bs bs' gs gs' rt rt' :
  vt_hash b (VT (ObjType name s fields nf np nb pr bs gs rt) a p k) =
  vt_hash b (VT (ObjType name s' fields nf np nb' pr' bs' gs' rt') a p k).
Proof. destruct b; reflexivity. Qed.
Theorem C47_irrelevant_enum b k a p name nc cs gs gs' :
  vt_hash b (VT (EnumType name nc cs gs) a p k) = vt_hash b (VT (EnumType name nc cs gs') a p k).
Proof. destruct b; reflexivity. Qed.

(** The serialisation consists of bytes if names do. *)
Lemma enc_le_bytes n v : bytes (enc_le n v).
Proof. apply le_bytes_bytes. Qed.
Ltac byt := repeat match goal with
  | |- bytes (_ ++ _) => apply Forall_app; split
  | |- Forall _ (_ ++ _) => apply Forall_app; split
  | |- bytes (enc_le _ _) => apply enc_le_bytes
  | |- Forall _ (enc_le _ _) => apply enc_le_bytes
  | |- bytes [] => apply Forall_nil
  | |- Forall _ [] => apply Forall_nil
  | H : forall _, bytes _ |- _ => apply H
  | _ => assumption
  end.
Lemma enc4_neq x y : 0 <= x < 2 ^ 32 -> 0 <= y < 2 ^ 32 -> x <> y -> enc_le 4 x <> enc_le 4 y.
Proof.
  intros Hx Hy N E. apply N. unfold enc_le in E. apply (f_equal from_le) in E.
  change (256 ^ Z.of_nat 4) with (2 ^ 32) in E. rewrite !Z.mod_small in E by auto.
  rewrite !from_le_bytes in E by (change (256 ^ Z.of_nat 4) with (2 ^ 32); auto). auto.
Qed.
Lemma enc_le_len n v : zlen (enc_le n v) = Z.of_nat n. Proof. unfold zlen, enc_le. now rewrite le_bytes_length. Qed.
Lemma word_change p x y r : bytes p -> bytes r -> 0 <= x < 2 ^ 32 -> 0 <= y < 2 ^ 32 -> x <> y ->
  crc32 (p ++ enc_le 4 x ++ r) <> crc32 (p ++ enc_le 4 y ++ r).
Proof.
  intros Bp Br Hx Hy N. assert (B : forall v, bytes (p ++ enc_le 4 v ++ r)) by (intros v; repeat (apply Forall_app; split); auto; apply enc_le_bytes).
  apply C46_window; [apply B|apply B|reflexivity|rewrite enc_le_len; cbn; lia|now apply enc4_neq].
Qed.
Lemma bytes_flat_map {A} (f : A -> list Z) l : (forall x, In x l -> bytes (f x)) -> bytes (flat_map f l).
Proof. induction l as [|x l IH]; cbn [flat_map]; intros H; [constructor|]. apply Forall_app. split; [apply H; now left|apply IH; intros; apply H; now right]. Qed.
(** Names in a type are byte strings. *)
Definition named (t : vtype) : Prop :=
  match vt_union t with
  | ObjType name _ _ _ _ _ _ _ _ _ => bytes name
  | EnumType name _ cs _ => bytes name /\ Forall (fun c => bytes (ec_name c)) cs
  | _ => True
  end /\ match vt_abs_name t with Some n => bytes n | None => True end.
Lemma shape_bytes deep t : (forall u, bytes (deep u)) -> named t -> bytes (shape deep t).
Proof.
  intros Hd [N1 N2]. unfold shape.
  assert (F : forall fs : list (obj_field vtype), bytes (flat_map (fun f => enc_le 4 (fd_hash f) ++ deep (fd_t f)) fs)).
  { intros fs. apply bytes_flat_map. intros. byt. }
  repeat match goal with |- bytes (if ?b then _ else _) => destruct b end; try apply Forall_nil.
  - destruct (vt_union t); try apply Forall_nil. byt; try (apply bytes_flat_map; intros; byt); auto.
  - destruct (vt_union t); try apply Forall_nil. byt.
  - destruct (vt_tparam t); [auto|apply Forall_nil].
  - destruct (vt_union t); try apply Forall_nil. byt.
  - destruct (vt_union t); try apply Forall_nil. destruct N1 as [N1 N3]. apply Forall_app. split; [auto|]. apply bytes_flat_map. intros x Hx.
    rewrite Forall_forall in N3. pose proof (N3 x Hx : Forall is_byte (ec_name x)) as N4. byt; try (apply bytes_flat_map; intros; byt); auto.
  - destruct (vt_abs_name t); [auto|apply Forall_nil].
Qed.
Lemma inner_range t : named t -> 0 <= inner_hash t < 2 ^ 32.
Proof. intros N. apply crc32_range. apply shape_bytes; [constructor|auto]. Qed.

(** Changing one field of an object or virtual type -- its name hash, or its type to one of a different inner
    hash, but not both -- changes the type's hash. *)
Definition with_field (t : vtype) (i : nat) (f : obj_field vtype) : vtype :=
  let upd fs := firstn i fs ++ f :: skipn (S i) fs in
  match t with
  | VT (ObjType n s fs nf np nb pr bs gs rt) a p k => VT (ObjType n s (upd fs) nf np nb pr bs gs rt) a p k
  | VT (VirtualType nf fs) a p k => VT (VirtualType nf (upd fs)) a p k
  | _ => t
  end.
Definition fields_of (t : vtype) : list (obj_field vtype) :=
  match vt_union t with ObjType _ _ fs _ _ _ _ _ _ _ => fs | VirtualType _ fs => fs | _ => [] end.
Definition record_type (t : vtype) : Prop :=
  (exists n s fs nf np nb pr bs gs rt, vt_union t = ObjType n s fs nf np nb pr bs gs rt) /\ In (vt_kind t) [HOBJ; HSTRUCT] \/
  (exists nf fs, vt_union t = VirtualType nf fs) /\ vt_kind t = HVIRTUAL.
Lemma split_nth {A} : forall (l : list A) i x, nth_error l i = Some x -> l = firstn i l ++ x :: skipn (S i) l.
Proof.
  induction l as [|y l IH]; intros [|i] x E; cbn in E; try discriminate.
  - injection E as ->. reflexivity.
  - cbn [firstn skipn app]. f_equal. now apply IH.
Qed.
Lemma shape_with_field deep t i f g : record_type t -> nth_error (fields_of t) i = Some f -> bytes (match vt_union t with ObjType n _ _ _ _ _ _ _ _ _ => n | _ => [] end) ->
  (forall u, bytes (deep u)) ->
  exists P Q, bytes P /\ bytes Q /\ shape deep t = P ++ (enc_le 4 (fd_hash f) ++ deep (fd_t f)) ++ Q /\
    shape deep (with_field t i g) = P ++ (enc_le 4 (fd_hash g) ++ deep (fd_t g)) ++ Q.
Proof.
  intros Rt E Bn Hd. destruct t as [u a p k]. unfold fields_of in E. cbn [vt_union] in *.
  set (fb := fun f : obj_field vtype => enc_le 4 (fd_hash f) ++ deep (fd_t f)).
  assert (Bf : forall l, bytes (flat_map fb l)) by (intros l; apply bytes_flat_map; intros; unfold fb; byt).
  destruct Rt as [((n & s & fs & nf & np & nb & pr & bs & gs & rt & Eu) & Hk)|((nf & fs & Eu) & Hk)]; cbn [vt_union vt_kind] in *; subst u;
    (assert (Efl : flat_map fb fs = flat_map fb (firstn i fs) ++ fb f ++ flat_map fb (skipn (S i) fs))
       by (rewrite (split_nth fs i f E) at 1; rewrite flat_map_app; reflexivity));
    unfold shape, with_field; cbn [vt_union vt_kind].
  - exists (n ++ enc_le 8 nf ++ enc_le 8 np ++ flat_map fb (firstn i fs)), (flat_map fb (skipn (S i) fs)).
    split; [byt|]. split; [auto|].
    fold fb. destruct Hk as [<-|[<-|[]]]; cbn [one_of existsb Z.eqb Pos.eqb HFUN HMETHOD HOBJ HSTRUCT orb];
      rewrite Efl, !flat_map_app; cbn [flat_map]; fold fb; rewrite <- !app_assoc; split; reflexivity.
  - exists (enc_le 8 nf ++ flat_map fb (firstn i fs)), (flat_map fb (skipn (S i) fs)).
    split; [byt|]. split; [auto|].
    fold fb. subst k. cbn [one_of existsb Z.eqb Pos.eqb HFUN HMETHOD HOBJ HSTRUCT HREF HNULL HVIRTUAL orb];
      rewrite Efl, !flat_map_app; cbn [flat_map]; fold fb; rewrite <- !app_assoc; split; reflexivity.
Qed.
Theorem C47_field_name t i f g : record_type t -> named t -> nth_error (fields_of t) i = Some f ->
  fd_t g = fd_t f -> fd_hash g <> fd_hash f -> 0 <= fd_hash f < 2 ^ 32 -> 0 <= fd_hash g < 2 ^ 32 ->
  Forall (fun h => named (fd_t h)) (fields_of t) ->
  inner_hash (with_field t i g) <> inner_hash t /\ outer_hash (with_field t i g) <> outer_hash t.
Proof.
  intros Rt N E Et Nh Hf Hg Nm. assert (Bn : bytes (match vt_union t with ObjType n _ _ _ _ _ _ _ _ _ => n | _ => [] end)).
  { destruct N as [N _]. destruct (vt_union t); auto; constructor. }
  split.
  - destruct (shape_with_field (fun _ => []) t i f g Rt E Bn ltac:(constructor)) as (P & Q & BP & BQ & E1 & E2).
    unfold inner_hash, inner_shape. rewrite E1, E2, !app_nil_r. apply word_change; auto.
  - destruct (shape_with_field (fun u => enc_le 4 (inner_hash u)) t i f g Rt E Bn ltac:(intros; apply enc_le_bytes)) as (P & Q & BP & BQ & E1 & E2).
    unfold outer_hash, outer_shape. rewrite E1, E2, Et, <- !app_assoc. apply word_change; auto.
    byt.
Qed.
Theorem C47_field_type t i f g : record_type t -> named t -> nth_error (fields_of t) i = Some f ->
  fd_hash g = fd_hash f -> named (fd_t f) -> named (fd_t g) -> inner_hash (fd_t g) <> inner_hash (fd_t f) ->
  outer_hash (with_field t i g) <> outer_hash t.
Proof.
  intros Rt N E Eh Nf Ng Ni. assert (Bn : bytes (match vt_union t with ObjType n _ _ _ _ _ _ _ _ _ => n | _ => [] end)).
  { destruct N as [N _]. destruct (vt_union t); auto; constructor. }
  destruct (shape_with_field (fun u => enc_le 4 (inner_hash u)) t i f g Rt E Bn ltac:(intros; apply enc_le_bytes)) as (P & Q & BP & BQ & E1 & E2).
  unfold outer_hash, outer_shape. rewrite E1, E2, Eh. rewrite <- !app_assoc. rewrite !app_assoc with (l := P).
  apply word_change; auto using inner_range. byt.
Qed.
Example C47_ex : let i32t := VT UNull None None HI32 in
  let t := VT (ObjType [65] vt_default [mkField [120] (crc32 [120]) i32t; mkField [121] (crc32 [121]) (VT UNull (Some [90]) None HABSTRACT)] 2 0 0 [] [] [1] None) None None HOBJ in
  record_type t /\ named t /\ counted t /\ Forall (fun h => named (fd_t h)) (fields_of t) /\
  vt_hash false t = Ok 1218174726 /\
  vt_hash false (with_field t 0 (mkField [122] (crc32 [122]) i32t)) <> vt_hash false t.
Proof.
  cbv zeta. split; [left; split; [eexists _, _, _, _, _, _, _, _, _, _; reflexivity|now left]|].
  split; [split; cbn; [constructor; [unfold is_byte; lia|constructor]|exact I]|]. split; [split; [reflexivity|discriminate]|].
  split; [repeat constructor; unfold is_byte; lia|].
  split; [vm_compute; reflexivity|vm_compute; discriminate].
Qed.

(** * C48 *)
(** Types of different kinds are not told apart: every primitive kind hashes to 0 (at both levels, and so do the
    hot-reload signatures); functions and methods, objects and structs, references and nullables collide. *)
Theorem C48_primitive_refuted lvl u a p k : In k prim_kinds -> vt_hash lvl (VT u a p k) = Ok 0.
Proof.
  intros H. cbn in H. repeat destruct H as [<-|H]; [..|destruct H]; destruct lvl; vm_compute; reflexivity.
Qed.
Theorem C48_kind_refuted lvl u a p : 
  vt_hash lvl (VT u a p HFUN) = vt_hash lvl (VT u a p HMETHOD) /\ vt_hash lvl (VT u a p HOBJ) = vt_hash lvl (VT u a p HSTRUCT) /\
  vt_hash lvl (VT u a p HREF) = vt_hash lvl (VT u a p HNULL).
Proof. destruct lvl; repeat split; reflexivity. Qed.
Theorem C48_signature_refuted u a p :
  (forall k, In k prim_kinds -> signature (VT u a p k) = 0) /\
  signature (VT u a p HFUN) = signature (VT u a p HMETHOD) /\ signature (VT u a p HOBJ) = signature (VT u a p HSTRUCT) /\
  signature (VT u a p HREF) = signature (VT u a p HNULL).
Proof.
  split; [|repeat split; reflexivity]. intros k H. cbn in H. repeat destruct H as [<-|H]; [..|destruct H]; vm_compute; reflexivity.
Qed.
Example C48_ex : In HI32 prim_kinds /\ In HF64 prim_kinds /\ HI32 <> HF64 /\ vt_hash false (VT UNull None None HI32) = vt_hash false (VT UNull None None HF64).
Proof. repeat split; [cbn; tauto|cbn; tauto|discriminate]. Qed.

(** * Example modules *)
(** The module read from the encoding of [m]. *)
Definition loaded (m : amod) : code := match fst (read_module None (enc_module m)) with Ok c => c | _ => code_new end.
(** An enum with a boot-time constant, a class with an int and a string field and a constant instance, an
    abstract, one native, two functions. *)
Definition ex_hash : amod := {|
  am_version := 5; am_debug := false; am_ints := [42; -7]; am_floats := [4614253070214989087];
  am_strings := [[69]; [67]; [120]; [121]; [65; 98]];
  am_bytes := []; am_bytes_pos := []; am_debugfiles := [];
  am_types := [APrim HVOID; APrim HI32; APrim HBYTES; AFun false [] 0; AEnum 0 1 [(1, []); (2, [1])];
               AObj false 3 None 2 [(2, 1); (3, 2)] [] []; AAbstract 4; AParam HREF 5];
  am_globals := [4; 5; 6; 1; 4]; am_natives := [(0, 1, 3, 1)];
  am_functions := [{| af_type := 3; af_findex := 2; af_regs := [1; 4]; af_ops := [IFixed 67 [0]]; af_debug := []; af_assigns := [] |};
                   {| af_type := 3; af_findex := 0; af_regs := [1; 4];
                      af_ops := [IFixed 98 []; IFixed 1 [0; 1]; IFixed 77 [1; 0; 0]; IFixed 98 []; IFixed 37 [4; 1]; IFixed 67 [0]];
                      af_debug := []; af_assigns := [] |}];
  am_constants := [(1, [0; 4])]; am_entrypoint := 0 |}.
Example ex_hash_accepted : accepted None (enc_module ex_hash) (loaded ex_hash). Proof. vm_compute. reflexivity. Qed.
Lemma byte_forallb l : forallb (fun b => (0 <=? b) && (b <? 256)) l = true -> bytes l.
Proof. intros H. rewrite forallb_forall in H. apply Forall_forall. intros b Hb. specialize (H b Hb). unfold is_byte. lia. Qed.
Example ex_hash_bytes : bytes (enc_module ex_hash). Proof. apply byte_forallb. vm_compute. reflexivity. Qed.
Definition hashed (c : code) : code_hash := match alloc c with Ok ch => ch | _ => alloc_start c end.
Example ex_hash_ok : alloc (loaded ex_hash) = Ok (hashed (loaded ex_hash)). Proof. vm_compute. reflexivity. Qed.

(** * C49 *)
Lemma latest_nodup : forall us k v d, NoDup (map fst us) -> In (k, v) us -> latest us k d = v.
Proof.
  assert (Out : forall us k d, ~ In k (map fst us) -> latest us k d = d).
  { induction us as [|[j v] us IH]; intros k d N; cbn [latest map In fst] in *; [reflexivity|]. rewrite IH by tauto.
    destruct (Z.eqb_spec j k); [tauto|reflexivity]. }
  induction us as [|[j w] us IH]; intros k v d N H; cbn [latest map fst] in *; [destruct H|]. inversion N; subst. destruct H as [H|H].
  - assert (j = k) as -> by congruence. assert (w = v) as -> by congruence. rewrite Out, Z.eqb_refl by auto. reflexivity.
  - now apply IH.
Qed.
Lemma index_of_nth c i k : NoDup (findexes c) -> zlen (findexes c) <= 2 ^ 31 -> znth (findexes c) i = Some k -> index_of c k = i.
Proof.
  intros N L Z. pose proof (znth_some_range _ _ _ Z) as R. unfold index_of. rewrite (latest_nodup _ k (i32 i)).
  - apply i32_small. lia.
  - rewrite map_map. cbn [fst]. rewrite (number_snd (fun x => x)), map_id. exact N.
  - apply in_map_iff. exists (i, k). split; [reflexivity|]. apply (znth_In _ i). rewrite number_get, Z by lia. reflexivity.
Qed.
Lemma index_table c ch e0 buf : bytes buf -> accepted e0 buf c -> alloc c = Ok ch ->
  zlen (ch_functions_indexes ch) = zlen (findexes c) /\ Forall (fun k => 0 <= k < zlen (findexes c)) (findexes c) /\
  (forall k, 0 <= k < zlen (findexes c) -> znth (ch_functions_indexes ch) k = Some (index_of c k)).
Proof.
  intros B A E. destruct (accepted_alloc e0 buf c B A) as [CO SO].
  destruct (alloc_sound c CO SO ch E) as (H & _ & _ & _ & _ & L & I & _). split; [auto|]. split; [apply H|auto].
Qed.
(** Function [i]'s index maps to [i], native [i]'s to [nfunctions + i] ... *)
Theorem C49_lookup e0 buf c ch : bytes buf -> accepted e0 buf c -> alloc c = Ok ch ->
  NoDup (map hf_findex (c_functions c) ++ map n_findex (c_natives c)) -> zlen (c_functions c) + zlen (c_natives c) <= 2 ^ 31 ->
  (forall i f, znth (c_functions c) i = Some f -> znth (ch_functions_indexes ch) (hf_findex f) = Some i) /\
  (forall i x, znth (c_natives c) i = Some x -> znth (ch_functions_indexes ch) (n_findex x) = Some (zlen (c_functions c) + i)).
Proof.
  intros B A E N L. destruct (index_table c ch e0 buf B A E) as (Li & F & G). fold (findexes c) in N.
  assert (L' : zlen (findexes c) <= 2 ^ 31) by (unfold findexes; rewrite zlen_app, !zlen_map; auto).
  rewrite Forall_forall in F.
  assert (K : forall i k, znth (findexes c) i = Some k -> znth (ch_functions_indexes ch) k = Some i).
  { intros i k Z. rewrite G by (apply F; eapply znth_In; eauto). f_equal. now apply index_of_nth. }
  split; intros i x Z; pose proof (znth_some_range _ _ _ Z) as R; apply K; unfold findexes.
  - rewrite znth_app_l by (rewrite zlen_map; lia). now rewrite znth_map, Z.
  - rewrite znth_app_r by (rewrite zlen_map; lia). rewrite zlen_map, znth_map.
    replace (zlen (c_functions c) + i - zlen (c_functions c)) with i by lia. now rewrite Z.
Qed.
(** ... and back: every entry of the table is the position of the function or native with that index. *)
Theorem C49_inverse e0 buf c ch : bytes buf -> accepted e0 buf c -> alloc c = Ok ch ->
  NoDup (map hf_findex (c_functions c) ++ map n_findex (c_natives c)) -> zlen (c_functions c) + zlen (c_natives c) <= 2 ^ 31 ->
  zlen (ch_functions_indexes ch) = zlen (c_functions c) + zlen (c_natives c) /\
  forall k j, znth (ch_functions_indexes ch) k = Some j ->
    (exists f, znth (c_functions c) j = Some f /\ hf_findex f = k) \/
    (exists x, znth (c_natives c) (j - zlen (c_functions c)) = Some x /\ n_findex x = k).
Proof.
  intros B A E N L. destruct (index_table c ch e0 buf B A E) as (Li & F & G). fold (findexes c) in N.
  assert (Le : zlen (findexes c) = zlen (c_functions c) + zlen (c_natives c)) by (unfold findexes; now rewrite zlen_app, !zlen_map).
  split; [lia|]. intros k j Z. pose proof (znth_some_range _ _ _ Z) as R. rewrite G in Z by lia.
  assert (Hin : In k (findexes c)).
  { set (all := map Z.of_nat (seq 0 (length (findexes c)))).
    assert (incl all (findexes c)).
    { apply NoDup_length_incl; [exact N|unfold all; rewrite map_length, seq_length; lia|].
      intros x Hx. rewrite Forall_forall in F. specialize (F x Hx). unfold all. apply in_map_iff. exists (Z.to_nat x). unfold zlen in F.
      split; [lia|]. apply in_seq. lia. }
    apply H. unfold all. apply in_map_iff. exists (Z.to_nat k). unfold zlen in *. split; [lia|]. apply in_seq. lia. }
  apply In_nth_error in Hin as [m Em].
  assert (Zm : znth (findexes c) (Z.of_nat m) = Some k) by (rewrite FormatProofs.znth_nth_error by lia; now rewrite Nat2Z.id).
  rewrite (index_of_nth c (Z.of_nat m) k N ltac:(lia) Zm) in Z. assert (j = Z.of_nat m) as -> by congruence. unfold findexes in Zm.
  destruct (Z.lt_ge_cases (Z.of_nat m) (zlen (c_functions c))) as [Hl|Hl].
  - left. rewrite znth_app_l, znth_map in Zm by (rewrite zlen_map; lia). destruct (znth (c_functions c) (Z.of_nat m)) as [f|]; [|discriminate].
    exists f. cbn in Zm. split; congruence.
  - right. rewrite znth_app_r, zlen_map, znth_map in Zm by (rewrite zlen_map; lia).
    destruct (znth (c_natives c) (Z.of_nat m - zlen (c_functions c))) as [x|]; [|discriminate]. exists x. cbn in Zm. split; congruence.
Qed.
Example C49_ex : NoDup (map hf_findex (c_functions (loaded ex_hash)) ++ map n_findex (c_natives (loaded ex_hash))) /\
  map hf_findex (c_functions (loaded ex_hash)) = [2; 0] /\ map n_findex (c_natives (loaded ex_hash)) = [1] /\
  ch_functions_indexes (hashed (loaded ex_hash)) = [1; 2; 0].
Proof.
  split; [|vm_compute; auto]. vm_compute. repeat (constructor; [cbn; intuition discriminate|]). constructor.
Qed.

(** * C50 *)
(** Hashing an accepted module succeeds exactly when the module is [hashable] (HashSpec.v) ... *)
Theorem C50_exact e0 buf c : bytes buf -> accepted e0 buf c -> (exists ch, alloc c = Ok ch) <-> hashable c.
Proof.
  intros B A. destruct (accepted_alloc e0 buf c B A) as [CO SO]. split.
  - intros [ch E]. now apply (alloc_sound c CO SO ch E).
  - now apply alloc_complete.
Qed.
(** ... and panics otherwise. *)
Theorem C50_panics e0 buf c : bytes buf -> accepted e0 buf c -> ~ hashable c -> exists p, alloc c = Panic p /\ lookup_panic p.
Proof.
  intros B A N. destruct (alloc c) as [ch|e|p] eqn:E; [|now apply ne_alloc in E|eauto using panic_kind, pk_alloc].
  destruct N. apply (C50_exact e0 buf c B A). eauto.
Qed.
(** So it crashes on every accepted module with a forward type reference (seen through the null placeholder),
    with a class or enum that names no global, or without functions. *)
Theorem C50_forward_refuted e0 buf c t : bytes buf -> accepted e0 buf c -> In t (declared c) -> In vt_default (mixed t) ->
  exists p, alloc c = Panic p /\ lookup_panic p.
Proof.
  intros B A Ht Hm. apply (C50_panics e0 buf c B A). intros (_ & H & _). rewrite Forall_forall in H. specialize (H t Ht).
  rewrite Forall_forall in H. specialize (H _ Hm). destruct (accepted_alloc e0 buf c B A) as [CO SO].
  unfold contents_ok in CO. destruct CO as (_ & _ & _ & _ & _ & _ & _ & (D0 & L & E & G) & _).
  assert (ED : declared c = D0).
  { unfold declared. rewrite E, <- L. replace (Z.to_nat (zlen D0)) with (length D0) by (unfold zlen; lia).
    rewrite firstn_app, Nat.sub_diag, firstn_all. cbn [firstn]. apply app_nil_r. }
  rewrite ED in H. apply In_nth_error in H as [m Em]. destruct (G (Z.of_nat m) vt_default) as [N _]; [|congruence].
  rewrite FormatProofs.znth_nth_error by lia. now rewrite Nat2Z.id.
Qed.
Theorem C50_no_global_refuted e0 buf c t v : bytes buf -> accepted e0 buf c -> In t (declared c) -> In (-1, v) (owner t) ->
  exists p, alloc c = Panic p /\ lookup_panic p.
Proof.
  intros B A Ht Hm. apply (C50_panics e0 buf c B A). intros (_ & _ & H & _). unfold slots_in in H. rewrite Forall_forall in H.
  specialize (H (-1, v)). cbn [fst] in H. assert (In (-1, v) (flat_map owner (declared c))) by (apply in_flat_map; eauto). specialize (H H0). lia.
Qed.
Theorem C50_no_functions_refuted e0 buf c : bytes buf -> accepted e0 buf c -> c_functions c = [] -> exists p, alloc c = Panic p /\ lookup_panic p.
Proof.
  intros B A Hf. apply (C50_panics e0 buf c B A). intros (_ & _ & _ & _ & _ & f & (_ & _ & Z) & _). rewrite Hf in Z. discriminate.
Qed.
(** Modules that crash for one reason only. *)
Definition ex_hash_with (types : list atype) : amod := {|
  am_version := 5; am_debug := false; am_ints := []; am_floats := []; am_strings := [[69]; [67]]; am_bytes := []; am_bytes_pos := [];
  am_debugfiles := []; am_types := types; am_globals := []; am_natives := [];
  am_functions := [{| af_type := 0; af_findex := 0; af_regs := []; af_ops := [IFixed 67 [0]]; af_debug := []; af_assigns := [] |}];
  am_constants := []; am_entrypoint := 0 |}.
Definition result (m : amod) : res derr unit := match alloc (loaded m) with Ok _ => Ok tt | Err e => Err e | Panic p => Panic p end.
Example C50_ex :
  result (ex_hash_with [APrim HVOID; APrim HI32; AParam HREF 1]) = Ok tt /\
  result (ex_hash_with [APrim HVOID; AParam HREF 2; APrim HI32]) = Panic PIndex /\
  In vt_default (mixed (VT UNull None (Some vt_default) HREF)) /\
  In (VT UNull None (Some vt_default) HREF) (declared (loaded (ex_hash_with [APrim HVOID; AParam HREF 2; APrim HI32]))) /\
  result (ex_hash_with [APrim HVOID; AEnum 0 0 [(1, [])]]) = Panic PIndex /\
  result (ex_hash_with [APrim HVOID; AObj false 0 None 0 [(1, 0)] [] []]) = Panic PIndex /\
  hashable (loaded ex_hash).
Proof.
  split; [vm_compute; reflexivity|]. split; [vm_compute; reflexivity|]. split; [now left|]. split; [vm_compute; tauto|].
  split; [vm_compute; reflexivity|]. split; [vm_compute; reflexivity|].
  apply (C50_exact None (enc_module ex_hash) _ ex_hash_bytes ex_hash_accepted). eexists. exact ex_hash_ok.
Qed.

(** * C51 *)
Definition declared_globals (c : code) : list vtype := firstn (Z.to_nat (c_nglobals c)) (c_globals c).
(** The signature of global [i]: the last of the assignments made by class and enum types, then by constants,
    then by boot code, or else the default; xor-ed with the signature of its type. *)
Theorem C51_globals e0 buf c ch : bytes buf -> accepted e0 buf c -> alloc c = Ok ch ->
  exists f, boot_function c f /\ zlen (ch_globals_signs ch) = c_nglobals c /\
  forall i t, znth (declared_globals c) i = Some t ->
    znth (ch_globals_signs ch) i =
      Some (Z.lxor (latest (flat_map owner (declared c) ++ map (constant_sign c) (c_constants c) ++ boot_signs c f) i (default_sign i t))
                   (i32 (signature_crc t))).
Proof.
  intros B A E. destruct (accepted_alloc e0 buf c B A) as [CO SO].
  destruct (alloc_sound c CO SO ch E) as (_ & _ & _ & _ & _ & _ & _ & f & Bf & Eg). exists f. split; [auto|]. rewrite Eg.
  split; [rewrite zlen_map, number_len; now apply globals_table|]. intros i t Z. pose proof (znth_some_range _ _ _ Z) as R.
  rewrite znth_map, number_get by lia. unfold declared_globals in Z. rewrite Z. reflexivity.
Qed.
Lemma latest_none us : forall k d, (forall v, ~ In (k, v) us) -> latest us k d = d.
Proof.
  induction us as [|[j v] us IH]; intros k d H; cbn [latest]; [reflexivity|]. rewrite IH by (intros w Hw; apply (H w); now right).
  destruct (Z.eqb_spec j k) as [->|]; [destruct (H v); now left|reflexivity].
Qed.
Lemma latest_last a b k v d : (forall w, ~ In (k, w) b) -> latest (a ++ (k, v) :: b) k d = v.
Proof. intros H. rewrite latest_app. cbn [latest]. rewrite Z.eqb_refl. now apply latest_none. Qed.
(** Global [i] is initialised by constant [k]: the last constant for it, and not assigned by the boot code. *)
Definition initialised_by (c : code) (i : Z) (k : constant) : Prop :=
  (exists a b, c_constants c = a ++ k :: b /\ k_global k = i /\ forall k', In k' b -> k_global k' <> i) /\
  (forall f v, boot_function c f -> ~ In (i, v) (boot_signs c f)).
(** Constants come before type owners and defaults. *)
Theorem C51_constant e0 buf c ch i t k : bytes buf -> accepted e0 buf c -> alloc c = Ok ch ->
  znth (declared_globals c) i = Some t -> initialised_by c i k ->
  znth (ch_globals_signs ch) i = Some (Z.lxor (snd (constant_sign c k)) (i32 (signature_crc t))).
Proof.
  intros B A E Z ((a & b & Ec & Ek & Nb) & Nf). destruct (C51_globals e0 buf c ch B A E) as (f & Bf & _ & H). rewrite (H i t Z). f_equal. f_equal.
  rewrite Ec, map_app. cbn [map]. replace (constant_sign c k) with (i, snd (constant_sign c k)) by (unfold constant_sign; cbn [snd]; now rewrite Ek).
  cbn [snd]. rewrite <- app_assoc. cbn [app].
  rewrite (app_assoc (flat_map owner (declared c))). apply latest_last.
  intros w Hw. apply in_app_or in Hw as [Hw|Hw].
  - apply in_map_iff in Hw as (k' & E1 & E2). apply (Nb k' E2). unfold constant_sign in E1. congruence.
  - exact (Nf f w Bf Hw).
Qed.
(** With neither constant nor boot assignment, the last class or enum naming the global signs it; with none,
    the default. *)
Theorem C51_default e0 buf c ch i t : bytes buf -> accepted e0 buf c -> alloc c = Ok ch ->
  znth (declared_globals c) i = Some t ->
  (forall k, In k (c_constants c) -> k_global k <> i) -> (forall f v, boot_function c f -> ~ In (i, v) (boot_signs c f)) ->
  (forall u, In u (declared c) -> forall v, ~ In (i, v) (owner u)) ->
  znth (ch_globals_signs ch) i =
    Some (if vt_kind t =? HABSTRACT then 0 else Z.lxor (i32 (Z.lor i (2 ^ 31))) (i32 (signature_crc t))).
Proof.
  intros B A E Z Nk Nf No. destruct (C51_globals e0 buf c ch B A E) as (f & Bf & _ & H). rewrite (H i t Z).
  rewrite latest_none.
  - unfold default_sign. destruct (vt_kind t =? HABSTRACT); [now rewrite Z.lxor_nilpotent|reflexivity].
  - intros v Hv. apply in_app_or in Hv as [Hv|Hv]; [|apply in_app_or in Hv as [Hv|Hv]].
    + apply in_flat_map in Hv as (u & Hu & Hv). exact (No u Hu v Hv).
    + apply in_map_iff in Hv as (k & E1 & Hk). apply (Nk k Hk). unfold constant_sign in E1. congruence.
    + exact (Nf f v Bf Hv).
Qed.
(** Changing one integer field of the constant that initialises a global changes its signature. *)
Lemma i32_inj x y : 0 <= x < 2 ^ 32 -> 0 <= y < 2 ^ 32 -> i32 x = i32 y -> x = y.
Proof.
  unfold i32. intros Hx Hy E. assert (E' : (x + 2 ^ 31) mod 2 ^ 32 = (y + 2 ^ 31) mod 2 ^ 32) by lia. clear E. change (2 ^ 32) with 4294967296 in *. change (2 ^ 31) with 2147483648 in *.
  pose proof (Z.div_mod (x + 2147483648) 4294967296 ltac:(lia)). pose proof (Z.div_mod (y + 2147483648) 4294967296 ltac:(lia)).
  pose proof (Z.mod_pos_bound (x + 2147483648) 4294967296 ltac:(lia)). pose proof (Z.mod_pos_bound (y + 2147483648) 4294967296 ltac:(lia)). lia.
Qed.
Lemma enc4_i32 x y : i32_range x -> i32_range y -> x <> y -> enc_le 4 x <> enc_le 4 y.
Proof.
  unfold i32_range. intros Hx Hy N E. apply N. unfold enc_le in E. apply (f_equal from_le) in E. change (256 ^ Z.of_nat 4) with 4294967296 in E.
  rewrite !from_le_bytes in E by (change (256 ^ Z.of_nat 4) with 4294967296; apply Z.mod_pos_bound; lia).
  change (2 ^ 31) with 2147483648 in *.
  pose proof (Z.div_mod x 4294967296 ltac:(lia)). pose proof (Z.div_mod y 4294967296 ltac:(lia)).
  pose proof (Z.mod_pos_bound x 4294967296 ltac:(lia)). pose proof (Z.mod_pos_bound y 4294967296 ltac:(lia)). lia.
Qed.
Theorem C51_int_field e0 e0' buf buf' c c' ch ch' i t k k' pre pre' post post' f x f' x' :
  bytes buf -> bytes buf' -> accepted e0 buf c -> accepted e0' buf' c' -> alloc c = Ok ch -> alloc c' = Ok ch' ->
  znth (declared_globals c) i = Some t -> znth (declared_globals c') i = Some t ->
  initialised_by c i k -> initialised_by c' i k' ->
  constant_fields c k = pre ++ (f, x) :: post -> constant_fields c' k' = pre' ++ (f', x') :: post' ->
  flat_map (field_bytes c) pre = flat_map (field_bytes c') pre' -> flat_map (field_bytes c) post = flat_map (field_bytes c') post' ->
  vt_kind (fd_t f) = HI32 -> vt_kind (fd_t f') = HI32 ->
  entry 0 (c_ints c) x <> entry 0 (c_ints c') x' ->
  znth (ch_globals_signs ch) i <> znth (ch_globals_signs ch') i.
Proof.
  intros B B' A A' E E' Z Z' I I' F F' P Q K K' N.
  rewrite (C51_constant e0 buf c ch i t k), (C51_constant e0' buf' c' ch' i t k') by auto.
  assert (IB : forall e0 buf c x, bytes buf -> accepted e0 buf c -> i32_range (entry 0 (c_ints c) x)).
  { clear. intros e0 buf c x B A. destruct (accepted_alloc e0 buf c B A) as [CO _]. assert (Fi : Forall i32_range (c_ints c)) by (unfold contents_ok in CO; tauto).
    unfold entry. destruct (nth_in_or_default (Z.to_nat x) (c_ints c) 0) as [H| ->]; [rewrite Forall_forall in Fi; auto|unfold i32_range; lia]. }
  assert (BB : forall e0 buf c l, bytes buf -> accepted e0 buf c -> bytes (flat_map (field_bytes c) l)).
  { clear. intros e0 buf c l B A. destruct (accepted_alloc e0 buf c B A) as [CO _]. assert (Fs : Forall utf8 (c_strings c)) by (unfold contents_ok in CO; tauto).
    apply bytes_flat_map. intros [f x] _. unfold field_bytes. destruct (_ =? HI32); [apply enc_le_bytes|]. destruct (_ =? HBYTES); [|apply Forall_nil].
    unfold entry. generalize (Z.to_nat x). induction Fs as [|s ss Hs _ IH]; intros [|m]; cbn [nth]; try apply Forall_nil; [now apply Utf8Proofs.utf8_bytes|apply IH]. }
  intros Eq. assert (Eq' : Z.lxor (snd (constant_sign c k)) (i32 (signature_crc t)) = Z.lxor (snd (constant_sign c' k')) (i32 (signature_crc t))) by congruence.
  clear Eq. apply (f_equal (fun z => Z.lxor z (i32 (signature_crc t)))) in Eq'. rewrite !Z.lxor_assoc, Z.lxor_nilpotent, !Z.lxor_0_r in Eq'.
  unfold constant_sign in Eq'. cbn [snd] in Eq'. apply i32_inj in Eq'; [|apply crc32_range, (BB e0 buf); auto|apply crc32_range, (BB e0' buf'); auto].
  rewrite F, F', !flat_map_app in Eq'. cbn [flat_map] in Eq'. rewrite <- P, <- Q in Eq'. cbn [field_bytes] in Eq'. rewrite K, K' in Eq'.
  change (HI32 =? HI32) with true in Eq'. cbn iota in Eq'. revert Eq'.
  assert (Bx : forall z, bytes (flat_map (field_bytes c) pre ++ enc_le 4 z ++ flat_map (field_bytes c) post)).
  { intros z. pose proof (BB e0 buf c pre B A). pose proof (BB e0 buf c post B A). byt. }
  apply C46_window; [apply Bx|apply Bx|reflexivity|rewrite enc_le_len; cbn; lia|]. apply enc4_i32; [apply (IB e0 buf); auto|apply (IB e0' buf'); auto|exact N].
Qed.
(** In the example module: class and enum globals whose own type names them, and abstract globals, come out
    as 0; global 1 is signed by the constant, 4 by the boot code. *)
Example C51_ex : let c := loaded ex_hash in
  ch_globals_signs (hashed c) = [0; 1900527768; 0; -1589321953; -1873055326] /\
  map (constant_sign c) (c_constants c) = [(1, 1563163075)] /\
  (exists k, initialised_by c 1 k /\ constant_fields c k = [(mkField [120] (crc32 [120]) (VT UNull None None HI32), 0); (mkField [121] (crc32 [121]) (VT UNull None None HBYTES), 4)]) /\
  index_of c (c_entrypoint c) = 1 /\ map (boot_signs c) (c_functions c) = [[]; [(4, -7)]] /\
  flat_map owner (declared c) = [(0, 1873055323); (1, 745290075)].
Proof.
  cbv zeta. split; [vm_compute; reflexivity|]. split; [vm_compute; reflexivity|]. split; [|vm_compute; auto].
  eexists. split; [|].
  - split; [exists [], []; split; [vm_compute; reflexivity|split; [reflexivity|intros k' []]]|].
    intros f v (_ & _ & Z). assert (Z' : znth (c_functions (loaded ex_hash)) 1 = Some f) by exact Z.
    assert (Bs : option_map (boot_signs (loaded ex_hash)) (znth (c_functions (loaded ex_hash)) 1) = Some [(4, -7)]) by (vm_compute; reflexivity).
    rewrite Z' in Bs. cbn [option_map] in Bs. assert (boot_signs (loaded ex_hash) f = [(4, -7)]) as -> by congruence.
    intros [H|[]]. discriminate.
  - vm_compute. reflexivity.
Qed.

(** * C57: signatures are a function of the type alone *)
(** A type's hot-reload signature is the same in every module and at every position where it is declared. *)
Theorem C57_order e0 e0' buf buf' c c' ch ch' i j t :
  bytes buf -> bytes buf' -> accepted e0 buf c -> accepted e0' buf' c' -> alloc c = Ok ch -> alloc c' = Ok ch' ->
  znth (declared c) i = Some t -> znth (declared c') j = Some t ->
  znth (ch_type_hashes ch) i = Some (signature t) /\ znth (ch_type_hashes ch') j = Some (signature t).
Proof.
  assert (H : forall e0 buf c ch i t, bytes buf -> accepted e0 buf c -> alloc c = Ok ch -> znth (declared c) i = Some t -> znth (ch_type_hashes ch) i = Some (signature t)).
  { intros e1 b1 c1 ch1 i1 t1 B A E Z. destruct (accepted_alloc e1 b1 c1 B A) as [CO SO]. destruct (alloc_sound c1 CO SO ch1 E) as (_ & _ & Eh & _). rewrite Eh.
    pose proof (znth_some_range _ _ _ Z) as R. rewrite znth_app_l by (rewrite zlen_map; lia). now rewrite znth_map, Z. }
  intros. split; [apply (H e0 buf c ch i t)|apply (H e0' buf' c' ch' j t)]; auto.
Qed.
(** Two entries that are the same type get the same signature; an entry's signature changes when the
    (outer) hash of exactly one type it mixes in changes and its own outer hash does not. *)
Theorem C57_sensitive t t' pre u u' post : mixed t = pre ++ u :: post -> mixed t' = pre ++ u' :: post ->
  outer_hash t = outer_hash t' -> 0 <= outer_hash u < 2 ^ 32 -> 0 <= outer_hash u' < 2 ^ 32 -> outer_hash u <> outer_hash u' ->
  signature t <> signature t'.
Proof.
  intros M M' O Ru Ru' N E. unfold signature in E. rewrite M, M', O in E.
  apply (f_equal (Z.lxor (outer_hash t'))) in E. rewrite <- !Z.lxor_assoc, Z.lxor_nilpotent, !Z.lxor_0_l in E. revert E.
  rewrite !flat_map_app. cbn [flat_map]. apply word_change; auto; apply bytes_flat_map; intros; apply enc_le_bytes.
Qed.
Example C57_ex : ch_type_hashes (hashed (loaded ex_hash)) = map signature (declared (loaded ex_hash)) ++ zrepeat 0 8 /\
  map signature (declared (loaded ex_hash)) <> zrepeat 0 8.
Proof. split; vm_compute; [reflexivity|discriminate]. Qed.

(** * C52 *)
(** Finalisation panics for every accepted module that survived hashing: the reader leaves no field information. *)
Theorem C52_finalize_refuted e0 buf c ch : bytes buf -> accepted e0 buf c -> alloc c = Ok ch -> finalize ch = Panic PUnwrap.
Proof.
  intros B A E. destruct (accepted_alloc e0 buf c B A) as [CO SO].
  destruct (alloc_sound c CO SO ch E) as ((_ & _ & _ & _ & _ & f & (_ & _ & Z) & _) & Ec & Eh & _).
  destruct (types_table c CO) as [ET _].
  assert (FO : Forall (function_ok (declared c) (negb (c_hasdebug c =? 0)) (c_ndebugfiles c)) (c_functions c)) by (unfold contents_ok in CO; tauto).
  assert (Nf : zlen (c_functions c) = c_nfunctions c) by (destruct SO; tauto).
  unfold finalize. rewrite Ec. cbv zeta. destruct (c_functions c) as [|g fs] eqn:Ef; [discriminate|].
  assert (Hp : exists n, Z.to_nat (c_nfunctions c) = S n).
  { rewrite <- Nf, zlen_cons. pose proof (zlen_nonneg fs). exists (Z.to_nat (zlen fs)). lia. }
  destruct Hp as [n Hn]. unfold rfor at 1. rewrite Hn. cbn [rloop znth]. change (0 =? 0) with true. cbn [need rbind].
  inversion FO as [|? ? G _]; subst. destruct G as (Ht & _ & _ & _ & _ & _ & _ & Ho & Hff & _).
  unfold hash_fun_sign, write_type. rewrite Eh, ET, hash_at_declared by auto. cbn [rbind rret]. rewrite Ho, Hff. reflexivity.
Qed.
(** For any other hash structure on which it returns, signature [i] is native [i]'s, so that of function [i] is
    lost, and the last slots (those meant for the natives) stay 0. *)
Theorem C52_overwrite_refuted ch ch' : finalize ch = Ok ch' -> 0 <= c_nfunctions (ch_code ch) -> 0 <= c_nnatives (ch_code ch) ->
  let nf := c_nfunctions (ch_code ch) in let nn := c_nnatives (ch_code ch) in
  zlen (ch_functions_signs ch') = nf + nn /\
  (forall i, 0 <= i < nn -> exists x s, znth (c_natives (ch_code ch)) i = Some x /\ hash_native ch x = Ok s /\ znth (ch_functions_signs ch') i = Some s) /\
  (forall i, nn <= i < nf -> exists f s, znth (c_functions (ch_code ch)) i = Some f /\ hash_fun_sign ch f = Ok s /\ znth (ch_functions_signs ch') i = Some s) /\
  (forall i, Z.max nf nn <= i < nf + nn -> znth (ch_functions_signs ch') i = Some 0).
Proof.
  intros E Hf Hn. cbv zeta. unfold finalize in E. cbv zeta in E. set (c := ch_code ch) in *. set (nf := c_nfunctions c) in *. set (nn := c_nnatives c) in *.
  apply rbind_ok in E as (l1 & E1 & E). apply rbind_ok in E as (l2 & E2 & E). apply rbind_ok in E as (hs & _ & E).
  match type of E with rret ?x = _ => assert (ch' = x) as -> by (unfold rret in E; congruence) end. cbn [ch_functions_signs set_functions_signs set_functions_hashes].
  clearbody nf nn.
  assert (I1 : zlen l1 = nf + nn /\
     (forall j, 0 <= j < nf -> exists f s, znth (c_functions c) j = Some f /\ hash_fun_sign ch f = Ok s /\ znth l1 j = Some s) /\
     (forall j, nf <= j < nf + nn -> znth l1 j = Some 0)).
  { refine (rfor_inv (fun i l => zlen l = nf + nn /\
     (forall j, 0 <= j < i -> exists f s, znth (c_functions c) j = Some f /\ hash_fun_sign ch f = Ok s /\ znth l j = Some s) /\
     (forall j, i <= j < nf + nn -> znth l j = Some 0)) nf _ _ l1 Hf _ _ E1).
    - split; [apply zlen_repeat; lia|]. split; [intros j Hj; exfalso; lia|]. intros j Hj. apply znth_repeat. lia.
    - intros j l l' Hj (L & H1 & H2) B. apply rbind_ok in B as (f & Bf & B). apply need_ok in Bf. apply rbind_ok in B as (s & Bs & B).
      apply need_ok in B. destruct (zset_get _ _ _ _ B) as (R & L' & G). split; [lia|]. split; intros k Hk; rewrite G.
      + destruct (Z.eqb_spec k j) as [->|]; [exists f, s; auto|]. apply H1. lia.
      + destruct (Z.eqb_spec k j); [lia|]. apply H2. lia. }
  destruct I1 as (L1 & F1 & Z1).
  assert (I2 : zlen l2 = nf + nn /\
     (forall j, 0 <= j < nn -> exists x s, znth (c_natives c) j = Some x /\ hash_native ch x = Ok s /\ znth l2 j = Some s) /\
     (forall j, nn <= j -> znth l2 j = znth l1 j)).
  { refine (rfor_inv (fun i l => zlen l = nf + nn /\
     (forall j, 0 <= j < i -> exists x s, znth (c_natives c) j = Some x /\ hash_native ch x = Ok s /\ znth l j = Some s) /\
     (forall j, i <= j -> znth l j = znth l1 j)) nn _ _ l2 Hn _ _ E2).
    - split; [auto|]. split; [intros j Hj; exfalso; lia|]. auto.
    - intros j l l' Hj (L & H1 & H2) B. apply rbind_ok in B as (f & Bf & B). apply need_ok in Bf. apply rbind_ok in B as (s & Bs & B).
      apply need_ok in B. destruct (zset_get _ _ _ _ B) as (R & L' & G). split; [lia|]. split; intros k Hk; rewrite G.
      + destruct (Z.eqb_spec k j) as [->|]; [exists f, s; auto|]. apply H1. lia.
      + destruct (Z.eqb_spec k j); [lia|]. apply H2. lia. }
  destruct I2 as (L2 & F2 & Z2). split; [auto|]. split; [auto|]. split.
  - intros i Hi. rewrite Z2 by lia. apply F1. lia.
  - intros i Hi. rewrite Z2 by lia. apply Z1. lia.
Qed.
(** Everything else such a run leaves: function [i]'s hash is computed when exactly the functions before it have theirs (later ones
    count as 0), and nothing but the two tables changes. *)
Theorem C52_hashes ch ch' : finalize ch = Ok ch' -> 0 <= c_nfunctions (ch_code ch) ->
  let H := ch_functions_hashes ch' in let nf := c_nfunctions (ch_code ch) in
  zlen H = nf /\
  (forall i, 0 <= i < nf -> exists f h, znth (c_functions (ch_code ch)) i = Some f /\ znth H i = Some h /\
     hash_fun (set_functions_hashes (firstn (Z.to_nat i) H ++ zrepeat 0 (nf - i)) ch) f = Ok h) /\
  ch' = set_functions_hashes H (set_functions_signs (ch_functions_signs ch') ch).
Proof.
  intros E Hf. cbv zeta. unfold finalize in E. cbv zeta in E. set (c := ch_code ch) in *. set (nf := c_nfunctions c) in *.
  apply rbind_ok in E as (l1 & E1 & E). apply rbind_ok in E as (l2 & E2 & E). apply rbind_ok in E as (hs & E3 & E). clear E1 E2.
  match type of E with rret ?x = _ => assert (ch' = x) as -> by (unfold rret in E; congruence) end. cbn [ch_functions_signs ch_functions_hashes set_functions_signs set_functions_hashes].
  assert (I : exists done, zlen done = nf /\ hs = done ++ zrepeat 0 (nf - nf) /\
     forall i, 0 <= i < nf -> exists f h, znth (c_functions c) i = Some f /\ znth done i = Some h /\
       hash_fun (set_functions_hashes (firstn (Z.to_nat i) done ++ zrepeat 0 (nf - i)) ch) f = Ok h).
  { clear E. refine (rfor_inv (fun i l => exists done, zlen done = i /\ l = done ++ zrepeat 0 (nf - i) /\
       forall j, 0 <= j < i -> exists f h, znth (c_functions c) j = Some f /\ znth done j = Some h /\
         hash_fun (set_functions_hashes (firstn (Z.to_nat j) done ++ zrepeat 0 (nf - j)) ch) f = Ok h) nf _ _ hs Hf _ _ E3).
    - exists []. split; [reflexivity|]. split; [cbn [app]; now rewrite Z.sub_0_r|]. intros j Hj. exfalso. lia.
    - intros j l l' Hj (done & L & -> & G) B. apply rbind_ok in B as (f & Bf & B). apply need_ok in Bf. apply rbind_ok in B as (h & Bh & B). apply need_ok in B.
      assert (Z1 : zrepeat 0 (nf - j) = 0 :: zrepeat 0 (nf - (j + 1))) by (unfold zrepeat; replace (Z.to_nat (nf - j)) with (S (Z.to_nat (nf - (j + 1)))) by lia; reflexivity).
      exists (done ++ [h]). split; [rewrite zlen_app; unfold zlen at 2; cbn [length]; lia|]. split.
      + rewrite Z1, zset_mid in B by auto. rewrite <- app_assoc. cbn [app]. congruence.
      + intros k Hk. assert (FA : firstn (Z.to_nat k) (done ++ [h]) = firstn (Z.to_nat k) done).
        { rewrite firstn_app. replace (Z.to_nat k - length done)%nat with 0%nat by (unfold zlen in L; lia). cbn [firstn]. now rewrite app_nil_r. }
        rewrite FA. destruct (Z.eq_dec k j) as [->|N].
        * exists f, h. split; [auto|]. split; [now apply ModuleProofs.znth_mid|]. rewrite firstn_all2 by (unfold zlen in L; lia). exact Bh.
        * destruct (G k ltac:(lia)) as (f' & h' & G1 & G2 & G3). exists f', h'. split; [auto|]. split; [|auto]. rewrite znth_app_l by lia. exact G2. }
  destruct I as (done & L & -> & G). rewrite Z.sub_diag. change (zrepeat 0 0) with (@nil Z). rewrite app_nil_r. split; [auto|]. split; [exact G|reflexivity].
Qed.
(** A module (not one the reader produces) on which finalisation returns: a function with field information. *)
Definition with_field_info (f : hl_function) : hl_function :=
  match f with mkFun t fi nr no rf rg op db ob _ => mkFun t fi nr no rf rg op db ob (Some (mkFF [102] None)) end.
Definition ex_final : code_hash :=
  let ch := hashed (loaded ex_hash) in
  let c := ch_code ch in
  {| ch_code := {| c_version := c_version c; c_nints := c_nints c; c_nfloats := c_nfloats c; c_nstrings := c_nstrings c;
       c_nbytes := c_nbytes c; c_ntypes := c_ntypes c; c_nglobals := c_nglobals c; c_nnatives := c_nnatives c;
       c_nfunctions := c_nfunctions c; c_nconstants := c_nconstants c; c_entrypoint := c_entrypoint c; c_ndebugfiles := c_ndebugfiles c;
       c_ints := c_ints c; c_floats := c_floats c; c_strings := c_strings c; c_strings_lens := c_strings_lens c; c_bytes := c_bytes c;
       c_bytes_pos := c_bytes_pos c; c_debugfiles := c_debugfiles c; c_debugfiles_lens := c_debugfiles_lens c; c_ustrings := c_ustrings c;
       c_types := c_types c; c_globals := c_globals c; c_natives := c_natives c; c_functions := map with_field_info (c_functions c);
       c_constants := c_constants c; c_hasdebug := c_hasdebug c |};
     ch_type_hashes := ch_type_hashes ch; ch_globals_signs := ch_globals_signs ch; ch_functions_signs := ch_functions_signs ch;
     ch_functions_hashes := ch_functions_hashes ch; ch_functions_indexes := ch_functions_indexes ch |}.
Example C52_ex : (exists ch', finalize ex_final = Ok ch' /\ ch_functions_signs ch' <> [] /\ znth (ch_functions_signs ch') 2 = Some 0) /\
  finalize (hashed (loaded ex_hash)) = Panic PUnwrap.
Proof. split; [eexists; split; [vm_compute; reflexivity|split; [discriminate|reflexivity]]|vm_compute; reflexivity]. Qed.
