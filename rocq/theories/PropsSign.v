(** Theorem C75: signatures of natives and functions.  Model: HashModel.v.  Vocabulary: HashSpec.v, AcceptSpec.v. *)
From Verif Require Import Prelude StdModel BrassTypes DecoderModel CodeModel FormatSpec ReaderSpec AcceptSpec HashModel HashSpec FunHashSpec.
From Verif Require Import CodeGenericProofs FormatProofs StringsProofs ReaderSizes AcceptProofs CrcProofs HashProofs HashAlloc PropsModule PropsHash PropsFunHash.
From Coq Require Import Lia ZifyBool.

(** * What a signature is the CRC-32 of *)
Definition native_bytes (n : native) : list Z := n_lib n ++ n_name n ++ enc_le 4 (signature (n_t n)).
(** The class a method belongs to, as bytes of its name; nothing for a function that is not a method. *)
Definition class_name (f : hl_function) : list Z :=
  match hf_obj f with Some (ObjType name _ _ _ _ _ _ _ _ _) => name | _ => [] end.
Definition is_method (f : hl_function) : bool := match hf_obj f with Some (ObjType _ _ _ _ _ _ _ _ _ _) => true | _ => false end.
(** [fld]: the field information of [f]; its reference is a function whose own field information is [rfld]. *)
Definition function_bytes (f : hl_function) (fld : func_field) : list Z :=
  enc_le 4 (signature (hf_t f)) ++
  (if is_method f then class_name f ++ ff_name fld else []) ++
  match ff_rf fld with
  | None => []
  | Some rf => class_name rf ++ (match hf_field rf with Some rfld => ff_name rfld | None => [] end) ++ enc_le 4 (hf_rf f)
  end.
(** Field information is present where it is needed. *)
Definition signable (f : hl_function) : Prop :=
  exists fld, hf_field f = Some fld /\ forall rf, ff_rf fld = Some rf -> hf_field rf <> None.

Lemma write_u32_enc h v : write_u32 h v = hasher_write h (enc_le 4 v). Proof. reflexivity. Qed.
Lemma class_write f h : match hf_obj f with Some (ObjType name _ _ _ _ _ _ _ _ _) => hasher_write h name | _ => h end = hasher_write h (class_name f).
Proof. unfold class_name. destruct (hf_obj f) as [[]|]; reflexivity. Qed.
Lemma type_bytes c (CO : contents_ok c) (SO : sizes_ok c) ch t h : alloc c = Ok ch -> In t (declared c) ->
  write_type (c_types (ch_code ch)) (ch_type_hashes ch) t h = Ok (hasher_write h (enc_le 4 (signature t))).
Proof.
  intros E Ht. destruct (alloc_sound c CO SO ch E) as (_ & Ec & Eh & _). destruct (types_table c CO) as [ET _].
  unfold write_type. rewrite Ec, Eh, ET, hash_at_declared by auto. reflexivity.
Qed.
Lemma native_type c n : contents_ok c -> In n (c_natives c) -> In (n_t n) (declared c) /\ utf8 (n_lib n) /\ utf8 (n_name n).
Proof.
  intros CO Hn. assert (F : Forall (native_ok (c_strings c) (declared c)) (c_natives c)) by (unfold contents_ok in CO; tauto).
  assert (U : Forall utf8 (c_strings c)) by (unfold contents_ok in CO; tauto).
  rewrite Forall_forall in F, U. destruct (F n Hn) as (F1 & F2 & F3 & _). auto.
Qed.

(** * C75 *)
(** Every native of every accepted module that survived [alloc] has a signature: the CRC-32 of its library name, its
    name, and its type's signature. *)
Theorem C75_native e0 buf c ch n : bytes buf -> accepted e0 buf c -> alloc c = Ok ch -> In n (c_natives c) ->
  hash_native ch n = Ok (crc32 (native_bytes n)).
Proof.
  intros B A E Hn. destruct (accepted_alloc e0 buf c B A) as [CO SO]. destruct (native_type c n CO Hn) as [Ht _].
  unfold hash_native. cbv zeta. rewrite (type_bytes c CO SO ch) by auto. cbn [rbind rret]. unfold native_bytes, crc32.
  now rewrite !write_app.
Qed.
(** So it depends on the native alone, not on the module around it. *)
Theorem C75_native_alone e0 e0' buf buf' c c' ch ch' n : bytes buf -> bytes buf' -> accepted e0 buf c -> accepted e0' buf' c' ->
  alloc c = Ok ch -> alloc c' = Ok ch' -> In n (c_natives c) -> In n (c_natives c') -> hash_native ch n = hash_native ch' n.
Proof. intros. erewrite (C75_native e0 buf), (C75_native e0' buf'); eauto. Qed.
(** Any change confined to four consecutive bytes of the hashed sequence is noticed: in particular a change of the
    type's signature, or of four consecutive bytes of a name. *)
Theorem C75_native_sensitive e0 e0' buf buf' c c' ch ch' n n' p x y r : bytes buf -> bytes buf' -> accepted e0 buf c -> accepted e0' buf' c' ->
  alloc c = Ok ch -> alloc c' = Ok ch' -> In n (c_natives c) -> In n' (c_natives c') ->
  native_bytes n = p ++ x ++ r -> native_bytes n' = p ++ y ++ r -> zlen x = zlen y -> zlen x <= 4 -> x <> y ->
  hash_native ch n <> hash_native ch' n'.
Proof.
  intros B B' A A' E E' Hn Hn' X Y L L4 N. rewrite (C75_native e0 buf c) by auto. rewrite (C75_native e0' buf' c') by auto.
  assert (BB : forall c0 n0 e1 b0, bytes b0 -> accepted e1 b0 c0 -> In n0 (c_natives c0) -> bytes (native_bytes n0)).
  { intros c0 n0 e1 b0 B0 A0 H0. destruct (accepted_alloc e1 b0 c0 B0 A0) as [CO SO]. destruct (native_type c0 n0 CO H0) as (_ & U1 & U2).
    unfold native_bytes. repeat (apply Forall_app; split); [now apply Utf8Proofs.utf8_bytes|now apply Utf8Proofs.utf8_bytes|apply enc_le_bytes]. }
  pose proof (BB c n e0 buf B A Hn) as B1. pose proof (BB c' n' e0' buf' B' A' Hn') as B2. rewrite X in *. rewrite Y in *.
  intros Q. assert (Q2 : crc32 (p ++ x ++ r) = crc32 (p ++ y ++ r)) by congruence. revert Q2. apply C46_window; auto.
Qed.
(** The border between the library name and the native's name is not hashed: "a" of "bc" and "ab" of "c" collide. *)
Theorem C75_border_refuted e0 e0' buf buf' c c' ch ch' n n' : bytes buf -> bytes buf' -> accepted e0 buf c -> accepted e0' buf' c' ->
  alloc c = Ok ch -> alloc c' = Ok ch' -> In n (c_natives c) -> In n' (c_natives c') ->
  n_t n = n_t n' -> n_lib n ++ n_name n = n_lib n' ++ n_name n' -> hash_native ch n = hash_native ch' n'.
Proof.
  intros B B' A A' E E' Hn Hn' T N. rewrite (C75_native e0 buf c), (C75_native e0' buf' c') by auto. unfold native_bytes. now rewrite T, !app_assoc, N.
Qed.

(** The signature of a function value of a declared type (not necessarily one of the module: the reader leaves no field
    information). It is returned exactly when the field information is there, and panics otherwise. *)
Theorem C75_function e0 buf c ch f h : bytes buf -> accepted e0 buf c -> alloc c = Ok ch -> In (hf_t f) (declared c) ->
  hash_fun_sign ch f = Ok h <-> exists fld, hf_field f = Some fld /\ signable f /\ h = crc32 (function_bytes f fld).
Proof.
  intros B A E Ht. destruct (accepted_alloc e0 buf c B A) as [CO SO].
  unfold hash_fun_sign. rewrite (type_bytes c CO SO ch) by auto. cbn [rbind].
  assert (K : forall fld, hf_field f = Some fld -> match hf_obj f with
       | Some (ObjType name _ _ _ _ _ _ _ _ _) => fld <~ need PUnwrap (hf_field f) ;; rret (hasher_write (hasher_write (hasher_write hasher_new (enc_le 4 (signature (hf_t f)))) name) (ff_name fld))
       | _ => rret (hasher_write hasher_new (enc_le 4 (signature (hf_t f)))) end =
     Ok (hasher_write hasher_new (enc_le 4 (signature (hf_t f)) ++ (if is_method f then class_name f ++ ff_name fld else [])))).
  { intros fld Ef. unfold is_method, class_name. rewrite Ef. cbn [need rbind rret].
    destruct (hf_obj f) as [[]|]; cbv iota; rewrite ?app_nil_r, ?write_app; reflexivity. }
  split.
  - intros X. destruct (hf_field f) as [fld|] eqn:Ef.
    + cbv zeta in X. rewrite (K fld eq_refl) in X. cbn [need rbind rret] in X. exists fld. split; [reflexivity|].
      unfold function_bytes, signable. destruct (ff_rf fld) as [rf|] eqn:Er.
      * cbv zeta in X. destruct (hf_field rf) as [rfld|] eqn:Erf; [|discriminate]. cbn [need rbind rret] in X. split.
        { exists fld. split; [auto|]. intros rf0 Q. assert (rf = rf0) as <- by congruence. congruence. }
        assert (Y := f_equal (fun r => match r with Ok a => a | _ => 0 end) X). cbv beta iota in Y. rewrite <- Y.
        unfold crc32. f_equal. rewrite app_assoc, !write_app.
        rewrite write_u32_enc. rewrite class_write. reflexivity.
      * split; [exists fld; split; [auto|congruence]|]. rewrite app_nil_r. assert (Y := f_equal (fun r => match r with Ok a => a | _ => 0 end) X). cbv beta iota in Y. now rewrite <- Y.
    + exfalso. revert X. destruct (hf_obj f) as [[]|]; cbn; discriminate.
  - intros (fld & Ef & (fld' & Ef' & S) & ->). assert (fld' = fld) as -> by congruence. cbv zeta. rewrite (K fld Ef). rewrite Ef. cbn [need rbind rret].
    unfold function_bytes. destruct (ff_rf fld) as [rf|] eqn:Er.
    + cbv zeta. specialize (S rf eq_refl). destruct (hf_field rf) as [rfld|] eqn:Erf; [|congruence]. cbn [need rbind rret]. f_equal. unfold crc32. f_equal.
      rewrite app_assoc, !write_app. rewrite write_u32_enc.
      rewrite class_write. reflexivity.
    + rewrite app_nil_r. reflexivity.
Qed.
Theorem C75_function_panics e0 buf c ch f : bytes buf -> accepted e0 buf c -> alloc c = Ok ch -> In (hf_t f) (declared c) ->
  ~ signable f -> hash_fun_sign ch f = Panic PUnwrap.
Proof.
  intros B A E Ht N. destruct (accepted_alloc e0 buf c B A) as [CO SO].
  unfold hash_fun_sign. rewrite (type_bytes c CO SO ch) by auto. cbn [rbind].
  destruct (hf_field f) as [fld|] eqn:Ef.
  - assert (K : exists rf, ff_rf fld = Some rf /\ hf_field rf = None).
    { destruct (ff_rf fld) as [rf|] eqn:Er.
      - exists rf. split; [auto|]. destruct (hf_field rf) eqn:Erf; [|auto]. exfalso. apply N. exists fld. split; [auto|]. intros rf' Q. assert (rf = rf') as <- by congruence. congruence.
      - exfalso. apply N. exists fld. split; [auto|]. intros rf' Q. congruence. }
    destruct K as (rf & Er & Erf). destruct (hf_obj f) as [[]|]; cbn [need rbind rret]; rewrite Er; cbv zeta; rewrite Erf; reflexivity.
  - destruct (hf_obj f) as [[]|]; reflexivity.
Qed.
(** No function the reader produces has a signature. *)
Theorem C75_reader_refuted e0 buf c ch f : bytes buf -> accepted e0 buf c -> alloc c = Ok ch -> In f (c_functions c) ->
  hash_fun_sign ch f = Panic PUnwrap.
Proof.
  intros B A E Hf. destruct (accepted_alloc e0 buf c B A) as [CO SO].
  assert (FO : Forall (function_ok (declared c) (negb (c_hasdebug c =? 0)) (c_ndebugfiles c)) (c_functions c)) by (unfold contents_ok in CO; tauto).
  rewrite Forall_forall in FO. destruct (FO f Hf) as (Ht & _ & _ & _ & _ & _ & _ & _ & Hff & _).
  eapply C75_function_panics; eauto. intros (fld & X & _). congruence.
Qed.

(** The native of [ex_hash] (lib "E", name "C"); a method "f" of class "Ab" that refers to a method "g" of class "Q". *)
Definition ex_native : native := nth 0 (c_natives (loaded ex_hash)) (Build_native [] [] vt_default 0).
Definition ex_class (name : str) : vtu vtype := ObjType name vt_default [] 0 0 0 [] [] [] None.
Definition ex_method (rff : option func_field) : hl_function :=
  mkFun (n_t ex_native) 0 0 0 513 [] [] [] (Some (ex_class [65; 98]))
    (Some (mkFF [102] (Some (mkFun vt_default 0 0 0 0 [] [] [] (Some (ex_class [81])) rff)))).
Example C75_ex :
  accepted None (enc_module ex_hash) (loaded ex_hash) /\ alloc (loaded ex_hash) = Ok (hashed (loaded ex_hash)) /\
  In ex_native (c_natives (loaded ex_hash)) /\ In (n_t ex_native) (declared (loaded ex_hash)) /\
  hash_native (hashed (loaded ex_hash)) ex_native = Ok (crc32 (69 :: 67 :: enc_le 4 (signature (n_t ex_native)))) /\
  hash_fun_sign (hashed (loaded ex_hash)) (ex_method (Some (mkFF [103] None))) =
    Ok (crc32 (enc_le 4 (signature (n_t ex_native)) ++ [65; 98; 102; 81; 103; 1; 2; 0; 0])) /\
  signable (ex_method (Some (mkFF [103] None))) /\
  hash_fun_sign (hashed (loaded ex_hash)) (ex_method None) = Panic PUnwrap.
Proof.
  split; [vm_compute; reflexivity|]. split; [vm_compute; reflexivity|]. split; [vm_compute; auto|]. split; [vm_compute; auto 10|].
  split; [vm_compute; reflexivity|]. split; [vm_compute; reflexivity|]. split; [|vm_compute; reflexivity].
  eexists. split; [reflexivity|]. cbn [ff_rf]. intros rf Q. assert (X := f_equal (fun o => match o with Some r => hf_field r | None => None end) Q).
  cbn in X. congruence.
Qed.
