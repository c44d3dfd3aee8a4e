(** Theorems C58-C59: hashes of functions.  Model: HashModel.v.  Vocabulary: FunHashSpec.v, HashSpec.v. *)
From Verif Require Import Prelude StdModel BrassTypes DecoderModel CodeModel FormatSpec ReaderSpec AcceptSpec HashModel HashSpec FunHashSpec.
From Verif Require Import CodeGenericProofs FormatProofs StringsProofs TypesProofs OpsProofs ReaderSizes ReaderTables AcceptProofs CrcProofs HashProofs HashAlloc HashPanics PropsModule PropsHash.
From Coq Require Import Lia ZifyBool.

(** * Float conversion *)
Lemma f64_ok b : f64_as_i32 b = float_to_i32 b.
Proof.
  unfold f64_as_i32, float_to_i32. cbv zeta. change (2 ^ 11) with 2048. set (e := (b / 2 ^ 52) mod 2048). set (m := b mod 2 ^ 52).
  assert (He : 0 <= e < 2048) by (apply Z.mod_pos_bound; lia).
  assert (Hm : 0 <= m < 2 ^ 52) by (apply Z.mod_pos_bound; lia).
  assert (Mag : forall s E, 0 <= E -> s * 2 ^ E / 2 ^ 1075 = if 0 <=? E - 1075 then s * 2 ^ (E - 1075) else s / 2 ^ (- (E - 1075))).
  { intros s E HE. destruct (Z.leb_spec 0 (E - 1075)).
    - replace (2 ^ E) with (2 ^ (E - 1075) * 2 ^ 1075) by (rewrite <- Z.pow_add_r by lia; f_equal; lia).
      rewrite Z.mul_assoc, Z.div_mul; [reflexivity|]. apply Z.pow_nonzero; lia.
    - replace (2 ^ 1075) with (2 ^ (- (E - 1075)) * 2 ^ E) by (rewrite <- Z.pow_add_r by lia; f_equal; lia).
      apply Z.div_mul_cancel_r; apply Z.pow_nonzero; lia. }
  destruct (Z.eqb_spec e 2047) as [E|E]; cbn [andb].
  - destruct (Z.eqb_spec m 0) as [F|F]; cbn [negb]; [|reflexivity].
    rewrite Mag by lia. rewrite E, F. destruct (Z.leb_spec (2 ^ 63) b) as [B|B], (Z.ltb_spec b (2 ^ 63)) as [B'|B']; try lia; vm_compute; reflexivity.
  - rewrite Mag by lia. replace (Z.max 1 e) with (if e =? 0 then 1 else e) by (destruct (Z.eqb_spec e 0); lia).
    replace (2 ^ 52 + m) with (m + 2 ^ 52) by lia.
    destruct (Z.leb_spec (2 ^ 63) b) as [B|B], (Z.ltb_spec b (2 ^ 63)) as [B'|B']; try lia; f_equal; f_equal; lia.
Qed.

Section Fun.
Context (c : code) (CO : contents_ok c) (SO : sizes_ok c) (ch : code_hash) (AL : alloc c = Ok ch) (H : list Z) (LH : zlen H < 2 ^ 63).
Let ch' := set_functions_hashes H ch.

Lemma ok_dec rs : Forall (operand_ok c H) rs \/ ~ Forall (operand_ok c H) rs.
Proof.
  assert (D : forall rp, operand_ok c H rp \/ ~ operand_ok c H rp) by (intros [r p]; destruct r; cbn; lia).
  induction rs as [|rp rs IH]; [left; constructor|]. destruct (D rp) as [D1|D1], IH as [I1|I1]; rewrite Forall_cons_iff; tauto.
Qed.
(** A hashing step that writes exactly what the operands [rs] stand for, or panics if one of them is out of range. *)
Definition does (m : hasher -> R hasher) (rs : list (role * Z)) : Prop := forall h,
  (Forall (operand_ok c H) rs -> m h = Ok (hasher_write h (flat_map (operand_bytes c H) rs))) /\
  (~ Forall (operand_ok c H) rs -> panics (m h)).
Lemma does_nil : does (fun h => rret h) [].
Proof. intros h. split; [reflexivity|]. intros N. destruct N. constructor. Qed.
Lemma does_seq m1 m2 r1 r2 : does m1 r1 -> does m2 r2 -> does (fun h => h <~ m1 h ;; m2 h) (r1 ++ r2).
Proof.
  intros D1 D2 h. destruct (D1 h) as [A1 B1]. rewrite flat_map_app, write_app. split.
  - intros F. apply Forall_app in F as [F1 F2]. rewrite (A1 F1). cbn [rbind]. now apply D2.
  - intros F. destruct (ok_dec r1) as [F1|F1].
    + rewrite (A1 F1). cbn [rbind]. apply D2. intros F2. apply F, Forall_app. auto.
    + destruct (B1 F1) as [p ->]. now exists p.
Qed.
Lemma does_ext m m' rs : (forall h, m h = m' h) -> does m rs -> does m' rs.
Proof. intros E D h. rewrite <- E. apply D. Qed.
Lemma does_one m r p : (forall h, operand_ok c H (r, p) -> m h = Ok (hasher_write h (operand_bytes c H (r, p)))) ->
  (forall h, ~ operand_ok c H (r, p) -> panics (m h)) -> does m [(r, p)].
Proof.
  intros A B h. cbn [flat_map]. rewrite app_nil_r, Forall_cons_iff. split; [intros [F _]; auto|intros F; apply B; intros O; apply F; auto].
Qed.
Lemma does_plain p : does (write_p (Some p)) [(Plain, p)].
Proof. apply does_one; [|intros h N; destruct N; exact I]. intros h _. reflexivity. Qed.

Lemma alloc_tables : ch_code ch' = c /\ ch_type_hashes ch' = map signature (declared c) ++ zrepeat 0 (c_ntypes c) /\
  zlen (ch_functions_indexes ch') = zlen (findexes c) /\
  (forall k, 0 <= k < zlen (findexes c) -> znth (ch_functions_indexes ch') k = Some (index_of c k)).
Proof.
  destruct (alloc_sound c CO SO ch AL) as (_ & E1 & E2 & _ & _ & E3 & E4 & _). repeat split; auto.
Qed.
Lemma string_count : zlen (c_strings c) < 2 ^ 31.
Proof.
  destruct SO as (F & _ & _ & L & _). rewrite Forall_forall in F. specialize (F (c_nstrings c)). cbn [In] in F. assert (0 <= c_nstrings c < 2 ^ 31) by tauto. lia.
Qed.
(** Entries of the type table, declared or placeholder. *)
Lemma type_entry p : 0 <= p < zlen (c_types c) -> exists t, znth (c_types c) p = Some t /\ forall h,
  write_type (c_types c) (ch_type_hashes ch') t h = Ok (hasher_write h (enc_le 4 (signature (entry vt_default (c_types c) p)))).
Proof.
  intros Hp. destruct (types_table c CO) as [ET LD]. destruct alloc_tables as (_ & EH & _).
  exists (entry vt_default (c_types c) p). split; [now apply znth_entry|]. intros h. unfold write_type.
  enough (W : hash_at (c_types c) (ch_type_hashes ch') (entry vt_default (c_types c) p) = Ok (signature (entry vt_default (c_types c) p))).
  { rewrite W. reflexivity. }
  destruct (In_D_dec (declared c) (entry vt_default (c_types c) p)) as [Hin|Hin].
  - rewrite ET at 1. rewrite EH. now apply hash_at_declared.
  - assert (En : entry vt_default (c_types c) p = vt_default /\ 0 < c_ntypes c).
    { pose proof (znth_entry vt_default (c_types c) p Hp) as Z. rewrite ET in Z at 1.
      assert (L : zlen (c_types c) = 2 * c_ntypes c) by (destruct SO; tauto).
      destruct (Z.lt_ge_cases p (c_ntypes c)) as [Hl|Hl].
      - rewrite znth_app_l in Z by lia. apply znth_In in Z. contradiction.
      - rewrite znth_app_r in Z by lia. apply znth_In in Z. apply repeat_spec in Z. split; [exact Z|lia]. }
    destruct En as [En Hn]. rewrite En in *. unfold hash_at. rewrite ET, position_late by auto. rewrite EH.
    unfold zrepeat. destruct (Z.to_nat (c_ntypes c)) as [|k] eqn:Ek; [lia|]. cbn [repeat position].
    rewrite (proj2 (vt_eqb_eq vt_default vt_default) eq_refl). cbn [option_map need rbind].
    rewrite znth_app_r by (rewrite zlen_map; lia). rewrite zlen_map. replace (zlen (declared c) + 0 - zlen (declared c)) with 0 by lia.
    reflexivity.
Qed.
Lemma does_int p : does (fun h => p <~ need PUnwrap (Some p) ;; i <~ try_usize p ;; x <~ need PUnwrap (znth (c_ints c) i) ;; rret (write_i32 h x)) [(IntIndex, p)].
Proof.
  apply does_one; intros h O; cbn [operand_ok fst snd] in O; cbn [need rbind]; unfold try_usize; destruct (Z.ltb_spec p 0) as [Hl|Hl]; cbn [rbind]; try lia; try (now eexists).
  - rewrite (znth_entry 0) by auto. reflexivity.
  - rewrite znth_none by lia. now eexists.
Qed.
Lemma does_float p : does (fun h => p <~ need PUnwrap (Some p) ;; i <~ try_usize p ;;
  x <~ need PUnwrap (znth (c_floats c) (2 * i)) ;; let h := write_i32 h (f64_as_i32 x) in
  y <~ need PUnwrap (znth (c_floats c) (2 * i + 1)) ;; rret (write_i32 h (f64_as_i32 y))) [(FloatIndex, p)].
Proof.
  apply does_one; intros h O; cbn [operand_ok fst snd] in O; cbn [need rbind]; unfold try_usize; destruct (Z.ltb_spec p 0) as [Hl|Hl]; cbn [rbind]; try lia; try (now eexists).
  - rewrite (znth_entry 0 _ (2 * p)) by lia. cbn [need rbind]. cbv zeta. rewrite (znth_entry 0 _ (2 * p + 1)) by lia. cbn [need rbind]. cbn [operand_bytes fst snd].
    rewrite write_app, !f64_ok. reflexivity.
  - destruct (znth (c_floats c) (2 * p)) as [x|]; cbn [need rbind]; [|now eexists]. cbv zeta. rewrite znth_none by lia. now eexists.
Qed.
Lemma does_string p : does (fun h => p <~ need PUnwrap (Some p) ;; i <~ try_usize p ;; s <~ need PUnwrap (znth (c_strings c) i) ;; rret (hasher_write h s)) [(StringIndex, p)].
Proof.
  apply does_one; intros h O; cbn [operand_ok fst snd] in O; cbn [need rbind]; unfold try_usize; destruct (Z.ltb_spec p 0) as [Hl|Hl]; cbn [rbind]; try lia; try (now eexists).
  - rewrite (znth_entry (A := str) []) by auto. reflexivity.
  - rewrite znth_none by lia. now eexists.
Qed.
Lemma does_name p : i32_range p -> does (fun h => p <~ need PUnwrap (Some p) ;; s <~ need PIndex (znth (c_strings c) (as_usize p)) ;; rret (hasher_write h s)) [(StringIndex, p)].
Proof.
  intros Hr. pose proof string_count as SC. change (2 ^ 31) with 2147483648 in *. unfold i32_range in Hr.
  assert (U : as_usize p = if p <? 0 then p + 2 ^ 64 else p).
  { unfold as_usize. destruct (Z.ltb_spec p 0); [symmetry; apply (Z.mod_unique _ _ (-1)); lia|apply Z.mod_small; lia]. }
  apply does_one; intros h O; cbn [operand_ok fst snd] in O; cbn [need rbind]; rewrite U; destruct (Z.ltb_spec p 0) as [Hl|Hl]; try lia.
  - rewrite (znth_entry (A := str) []) by auto. reflexivity.
  - rewrite znth_none by lia. now eexists.
  - rewrite znth_none by lia. now eexists.
Qed.
Lemma does_type p : does (fun h => p <~ need PUnwrap (Some p) ;; i <~ try_usize p ;;
  t <~ need PIndex (znth (c_types c) i) ;; write_type (c_types c) (ch_type_hashes ch') t h) [(TypeIndex, p)].
Proof.
  apply does_one; intros h O; cbn [operand_ok fst snd] in O; cbn [need rbind]; unfold try_usize; destruct (Z.ltb_spec p 0) as [Hl|Hl]; cbn [rbind]; try lia; try (now eexists).
  - destruct (type_entry p O) as (t & Z & W). rewrite Z. cbn [need rbind]. apply W.
  - rewrite znth_none by lia. now eexists.
Qed.
Lemma index_of_i32 k : - 2 ^ 31 <= index_of c k < 2 ^ 31.
Proof.
  unfold index_of. assert (G : forall us d, Forall (fun u => - 2 ^ 31 <= snd u < 2 ^ 31) us -> - 2 ^ 31 <= d < 2 ^ 31 -> - 2 ^ 31 <= latest us k d < 2 ^ 31).
  { induction us as [|[j v] us IH]; intros d F Hd; cbn [latest]; [auto|]. apply Forall_cons_iff in F as [F1 F2]. apply IH; auto. destruct (j =? k); auto. }
  apply G; [|lia]. apply Forall_forall. intros u Hu. apply in_map_iff in Hu as (x & <- & _). cbn [snd]. unfold i32.
  pose proof (Z.mod_pos_bound (fst x + 2 ^ 31) (2 ^ 32) ltac:(lia)). lia.
Qed.
Lemma does_callee o p : o_p2 o = Some p -> does (write_call ch' o) [(Callee, p)].
Proof.
  intros E. destruct alloc_tables as (_ & _ & LI & GI). pose proof (index_of_i32 p) as IR. change (2 ^ 63) with 9223372036854775808 in LH. 
  apply does_one; intros h O; cbn [operand_ok fst snd] in O; unfold write_call, hfun; rewrite E; cbn [need rbind]; unfold try_usize; destruct (Z.ltb_spec p 0) as [Hl|Hl]; cbn [rbind]; try lia; try (now eexists).
  - destruct O as [O1 O2]. rewrite GI by auto. cbn [need rbind]. unfold as_usize. rewrite Z.mod_small by lia.
    change (ch_functions_hashes ch') with H. rewrite (znth_entry 0) by auto. reflexivity.
  - destruct (Z.lt_ge_cases p (zlen (findexes c))) as [Hf|Hf].
    + rewrite GI by lia. cbn [need rbind]. change (ch_functions_hashes ch') with H. rewrite znth_none; [now eexists|]. unfold as_usize.
      destruct (Z.lt_ge_cases (index_of c p) 0).
      * replace (index_of c p mod 2 ^ 64) with (index_of c p + 2 ^ 64) by (apply (Z.mod_unique _ _ (-1)); lia). lia.
      * rewrite Z.mod_small by lia. lia.
    + rewrite (znth_none (ch_functions_indexes ch')) by lia. now eexists.
Qed.
Lemma does_extras o n : 0 <= n <= zlen (o_extra o) -> does (write_extras o n) (map (pair Wide) (firstn (Z.to_nat n) (o_extra o))).
Proof.
  intros Hn h. split.
  - intros _. unfold write_extras. set (l := firstn (Z.to_nat n) (o_extra o)).
    assert (Ll : n = zlen l) by (unfold l, zlen in *; rewrite firstn_length; lia). rewrite Ll.
    rewrite (rfor_writes l (write_extra o) (enc_le 8)).
    + f_equal. f_equal. clear. induction l as [|x l IH]; cbn [map flat_map]; [reflexivity|]. now rewrite IH.
    + intros i x h0 Hi Z. unfold write_extra. assert (R := znth_some_range _ _ _ Z).
      replace (znth (o_extra o) i) with (Some x); [reflexivity|]. rewrite <- Z. symmetry.
      transitivity (znth (l ++ skipn (Z.to_nat n) (o_extra o)) i); [unfold l; now rewrite firstn_skipn|]. apply znth_app_l. lia.
  - intros N. destruct N. apply Forall_forall. intros rp Hr. apply in_map_iff in Hr as (x & <- & _). exact I.
Qed.

Lemma arity_none op : arity op = Some None -> znth OP_NARGS op = Some (-1) /\ (op = OSwitch \/ In op variadic_calls).
Proof.
  intros A. assert (R : 0 <= op < 99) by (pose proof (znth_some_range _ _ _ A) as R; exact R).
  destruct (znth OP_NARGS op) as [a|] eqn:E.
  - destruct (arity_nargs op a R E) as (A2 & _ & V). rewrite A in A2. destruct (Z.eqb_spec a (-1)) as [->|]; [|discriminate].
    split; [reflexivity|]. apply V. reflexivity.
  - exfalso. destruct (znth_in OP_NARGS op) as [x Ex]; [cbn; lia|]. congruence.
Qed.
Lemma present {A} (o : option A) : o <> None -> exists x, o = Some x. Proof. destruct o; [eauto|congruence]. Qed.
Lemma absent {A} (o : option A) : ~ o <> None -> o = None. Proof. destruct o; [|auto]. intros N. exfalso. apply N. discriminate. Qed.
Ltac rcompute S := match type of S with _ = ?r => let v := eval vm_compute in r in change r with v in S end.
(** One instruction. *)
Lemma does_dynset a b x : i32_range b -> does (fun h => h <~ write_p (Some a) h ;; p <~ need PUnwrap (Some b) ;;
  s <~ need PIndex (znth (c_strings c) (as_usize p)) ;; write_p (Some x) (hasher_write h s)) ([(Plain, a)] ++ [(StringIndex, b)] ++ [(Plain, x)]).
Proof.
  intros Hb. apply (does_ext (fun h => h <~ write_p (Some a) h ;; h <~ (p <~ need PUnwrap (Some b) ;; s <~ need PIndex (znth (c_strings c) (as_usize p)) ;; rret (hasher_write h s)) ;; write_p (Some x) h)).
  - intros h. cbn [write_p need rbind rret]. destruct (znth (c_strings c) (as_usize b)); reflexivity.
  - exact (does_seq _ _ _ _ (does_plain a) (does_seq _ _ _ _ (does_name b Hb) (does_plain x))).
Qed.
Lemma hash_op_ok o h : opcode_ok o ->
  (op_hashable c H o -> hash_op ch' o h = Ok (hasher_write h (op_bytes c H o))) /\ (~ op_hashable c H o -> panics (hash_op ch' o h)).
Proof.
  intros (P32 & X32 & Sh). unfold op_hashable, op_bytes.
  change (o_op o :: flat_map (operand_bytes c H) (operands o)) with ([o_op o] ++ flat_map (operand_bytes c H) (operands o)).
  rewrite write_app. change (hasher_write h [o_op o]) with (write_u8 h (o_op o)). unfold hash_op. cbv zeta. generalize (write_u8 h (o_op o)). clear h.
  destruct alloc_tables as (Ec & _). rewrite Ec.
  unfold operands, extra_count.
  Ltac fixed E Sh n :=
    rewrite E in Sh |- *; match type of E with _ = ?x => change (arity x) with (Some (Some n)) in Sh |- * end; cbv beta iota in Sh |- *;
    let S1 := fresh "S1" in let S2 := fresh "S2" in let S3 := fresh "S3" in let S4 := fresh "S4" in destruct Sh as (S1 & S2 & S3 & S4);
    rcompute S4.
  Ltac has S H a Ea := destruct (present H) as [a Ea]; [apply S; lia|].
  Ltac none S H := rewrite (absent H) by (rewrite S; lia).
  destruct (Z.eqb_spec (o_op o) OInt) as [E|NInt].
  { fixed E Sh 2. has S1 (o_p1 o) a Ea. has S2 (o_p2 o) b Eb. none S3 (o_p3 o). rewrite Ea, Eb.
    exact (does_seq _ _ _ _ (does_plain a) (does_int b)). }
  destruct (Z.eqb_spec (o_op o) OFloat) as [E|NFloat].
  { fixed E Sh 2. has S1 (o_p1 o) a Ea. has S2 (o_p2 o) b Eb. none S3 (o_p3 o). rewrite Ea, Eb.
    exact (does_seq _ _ _ _ (does_plain a) (does_float b)). }
  destruct (Z.eqb_spec (o_op o) OString) as [E|NString].
  { fixed E Sh 2. has S1 (o_p1 o) a Ea. has S2 (o_p2 o) b Eb. none S3 (o_p3 o). rewrite Ea, Eb.
    exact (does_seq _ _ _ _ (does_plain a) (does_string b)). }
  destruct (Z.eqb_spec (o_op o) OType) as [E|NType].
  { fixed E Sh 2. has S1 (o_p1 o) a Ea. has S2 (o_p2 o) b Eb. none S3 (o_p3 o). rewrite Ea, Eb.
    exact (does_seq _ _ _ _ (does_plain a) (does_type b)). }
  destruct (Z.eqb_spec (o_op o) OCall0) as [E|NCall0].
  { fixed E Sh 2. has S1 (o_p1 o) a Ea. has S2 (o_p2 o) b Eb. none S3 (o_p3 o). rewrite Ea, Eb.
    exact (does_seq _ _ _ _ (does_plain a) (does_callee o b Eb)). }
  destruct (Z.eqb_spec (o_op o) OCall1) as [E|NCall1].
  { fixed E Sh 3. has S1 (o_p1 o) a Ea. has S2 (o_p2 o) b Eb. has S3 (o_p3 o) x Ex. rewrite Ea, Eb, Ex.
    exact (does_seq _ _ _ _ (does_plain a) (does_seq _ _ _ _ (does_callee o b Eb) (does_plain x))). }
  destruct (Z.eqb_spec (o_op o) OCall2) as [E|NCall2].
  { fixed E Sh 4. has S1 (o_p1 o) a Ea. has S2 (o_p2 o) b Eb. has S3 (o_p3 o) x Ex. rewrite Ea, Eb, Ex.
    exact (does_seq _ _ _ _ (does_plain a) (does_seq _ _ _ _ (does_callee o b Eb) (does_seq _ _ _ _ (does_plain x) (does_extras o 1 ltac:(lia))))). }
  destruct (Z.eqb_spec (o_op o) OCall3) as [E|NCall3].
  { fixed E Sh 5. has S1 (o_p1 o) a Ea. has S2 (o_p2 o) b Eb. has S3 (o_p3 o) x Ex. rewrite Ea, Eb, Ex.
    exact (does_seq _ _ _ _ (does_plain a) (does_seq _ _ _ _ (does_callee o b Eb) (does_seq _ _ _ _ (does_plain x) (does_extras o 2 ltac:(lia))))). }
  destruct (Z.eqb_spec (o_op o) OCall4) as [E|NCall4].
  { fixed E Sh 6. has S1 (o_p1 o) a Ea. has S2 (o_p2 o) b Eb. has S3 (o_p3 o) x Ex. rewrite Ea, Eb, Ex.
    exact (does_seq _ _ _ _ (does_plain a) (does_seq _ _ _ _ (does_callee o b Eb) (does_seq _ _ _ _ (does_plain x) (does_extras o 3 ltac:(lia))))). }
  destruct (Z.eqb_spec (o_op o) OCallN) as [E|NCallN].
  { rewrite E in Sh |- *. change (arity OCallN) with (Some (@None Z)) in Sh |- *. cbv beta iota in Sh |- *. destruct Sh as (a & b & x & Ea & Eb & Ex & L).
    change (OCallN =? 70) with false in L. cbv iota in L. pose proof (zlen_nonneg (o_extra o)). rewrite Ea, Eb, Ex.
    exact (does_seq _ _ _ _ (does_plain a) (does_seq _ _ _ _ (does_callee o b Eb) (does_seq _ _ _ _ (does_plain x) (does_extras o x ltac:(lia))))). }
  destruct (Z.eqb_spec (o_op o) OStaticClosure) as [E|NStaticClosure].
  { fixed E Sh 2. has S1 (o_p1 o) a Ea. has S2 (o_p2 o) b Eb. none S3 (o_p3 o). rewrite Ea, Eb.
    exact (does_seq _ _ _ _ (does_plain a) (does_callee o b Eb)). }
  destruct (Z.eqb_spec (o_op o) OInstanceClosure) as [E|NInstanceClosure].
  { fixed E Sh 3. has S1 (o_p1 o) a Ea. has S2 (o_p2 o) b Eb. has S3 (o_p3 o) x Ex. rewrite Ea, Eb, Ex.
    exact (does_seq _ _ _ _ (does_plain a) (does_seq _ _ _ _ (does_callee o b Eb) (does_plain x))). }
  destruct (Z.eqb_spec (o_op o) ODynGet) as [E|NDynGet].
  { fixed E Sh 3. has S1 (o_p1 o) a Ea. has S2 (o_p2 o) b Eb. has S3 (o_p3 o) x Ex. 
    assert (Hx : i32_range x) by (apply P32; rewrite Ex; cbn; auto). rewrite Ea, Eb, Ex.
    exact (does_seq _ _ _ _ (does_plain a) (does_seq _ _ _ _ (does_plain b) (does_name x Hx))). }
  destruct (Z.eqb_spec (o_op o) ODynSet) as [E|NDynSet].
  { fixed E Sh 3. has S1 (o_p1 o) a Ea. has S2 (o_p2 o) b Eb. has S3 (o_p3 o) x Ex. 
    assert (Hb : i32_range b) by (apply P32; rewrite Eb; cbn; auto). rewrite Ea, Eb, Ex.
    exact (does_dynset a b x Hb). }
  assert (R2 : second_role (o_op o) = Plain).
  { unfold second_role, callee_ops, one_of. cbn [existsb]. repeat rewrite (proj2 (Z.eqb_neq (o_op o) _)) by assumption. reflexivity. }
  assert (R3 : third_role (o_op o) = Plain) by (unfold third_role; now rewrite (proj2 (Z.eqb_neq (o_op o) _)) by assumption).
  rewrite R2, R3. destruct (arity (o_op o)) as [[n|]|] eqn:Ar; [| |destruct Sh].
  - destruct (arity_table _ _ Ar) as (_ & T & Rn). rewrite T. cbn [need rbind].
    assert (NS : o_op o <> OSwitch) by (intros E; rewrite E in Ar; discriminate). rewrite (proj2 (Z.eqb_neq _ _) NS).
    destruct Sh as (S1 & S2 & S3 & S4).
    assert (Cn : n = 0 \/ n = 1 \/ n = 2 \/ n = 3 \/ n = 4 \/ n = 5 \/ n = 6) by lia.
    destruct Cn as [->|[->|[->|[->|[->|[->| ->]]]]]]; rcompute S4; cbn [Z.eqb Pos.eqb];
      match goal with |- context [Z.max 0 ?k] => let v := eval vm_compute in (Z.max 0 k) in change (Z.max 0 k) with v end.
    + none S1 (o_p1 o). none S2 (o_p2 o). none S3 (o_p3 o). exact does_nil.
    + has S1 (o_p1 o) a Ea. none S2 (o_p2 o). none S3 (o_p3 o). rewrite Ea. exact (does_plain a).
    + has S1 (o_p1 o) a Ea. has S2 (o_p2 o) b Eb. none S3 (o_p3 o). rewrite Ea, Eb. exact (does_seq _ _ _ _ (does_plain a) (does_plain b)).
    + has S1 (o_p1 o) a Ea. has S2 (o_p2 o) b Eb. has S3 (o_p3 o) x Ex. rewrite Ea, Eb, Ex.
      exact (does_seq _ _ _ _ (does_plain a) (does_seq _ _ _ _ (does_plain b) (does_plain x))).
    + has S1 (o_p1 o) a Ea. has S2 (o_p2 o) b Eb. has S3 (o_p3 o) x Ex. rewrite Ea, Eb, Ex.
      exact (does_seq _ _ _ _ (does_plain a) (does_seq _ _ _ _ (does_plain b) (does_seq _ _ _ _ (does_plain x) (does_extras o 1 ltac:(lia))))).
    + has S1 (o_p1 o) a Ea. has S2 (o_p2 o) b Eb. has S3 (o_p3 o) x Ex. rewrite Ea, Eb, Ex.
      exact (does_seq _ _ _ _ (does_plain a) (does_seq _ _ _ _ (does_plain b) (does_seq _ _ _ _ (does_plain x) (does_extras o 2 ltac:(lia))))).
    + has S1 (o_p1 o) a Ea. has S2 (o_p2 o) b Eb. has S3 (o_p3 o) x Ex. rewrite Ea, Eb, Ex.
      exact (does_seq _ _ _ _ (does_plain a) (does_seq _ _ _ _ (does_plain b) (does_seq _ _ _ _ (does_plain x) (does_extras o 3 ltac:(lia))))).
  - destruct (arity_none _ Ar) as (T & V). rewrite T. cbn [need rbind Z.eqb Pos.eqb]. destruct Sh as (a & b & x & Ea & Eb & Ex & L).
    pose proof (zlen_nonneg (o_extra o)). destruct V as [V|V].
    + rewrite V in L |- *. change (OSwitch =? 70) with true in L. cbv iota in L. rewrite Ea, Eb, Ex. cbn [OSwitch Z.eqb Pos.eqb OCallClosure OCallMethod OCallThis OMakeEnum orb need rbind].
      exact (does_seq _ _ _ _ (does_plain a) (does_seq _ _ _ _ (does_plain b) (does_seq _ _ _ _ (does_extras o b ltac:(lia)) (does_plain x)))).
    + assert (NS : o_op o <> 70) by (intros E; rewrite E in V; unfold variadic_calls in V; cbn [In] in V; lia).
      change OSwitch with 70. rewrite (proj2 (Z.eqb_neq _ _) NS) in L |- *.
      replace (false || (o_op o =? OCallClosure) || (o_op o =? OCallMethod) || (o_op o =? OCallThis) || (o_op o =? OMakeEnum)) with true
        by (clear - V NCallN; unfold variadic_calls in V; cbn [In] in V; unfold OCallN in NCallN;
            decompose [or] V; try contradiction;
            match goal with E : _ = o_op o |- _ => rewrite <- E; first [reflexivity|exfalso; lia] end).
      rewrite Ea, Eb, Ex.
      exact (does_seq _ _ _ _ (does_plain a) (does_seq _ _ _ _ (does_plain b) (does_seq _ _ _ _ (does_plain x) (does_extras o x ltac:(lia))))).
Qed.
Lemma hash_regs f h : Forall (fun t => In t (declared c)) (hf_regs f) ->
  rfor (zlen (hf_regs f)) (fun i h => t <~ need PIndex (znth (hf_regs f) i) ;; write_type (c_types (ch_code ch')) (ch_type_hashes ch') t h) h =
  Ok (hasher_write h (flat_map (fun t => enc_le 4 (signature t)) (hf_regs f))).
Proof.
  intros F. destruct alloc_tables as (Ec & EH & _). destruct (types_table c CO) as [ET _]. apply rfor_writes. intros i t h0 _ Z. rewrite Z. cbn [need rbind].
  rewrite Forall_forall in F. assert (Ht : In t (declared c)) by (apply F; now apply znth_In in Z).
  unfold write_type. rewrite Ec, ET, EH, hash_at_declared by auto. reflexivity.
Qed.
Lemma op_dec o : op_hashable c H o \/ ~ op_hashable c H o. Proof. apply ok_dec. Qed.
Lemma forall_or {A} (P : A -> Prop) : (forall x, P x \/ ~ P x) -> forall l, Forall P l \/ ~ Forall P l.
Proof. intros D. induction l as [|x l IH]; [left; constructor|]. destruct (D x), IH; rewrite Forall_cons_iff; tauto. Qed.
Lemma hash_fun_spec f : In f (c_functions c) ->
  (fun_hashable c H f -> hash_fun ch' f = Ok (crc32 (fun_bytes c H f))) /\ (~ fun_hashable c H f -> panics (hash_fun ch' f)).
Proof.
  intros Hf. assert (FO : Forall (function_ok (declared c) (negb (c_hasdebug c =? 0)) (c_ndebugfiles c)) (c_functions c)) by (unfold contents_ok in CO; tauto).
  rewrite Forall_forall in FO. destruct (FO f Hf) as (_ & _ & Lr & Fr & Lo & Fo & _). rewrite Forall_forall in Fo.
  unfold hash_fun. rewrite <- Lr, hash_regs by auto. cbn [rbind]. rewrite <- Lo. set (h0 := hasher_write _ _). split.
  - intros F. unfold fun_hashable in F. rewrite Forall_forall in F. rewrite (rfor_writes (hf_ops f) _ (op_bytes c H)).
    + cbn [rbind rret]. unfold h0. rewrite <- write_app. reflexivity.
    + intros i o h _ Z. rewrite Z. cbn [need rbind]. apply znth_In in Z. now apply hash_op_ok; auto.
  - intros N. apply rbind_panics. apply (rfor_fail (op_hashable c H) (hf_ops f) _ (fun h o => hasher_write h (op_bytes c H o))); auto.
    + apply op_dec.
    + intros i o h _ Z G. rewrite Z. cbn [need rbind]. apply znth_In in Z. now apply hash_op_ok; auto.
    + intros i o h _ Z G. rewrite Z. cbn [need rbind]. apply znth_In in Z. now apply hash_op_ok; auto.
Qed.
End Fun.

(** * C58 *)
(** For every accepted module that survived [alloc], whatever function hashes are known so far ([H]: the field is
    public), hashing one of its functions gives the CRC-32 of its register types and instructions, constants
    taken for what they denote; if an operand is out of range, it panics. *)
Theorem C58_exact e0 buf c ch H f h : bytes buf -> accepted e0 buf c -> alloc c = Ok ch -> zlen H < 2 ^ 63 -> In f (c_functions c) ->
  hash_fun (set_functions_hashes H ch) f = Ok h <-> fun_hashable c H f /\ h = crc32 (fun_bytes c H f).
Proof.
  intros B A E L Hf. destruct (accepted_alloc e0 buf c B A) as [CO SO]. destruct (hash_fun_spec c CO SO ch E H L f Hf) as [P N]. split.
  - intros X. assert (F : fun_hashable c H f).
    { destruct (forall_or (op_hashable c H) (op_dec c H) (hf_ops f)) as [F|F]; [exact F|]. destruct (N F) as [q Q]. congruence. }
    split; [exact F|]. rewrite (P F) in X. congruence.
  - intros [F ->]. auto.
Qed.
Theorem C58_panics e0 buf c ch H f : bytes buf -> accepted e0 buf c -> alloc c = Ok ch -> zlen H < 2 ^ 63 -> In f (c_functions c) ->
  ~ fun_hashable c H f -> exists p, hash_fun (set_functions_hashes H ch) f = Panic p /\ lookup_panic p.
Proof.
  intros B A E L Hf N. destruct (accepted_alloc e0 buf c B A) as [CO SO].
  destruct (hash_fun_spec c CO SO ch E H L f Hf) as [_ X]. destruct (X N) as [p Ep]. eauto using panic_kind, pk_hash_fun.
Qed.

(** The pools may be reordered: two functions of two modules with the same register types and the same instructions, up to
    operands that denote the same things, have the same hash. *)
Definition same_meaning (c : code) (H : list Z) (c' : code) (H' : list Z) (x y : role * Z) : Prop :=
  fst x = fst y /\
  let p := snd x in let q := snd y in
  match fst x with
  | Plain | Wide => p = q
  | IntIndex => entry 0 (c_ints c) p = entry 0 (c_ints c') q
  | StringIndex => entry [] (c_strings c) p = entry [] (c_strings c') q
  | TypeIndex => entry vt_default (c_types c) p = entry vt_default (c_types c') q
  | FloatIndex => entry 0 (c_floats c) (2 * p) = entry 0 (c_floats c') (2 * q) /\ entry 0 (c_floats c) (2 * p + 1) = entry 0 (c_floats c') (2 * q + 1)
  | Callee => entry 0 H (index_of c p) = entry 0 H' (index_of c' q)
  end.
Definition same_instruction c H c' H' (o o' : opcode) : Prop :=
  o_op o = o_op o' /\ Forall2 (same_meaning c H c' H') (operands o) (operands o').
Lemma same_operands c H c' H' xs ys : Forall2 (same_meaning c H c' H') xs ys ->
  flat_map (operand_bytes c H) xs = flat_map (operand_bytes c' H') ys.
Proof.
  intros S. induction S as [|x y xs ys [Er M] _ IH]; [reflexivity|]. cbn [flat_map]. rewrite IH. f_equal.
  destruct x as [r p], y as [r' q]. cbn [fst snd] in *. subst r'. unfold operand_bytes. cbn [fst snd].
  destruct r; try (rewrite M; reflexivity); destruct M as [M1 M2]. now rewrite M1, M2.
Qed.
Lemma same_instructions c H c' H' os os' : Forall2 (same_instruction c H c' H') os os' ->
  flat_map (op_bytes c H) os = flat_map (op_bytes c' H') os'.
Proof.
  intros O. induction O as [|o o' os os' [Eo S] _ IH]; [reflexivity|]. cbn [flat_map]. rewrite IH. f_equal.
  unfold op_bytes. rewrite Eo. f_equal. now apply same_operands.
Qed.
Theorem C58_order e0 e0' buf buf' c c' ch ch' H H' f f' : bytes buf -> bytes buf' -> accepted e0 buf c -> accepted e0' buf' c' ->
  alloc c = Ok ch -> alloc c' = Ok ch' -> zlen H < 2 ^ 63 -> zlen H' < 2 ^ 63 -> In f (c_functions c) -> In f' (c_functions c') ->
  hf_regs f = hf_regs f' -> Forall2 (same_instruction c H c' H') (hf_ops f) (hf_ops f') ->
  fun_hashable c H f -> fun_hashable c' H' f' ->
  hash_fun (set_functions_hashes H ch) f = hash_fun (set_functions_hashes H' ch') f'.
Proof.
  intros B B' A A' E E' L L' Hf Hf' R O F F'.
  rewrite (proj2 (C58_exact e0 buf c ch H f _ B A E L Hf) (conj F eq_refl)), (proj2 (C58_exact e0' buf' c' ch' H' f' _ B' A' E' L' Hf') (conj F' eq_refl)).
  f_equal. f_equal. unfold fun_bytes. rewrite R. f_equal. now apply same_instructions.
Qed.

(** A change in one operand (register, jump offset, integer constant, type, callee hash, ...) is always noticed. *)
Lemma operand_bytes_bytes e0 buf c H rp : bytes buf -> accepted e0 buf c -> bytes (operand_bytes c H rp).
Proof.
  intros B A. destruct (accepted_alloc e0 buf c B A) as [CO _]. assert (Fs : Forall utf8 (c_strings c)) by (unfold contents_ok in CO; tauto).
  destruct rp as [r p]. unfold operand_bytes. cbn [fst snd]. destruct r; try apply enc_le_bytes.
  - unfold entry. generalize (Z.to_nat p). clear - Fs. induction Fs as [|s ss Hs _ IH]; intros [|m]; cbn [nth]; try apply Forall_nil; [now apply Utf8Proofs.utf8_bytes|apply IH].
  - apply Forall_app. split; apply enc_le_bytes.
Qed.
Lemma op_bytes_bytes e0 buf c H o : bytes buf -> accepted e0 buf c -> opcode_ok o -> bytes (op_bytes c H o).
Proof.
  intros B A (_ & _ & S). unfold op_bytes. constructor.
  - destruct (arity (o_op o)) as [a|] eqn:Ar; [|destruct S]. pose proof (znth_some_range _ _ _ Ar) as R. change (zlen _) with 99 in R. unfold is_byte. lia.
  - apply bytes_flat_map. intros. eapply operand_bytes_bytes; eauto.
Qed.
(** The 32-bit word an operand contributes. *)
Definition word (c : code) (H : list Z) (rp : role * Z) : option Z :=
  match fst rp with
  | Plain => Some (snd rp mod 2 ^ 32)
  | IntIndex => Some (entry 0 (c_ints c) (snd rp) mod 2 ^ 32)
  | TypeIndex => Some (signature (entry vt_default (c_types c) (snd rp)) mod 2 ^ 32)
  | Callee => Some (entry 0 H (index_of c (snd rp)) mod 2 ^ 32)
  | _ => None
  end.
Lemma word_bytes c H rp w : word c H rp = Some w -> 0 <= w < 2 ^ 32 /\ operand_bytes c H rp = enc_le 4 w.
Proof.
  destruct rp as [[] p]; cbn [word fst snd]; intros E; try discriminate;
    match type of E with Some (?v mod _) = _ => assert (w = v mod 2 ^ 32) as -> by congruence end;
    (split; [apply Z.mod_pos_bound; lia|]); unfold operand_bytes, enc_le; cbn [fst snd]; f_equal; symmetry; apply Z.mod_mod; lia.
Qed.
(** Two versions of a function, in two versions of a module, alike but for one operand of one instruction. *)
Theorem C58_sensitive e0 e0' buf buf' c c' ch ch' H H' f f' pre pre' post post' o o' a a' b b' x y v w :
  bytes buf -> bytes buf' -> accepted e0 buf c -> accepted e0' buf' c' -> alloc c = Ok ch -> alloc c' = Ok ch' ->
  zlen H < 2 ^ 63 -> zlen H' < 2 ^ 63 -> In f (c_functions c) -> In f' (c_functions c') -> hf_regs f = hf_regs f' ->
  hf_ops f = pre ++ o :: post -> hf_ops f' = pre' ++ o' :: post' ->
  Forall2 (same_instruction c H c' H') pre pre' -> Forall2 (same_instruction c H c' H') post post' -> o_op o = o_op o' ->
  operands o = a ++ x :: b -> operands o' = a' ++ y :: b' ->
  Forall2 (same_meaning c H c' H') a a' -> Forall2 (same_meaning c H c' H') b b' ->
  word c H x = Some v -> word c' H' y = Some w -> v <> w ->
  fun_hashable c H f -> hash_fun (set_functions_hashes H ch) f <> hash_fun (set_functions_hashes H' ch') f'.
Proof.
  intros B B' A A' E E' L L' Hf Hf' R O O' Spre Spost Eo Ea Eb Sa Sb V W N F X.
  rewrite (proj2 (C58_exact e0 buf c ch H f _ B A E L Hf) (conj F eq_refl)) in X. symmetry in X.
  apply (C58_exact e0' buf' c' ch' H' f' _ B' A' E' L' Hf') in X as [_ X]. revert X. unfold fun_bytes. rewrite <- R, O, O', !flat_map_app. cbn [flat_map].
  unfold op_bytes at 2 5. rewrite <- Eo, Ea, Eb, !flat_map_app. cbn [flat_map].
  rewrite <- (same_instructions _ _ _ _ _ _ Spre), <- (same_instructions _ _ _ _ _ _ Spost), <- (same_operands _ _ _ _ _ _ Sa), <- (same_operands _ _ _ _ _ _ Sb).
  destruct (word_bytes _ _ _ _ V) as [RV BV], (word_bytes _ _ _ _ W) as [RW BW]. rewrite BV, BW.
  destruct (accepted_alloc e0 buf c B A) as [CO _].
  assert (FO : Forall (function_ok (declared c) (negb (c_hasdebug c =? 0)) (c_ndebugfiles c)) (c_functions c)) by (unfold contents_ok in CO; tauto).
  rewrite Forall_forall in FO. destruct (FO f Hf) as (_ & _ & _ & _ & _ & Fo & _). rewrite O in Fo. apply Forall_app in Fo as [F1 F2]. apply Forall_cons_iff in F2 as [F3 F2].
  assert (B1 : forall l, Forall opcode_ok l -> bytes (flat_map (op_bytes c H) l)).
  { intros l Fl. apply bytes_flat_map. intros i Hi. rewrite Forall_forall in Fl. exact (op_bytes_bytes e0 buf c H i B A (Fl i Hi)). }
  assert (B2 : forall l, bytes (flat_map (operand_bytes c H) l)) by (intros l; apply bytes_flat_map; intros i _; exact (operand_bytes_bytes e0 buf c H i B A)).
  assert (B3 : is_byte (o_op o)) by (pose proof (op_bytes_bytes e0 buf c H o B A F3) as Y; unfold op_bytes in Y; now apply Forall_cons_iff in Y).
  pose proof (word_change (flat_map (fun t => enc_le 4 (signature t)) (hf_regs f) ++ flat_map (op_bytes c H) pre ++ o_op o :: flat_map (operand_bytes c H) a) v w (flat_map (operand_bytes c H) b ++ flat_map (op_bytes c H) post)) as WC.
  assert (G1 : bytes (flat_map (fun t => enc_le 4 (signature t)) (hf_regs f) ++ flat_map (op_bytes c H) pre ++ o_op o :: flat_map (operand_bytes c H) a)).
  { apply Forall_app. split; [apply bytes_flat_map; intros; apply enc_le_bytes|]. apply Forall_app. split; [now apply B1|]. constructor; auto. apply B2. }
  assert (G2 : bytes (flat_map (operand_bytes c H) b ++ flat_map (op_bytes c H) post)) by (apply Forall_app; split; [apply B2|now apply B1]).
  specialize (WC G1 G2 RV RW N). intros X. apply WC. revert X. rewrite <- !app_assoc. cbn [app]. rewrite <- !app_assoc. auto.
Qed.
(** Float constants are looked up at twice their index: an in-range float index makes hashing panic unless the
    pool has the two floats from there on, and constant [p >= 1] itself is never looked at. *)
Theorem C58_float_refuted e0 buf c ch H f o r p : bytes buf -> accepted e0 buf c -> alloc c = Ok ch -> zlen H < 2 ^ 63 -> In f (c_functions c) ->
  In o (hf_ops f) -> o_op o = OFloat -> o_p1 o = Some r -> o_p2 o = Some p -> zlen (c_floats c) <= 2 * p + 1 ->
  exists x, hash_fun (set_functions_hashes H ch) f = Panic x /\ lookup_panic x.
Proof.
  intros B A E L Hf Ho Eo E1 E2 Hp. eapply C58_panics; eauto. intros F. unfold fun_hashable in F. rewrite Forall_forall in F. specialize (F o Ho).
  unfold op_hashable, operands, second_role in F. rewrite Eo, E1, E2 in F. rewrite Forall_forall in F. specialize (F (FloatIndex, p)).
  destruct F as [_ F]; [right; left; reflexivity|]. cbn [snd] in F. lia.
Qed.

(** * C59 *)
(** Straight after [alloc] no function hash is known, so hashing a function that calls, or closes over, a function or native panics. *)
Theorem C59_alloc_refuted e0 buf c ch f o : bytes buf -> accepted e0 buf c -> alloc c = Ok ch -> In f (c_functions c) ->
  In o (hf_ops f) -> In (o_op o) callee_ops -> exists p, hash_fun ch f = Panic p /\ lookup_panic p.
Proof.
  intros B A E Hf Ho Hc. destruct (accepted_alloc e0 buf c B A) as [CO SO].
  assert (X : ch = set_functions_hashes [] ch).
  { destruct (alloc_sound c CO SO ch E) as (_ & _ & _ & _ & Eh & _). destruct ch. cbn in *. now rewrite Eh. }
  rewrite X. eapply C58_panics; eauto; [cbn; lia|]. intros F. unfold fun_hashable in F. rewrite Forall_forall in F. specialize (F o Ho).
  assert (FO : Forall (function_ok (declared c) (negb (c_hasdebug c =? 0)) (c_ndebugfiles c)) (c_functions c)) by (unfold contents_ok in CO; tauto).
  rewrite Forall_forall in FO. destruct (FO f Hf) as (_ & _ & _ & _ & _ & Fo & _). rewrite Forall_forall in Fo. destruct (Fo o Ho) as (_ & _ & S).
  assert (Hp : exists p, o_p2 o = Some p).
  { destruct (arity (o_op o)) as [[n|]|] eqn:Ar; [| |destruct S].
    - apply present. apply S. clear - Ar Hc. unfold callee_ops in Hc. cbn [In] in Hc. decompose [or] Hc; try contradiction;
        match goal with E : _ = o_op o |- _ => rewrite <- E in Ar; vm_compute in Ar; assert (HH : n = n) by reflexivity; (congruence || (injection Ar as <-; lia)) end.
    - destruct S as (a & b & d & _ & S & _). eauto. }
  destruct Hp as [p Hp]. assert (R2 : second_role (o_op o) = Callee).
  { clear - Hc. unfold callee_ops in Hc. cbn [In] in Hc. decompose [or] Hc; try contradiction; match goal with E : _ = o_op o |- _ => rewrite <- E; reflexivity end. }
  unfold op_hashable, operands in F. rewrite R2, Hp in F. rewrite Forall_forall in F. specialize (F (Callee, p)).
  destruct F as [_ F]; [apply in_or_app; right; apply in_or_app; left; left; reflexivity|]. cbn [snd] in F. cbn in F. lia.
Qed.
(** With one hash slot per function, as during [finalize], a call of a native still panics. *)
Theorem C59_native_refuted e0 buf c ch H f o x p : bytes buf -> accepted e0 buf c -> alloc c = Ok ch -> zlen H = c_nfunctions c -> In f (c_functions c) ->
  NoDup (findexes c) -> zlen (c_functions c) + zlen (c_natives c) <= 2 ^ 31 ->
  In o (hf_ops f) -> In (Callee, p) (operands o) -> In x (c_natives c) -> n_findex x = p ->
  exists q, hash_fun (set_functions_hashes H ch) f = Panic q /\ lookup_panic q.
Proof.
  intros B A E L Hf D S Ho Hc Hx Ep. destruct (accepted_alloc e0 buf c B A) as [CO SO].
  assert (Nf : zlen (c_functions c) = c_nfunctions c /\ zlen (c_natives c) = c_nnatives c /\ 0 <= c_nfunctions c < 2 ^ 31 /\ 0 <= c_nnatives c < 2 ^ 31).
  { destruct SO as (F & SO). rewrite Forall_forall in F. pose proof (F (c_nfunctions c)) as F1. pose proof (F (c_nnatives c)) as F2. cbn [In] in F1, F2. intuition. }
  eapply C58_panics; eauto; [lia|]. intros F. unfold fun_hashable in F. rewrite Forall_forall in F. specialize (F o Ho).
  unfold op_hashable in F. rewrite Forall_forall in F. destruct (F _ Hc) as [F1 F2]. cbn [snd] in F1, F2.
  destruct (In_nth_error _ _ Hx) as [j Hj].
  assert (Z : znth (findexes c) (zlen (c_functions c) + Z.of_nat j) = Some p).
  { unfold findexes. rewrite znth_app_r by (rewrite zlen_map; lia). rewrite zlen_map. replace (zlen (c_functions c) + Z.of_nat j - zlen (c_functions c)) with (Z.of_nat j) by lia.
    rewrite znth_nth_error by lia. rewrite Nat2Z.id, nth_error_map, Hj. cbn. now rewrite Ep. }
  rewrite (index_of_nth c (zlen (c_functions c) + Z.of_nat j) p D) in F2; [lia| |exact Z].
  unfold findexes. rewrite zlen_app, !zlen_map. exact S.
Qed.

(** Modules with a given integer pool and given first instructions in their second function. *)
Definition ex_fun (ints : list Z) (ops : list aop) : amod := {|
  am_version := 5; am_debug := false; am_ints := ints; am_floats := [4614253070214989087; 4607182418800017408];
  am_strings := [[69]; [67]; [120]]; am_bytes := []; am_bytes_pos := []; am_debugfiles := [];
  am_types := [APrim HVOID; APrim HI32; AFun false [] 0; AAbstract 2];
  am_globals := [3]; am_natives := [(0, 1, 2, 1)];
  am_functions := [{| af_type := 2; af_findex := 2; af_regs := [1]; af_ops := [IFixed 67 [0]]; af_debug := []; af_assigns := [] |};
                   {| af_type := 2; af_findex := 0; af_regs := [1; 3]; af_ops := ops ++ [IFixed 67 [0]]; af_debug := []; af_assigns := [] |}];
  am_constants := []; am_entrypoint := 0 |}.
Definition ex_second (m : amod) : hl_function := nth 1 (c_functions (loaded m)) (mkFun vt_default 0 0 0 0 [] [] [] None None).
Definition ex_ops (k callee fl : Z) : list aop := [IFixed 1 [0; k]; IFixed 24 [0; callee]; IFixed 2 [0; fl]; IFixed 42 [0; 1; 2]; ISwitch 0 [1; 300] 2].
Definition ex_a := ex_fun [42; -7] (ex_ops 1 2 0).
Definition ex_b := ex_fun [-7; 9; 42] (ex_ops 0 2 0).
Definition ex_c := ex_fun [-7; 9; 42] (ex_ops 2 2 0).
Definition ex_run (H : list Z) (m : amod) : R Z := hash_fun (set_functions_hashes H (hashed (loaded m))) (ex_second m).
(** The same constant from another pool gives the same hash, another constant another hash; with one function hash
    known; a float constant 1 of 2, a call of a native, and any call straight after [alloc] panic. *)
Example C58_C59_ex : map (ex_run [77; 0]) [ex_a; ex_b; ex_c; ex_fun [42; -7] (ex_ops 1 2 1); ex_fun [42; -7] (ex_ops 1 1 0)] =
    [Ok 1868231773; Ok 1868231773; Ok 2408351144; Panic PUnwrap; Panic PIndex] /\
  map (ex_run []) [ex_a; ex_b] = [Panic PIndex; Panic PIndex].
Proof. split; vm_compute; reflexivity. Qed.
Example C58_C59_met : Forall (fun m => bytes (enc_module m) /\ accepted None (enc_module m) (loaded m) /\ alloc (loaded m) = Ok (hashed (loaded m)) /\
    In (ex_second m) (c_functions (loaded m)) /\ NoDup (findexes (loaded m)))
  [ex_a; ex_b; ex_c; ex_fun [42; -7] (ex_ops 1 2 1); ex_fun [42; -7] (ex_ops 1 1 0)].
Proof.
  repeat (constructor; [split; [apply byte_forallb; vm_compute; reflexivity|]; split; [vm_compute; reflexivity|]; split; [vm_compute; reflexivity|]; split; [apply nth_In; apply Nat.ltb_lt; vm_compute; reflexivity|];
    replace (findexes _) with [2; 0; 1] by (vm_compute; reflexivity); repeat constructor; cbn; lia|]). constructor.
Qed.
