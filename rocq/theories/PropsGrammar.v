(** C66-C71: the exact language of the reader (GrammarSpec.v). *)
From Verif Require Import Prelude StdModel BrassTypes DecoderModel CodeModel FormatSpec ReaderSpec ErrSpec GrammarSpec.
From Verif Require Import CodeGenericProofs FormatProofs ReaderPost ReaderTables AcceptProofs ErrProofs GrammarDen GrammarFuns GrammarPhases GrammarNames GrammarModule GrammarCode PropsModule.
From Coq Require Import Lia ZifyBool.
Ltac Zify.zify_post_hook ::= Z.div_mod_to_equations.

(** * C66 *)
(** Some beginning of the file spells a tree whose references are in range, and [c] is its meaning. *)
Definition denotes (file : list Z) (c : code) : Prop :=
  exists used rest m ss fs, file = used ++ rest /\ spell_module used m /\ legal_module m ss fs /\ c = mean_module m ss fs.
Theorem C66_exact file c : bytes file -> zlen file < 2 ^ 63 -> (accepted None file c <-> denotes file c).
Proof.
  intros B L. rewrite accepted_run. split.
  - intros (s' & R). pose proof (code_read_clean _ _ _ R) as N. destruct (code_read_to _ _ _ B L R N) as (bs & E & W).
    apply whole_module in W as (m & ss & fs & H1 & H2 & H3). exists bs, (d_buf s'), m, ss, fs. auto.
  - intros (used & rest & m & ss & fs & -> & H1 & H2 & ->). eexists. apply code_read_from; auto. apply whole_module. eauto 6.
Qed.
(** The result in full: the module, the error cell still empty, the position just after the tree. *)
Theorem C66_position used rest m ss fs : bytes (used ++ rest) -> zlen (used ++ rest) < 2 ^ 63 -> spell_module used m -> legal_module m ss fs ->
  exists s', code_read (start None (used ++ rest)) = (Ok (mean_module m ss fs), s') /\ errs s' = None /\ d_pos s' = zlen used /\ d_buf s' = rest /\ d_code s' = mean_module m ss fs.
Proof.
  intros B L H1 H2. eexists. split; [apply code_read_from; auto; apply whole_module; eauto 6|]. cbn. auto.
Qed.

(** * C67 *)
(** No file starts with two different spellings, and no file denotes two modules: whatever tree is used
    to explain a file, the bytes explained and the meaning are the same. *)
Theorem C67_unambiguous used used' rest rest' m m' ss ss' fs fs' : bytes (used ++ rest) -> zlen (used ++ rest) < 2 ^ 63 -> used ++ rest = used' ++ rest' ->
  spell_module used m -> legal_module m ss fs -> spell_module used' m' -> legal_module m' ss' fs' ->
  used = used' /\ rest = rest' /\ mean_module m ss fs = mean_module m' ss' fs'.
Proof.
  intros B L E S1 G1 S2 G2. destruct (C66_position _ _ _ _ _ B L S1 G1) as (s & R & _ & P & D & _).
  rewrite E in B, L, R. destruct (C66_position _ _ _ _ _ B L S2 G2) as (s' & R' & _ & P' & D' & _). rewrite R in R'. inversion R'; subst s'. subst rest rest'.
  assert (used = used') by (apply app_inv_tail in E; auto). auto.
Qed.
(** Spellings of one tree are interchangeable. *)
Theorem C67_spelling used used' rest rest' m ss fs : bytes (used ++ rest) -> bytes (used' ++ rest') -> zlen (used ++ rest) < 2 ^ 63 -> zlen (used' ++ rest') < 2 ^ 63 ->
  spell_module used m -> spell_module used' m -> legal_module m ss fs ->
  accepted None (used ++ rest) (mean_module m ss fs) /\ accepted None (used' ++ rest') (mean_module m ss fs).
Proof. intros. split; apply C66_exact; auto; do 5 eexists; split; eauto. Qed.

(** * C68 *)
(** The numbers an index can denote. *)
Theorem C68_indices v : (exists bs, bytes bs /\ ix bs v) <-> - 8191 <= v <= 8191 \/ (i32_range v /\ 192 <= v mod 256).
Proof.
  unfold ix, i32_range. change (2 ^ 31) with 2147483648. split.
  - intros (bs & B & V). assert (Si : forall a b : Z, Some a = Some b -> a = b) by congruence. unfold index_value in V; cbv zeta in V. destruct bs as [|b [|x [|y [|z [|]]]]]; try discriminate;
      repeat match goal with H : context [if ?c then _ else _] |- _ => destruct c eqn:? end; try discriminate; apply Si in V; subst v;
      unfold bytes in B; rewrite ?Forall_cons_iff in B; unfold is_byte in B; decompose [and] B; clear B; try (left; lia); right; split; lia.
  - intros [R|(R & Q)].
    + destruct (Z.leb_spec 0 v).
      * exists [128 + v / 256; v mod 256]. split; [unfold bytes, is_byte; repeat constructor; lia|]. unfold index_value. replace ((128 <=? 128 + v / 256) && (128 + v / 256 <? 192)) with true by lia. replace (128 + v / 256 <? 160) with true by lia. f_equal. lia.
      * exists [160 + (- v) / 256; (- v) mod 256]. split; [unfold bytes, is_byte; repeat constructor; lia|]. unfold index_value. replace ((128 <=? 160 + - v / 256) && (160 + - v / 256 <? 192)) with true by lia. replace (160 + - v / 256 <? 160) with false by lia. f_equal. lia.
    + set (w := if 0 <=? v then v else v + 4294967296). assert (W : 0 <= w < 4294967296 /\ w mod 256 = v mod 256 /\ v = if w <? 2147483648 then w else w - 4294967296).
      { unfold w. destruct (Z.leb_spec 0 v); [destruct (Z.ltb_spec v 2147483648); [|lia]|destruct (Z.ltb_spec (v + 4294967296) 2147483648); [lia|]]; repeat split; try lia. }
      destruct W as (W1 & W2 & W3). clearbody w. exists [w mod 256; w / 256 mod 256; w / 65536 mod 256; w / 16777216].
      split; [unfold bytes, is_byte; repeat constructor; lia|]. unfold index_value. replace (192 <=? w mod 256) with true by lia. cbv zeta.
      replace (w mod 256 + 256 * (w / 256 mod 256) + 65536 * (w / 65536 mod 256) + 16777216 * (w / 16777216)) with w by lia. now rewrite <- W3.
Qed.
Example C68_ex : (exists bs, bytes bs /\ ix bs 100032) /\ ~ (exists bs, bytes bs /\ ix bs 100000).
Proof. split; [|intros H]; rewrite C68_indices in *; unfold i32_range in *; change (2 ^ 31) with 2147483648 in *; lia. Qed.

(** * C69 *)
(** Entry [i] of an accepted type table is the meaning of the [i]-th spelled entry over the entries
    before it (references to itself or to later entries mean the default type) and over the strings that
    the lookups of all names up to it yield. *)
Lemma mean_types_firstn ss ats : forall i, (i <= length ats)%nat -> firstn i (fst (mean_types ss [] [] ats)) = fst (mean_types ss [] [] (firstn i ats)).
Proof.
  induction ats as [|a ats IH] using rev_ind; intros i H; [cbn in H; now replace i with 0%nat by lia|].
  rewrite app_length in H. cbn in H. rewrite mean_types_snoc. pose proof (mean_types_len ss ats [] []) as L. unfold zlen in L. cbn [length] in L.
  destruct (mean_types ss [] [] ats) as [ts ins] eqn:E. destruct (resolve (zlen ss) ins (names_of a)) as [ms i2] eqn:R. cbn [fst] in *.
  destruct (Nat.eq_dec i (length ats + 1)) as [->|N].
  - rewrite !firstn_all2 by (rewrite app_length; cbn; lia). rewrite mean_types_snoc, E, R. reflexivity.
  - rewrite !firstn_app. replace (i - length ts)%nat with 0%nat by lia. replace (i - length ats)%nat with 0%nat by lia. cbn [firstn]. rewrite !app_nil_r. apply IH. lia.
Qed.
Lemma mean_types_nth ss : forall ats i a, nth_error ats i = Some a ->
  let '(ts, ins) := mean_types ss [] [] (firstn i ats) in
  nth_error (fst (mean_types ss [] [] ats)) i = Some (mean_type (map (nm ss) (fst (resolve (zlen ss) ins (names_of a)))) ts a).
Proof.
  induction ats as [|b ats IH] using rev_ind; intros i a H; [destruct i; discriminate|].
  rewrite mean_types_snoc. pose proof (mean_types_len ss ats [] []) as L. unfold zlen in L. cbn [length] in L. destruct (Nat.lt_ge_cases i (length ats)) as [C|C].
  - rewrite nth_error_app1 in H by auto. specialize (IH i a H). rewrite firstn_app. replace (i - length ats)%nat with 0%nat by lia. cbn [firstn]. rewrite app_nil_r.
    destruct (mean_types ss [] [] (firstn i ats)) as [ts ins]. destruct (mean_types ss [] [] ats) as [ts' ins']. destruct (resolve (zlen ss) ins' (names_of b)) as [ms i2]. cbn [fst] in *. rewrite nth_error_app1; [exact IH|]. lia.
  - rewrite nth_error_app2 in H by auto. destruct (i - length ats)%nat as [|k] eqn:Q; [|destruct k; discriminate]. cbn in H. injection H as ->. assert (i = length ats) as -> by lia.
    rewrite firstn_app, firstn_all, Nat.sub_diag. cbn [firstn]. rewrite app_nil_r. destruct (mean_types ss [] [] ats) as [ts' ins'] eqn:E. destruct (resolve (zlen ss) ins' (names_of a)) as [ms i2] eqn:R. cbn [fst] in *.
    rewrite nth_error_app2 by lia. replace (length ats - length ts')%nat with 0%nat by lia. reflexivity.
Qed.
Theorem C69_types file c : bytes file -> zlen file < 2 ^ 63 -> accepted None file c -> 0 < c_ntypes c ->
  exists used rest m fs, file = used ++ rest /\ spell_module used m /\ legal_module m (c_strings c) fs /\ c_ntypes c = zlen (rm_types m) /\
    forall i a, nth_error (rm_types m) i = Some a ->
      nth_error (c_types c) i = Some (mean_type (map (nm (c_strings c)) (fst (resolve (zlen (c_strings c)) (snd (mean_types (c_strings c) [] [] (firstn i (rm_types m)))) (names_of a)))) (firstn i (c_types c)) a).
Proof.
  intros B L A N. apply C66_exact in A; auto. destruct A as (used & rest & m & ss & fs & E & S & G & ->). exists used, rest, m, fs. revert N. unfold mean_module.
  destruct (mean_types ss [] [] (rm_types m)) as [ts ins] eqn:Em. destruct (negb (rm_debug m) && (zlen (rm_types m) =? 0) && (zlen (rm_constants m) =? 0)); [cbn; lia|]. cbn [c_ntypes c_strings c_types]. intros N.
  repeat (split; [solve [auto]|]). intros i a H. pose proof (mean_types_nth ss _ _ _ H) as Q. assert (Hi : (i < length (rm_types m))%nat) by (apply nth_error_Some; congruence).
  pose proof (mean_types_firstn ss (rm_types m) i ltac:(lia)) as F. pose proof (mean_types_len ss (rm_types m) [] []) as Lt. rewrite Em in *. cbn [fst] in *. unfold zlen in Lt. cbn [length] in Lt.
  rewrite firstn_app. replace (i - length ts)%nat with 0%nat by lia. cbn [firstn]. rewrite app_nil_r, F. rewrite nth_error_app1 by lia. destruct (mean_types ss [] [] (firstn i (rm_types m))) as [ts0 ins0]. exact Q.
Qed.

(** * C70 *)
(** Every function of an accepted module comes from a spelled function whose debug records run exactly
    to its last instruction, and its debug table lists the positions they give. *)
Theorem C70_functions file c : bytes file -> zlen file < 2 ^ 63 -> accepted None file c ->
  exists used rest m ss fs, file = used ++ rest /\ spell_module used m /\ legal_module m ss fs /\
    (c_functions c <> [] -> length (c_functions c) = length (rm_functions m)) /\
    forall i h, nth_error (c_functions c) i = Some h ->
      exists f, nth_error (rm_functions m) i = Some f /\
        hf_findex h = rf_findex f /\ hf_ops h = map read_op (rf_ops f) /\ hf_t h = ty (c_types c) (rf_type f) /\ hf_regs h = map (ty (c_types c)) (rf_regs f) /\
        if rm_debug m then exists l, run_debug (c_ndebugfiles c) (zlen (rf_ops f)) 0 (-1) 0 (rf_debug f) = Some l /\ hf_debug h = pairs l else hf_debug h = [].
Proof.
  intros B L A. apply C66_exact in A; auto. destruct A as (used & rest & m & ss & fs & E & S & G & ->). exists used, rest, m, ss, fs. unfold mean_module.
  destruct (mean_types ss [] [] (rm_types m)) as [ts ins] eqn:Em. do 3 (split; [assumption|]).
  destruct (negb (rm_debug m) && (zlen (rm_types m) =? 0) && (zlen (rm_constants m) =? 0)). { split; [cbn; tauto|]. intros [|]; discriminate. }
  cbn [c_functions c_types c_ndebugfiles]. split; [now rewrite map_length|]. intros i h H. rewrite nth_error_map in H. destruct (nth_error (rm_functions m) i) as [f|] eqn:Q; [|discriminate]. injection H as <-.
  exists f. split; [auto|]. cbn. split; [auto|]. split; [auto|]. split; [now rewrite ty_app|]. split; [symmetry; apply map_ext; intros; apply ty_app|].
  destruct (rm_debug m) eqn:D; [|reflexivity]. destruct G as (_ & _ & _ & _ & _ & _ & F). rewrite Forall_forall in F. specialize (F f (nth_error_In _ _ Q)). destruct F as (_ & _ & R). specialize (R D).
  destruct (run_debug (rs_count (rm_debugfiles m)) (zlen (rf_ops f)) 0 (-1) 0 (rf_debug f)) as [l|]; [eauto|congruence].
Qed.

(** * C71 *)
(** The tables of an accepted module (type and global tables have a default entry per entry) are paid for
    by bytes of the file... *)
Definition total {A} (w : A -> Z) (l : list A) : Z := fold_right (fun x n => w x + n) 0 l.
Definition cells (c : code) : Z :=
  4 * zlen (c_ints c) + 8 * zlen (c_floats c) + zlen (c_strings c) + zlen (c_bytes c) + zlen (c_bytes_pos c) + zlen (c_debugfiles c)
  + 4 * zlen (c_natives c) + total (fun f => 4 + zlen (hf_regs f) + zlen (hf_ops f)) (c_functions c) + total (fun k => 2 + zlen (k_fields k)) (c_constants c).
Lemma many_total A (P : list Z -> A -> Prop) (w : A -> Z) bs xs : (forall b x, P b x -> w x <= zlen b) -> many P bs xs -> total w xs <= zlen bs.
Proof. intros H M. induction M as [|b bs x xs Hp M IH]; [cbn; lia|]. change (total w (x :: xs)) with (w x + total w xs). rewrite zlen_app. apply H in Hp. lia. Qed.
Lemma many_count A (P : list Z -> A -> Prop) k bs xs : (forall b x, P b x -> k <= zlen b) -> many P bs xs -> k * zlen xs <= zlen bs.
Proof. intros H M. induction M as [|b bs x xs Hp M IH]; [rewrite Z.mul_comm; cbn; lia|]. rewrite zlen_app, zlen_cons. apply H in Hp. rewrite Z.mul_add_distr_l. lia. Qed.
Lemma ix_len b v : ix b v -> 1 <= zlen b.
Proof. unfold ix. destruct b; [discriminate|]. intros _. rewrite zlen_cons. pose proof (zlen_nonneg b). lia. Qed.
Lemma uix_len b v : uix b v -> 1 <= zlen b. Proof. intros (V & _). eapply ix_len; eauto. Qed.
Lemma type_len b t : spell_type b t -> 1 <= zlen b.
Proof.
  intros H. assert (Q : exists x r, b = x :: r); [|destruct Q as (x & r & ->); rewrite zlen_cons; pose proof (zlen_nonneg r); lia].
  destruct t; cbn [spell_type] in H; repeat match goal with H : exists _, _ |- _ => destruct H end; repeat match goal with H : _ /\ _ |- _ => destruct H end; subst; eauto.
Qed.
Lemma op_len b i : spell_op b i -> 1 <= zlen b.
Proof.
  intros H. assert (Q : exists x r, b = x :: r); [|destruct Q as (x & r & ->); rewrite zlen_cons; pose proof (zlen_nonneg r); lia].
  destruct i; cbn [spell_op] in H; repeat match goal with H : exists _, _ |- _ => destruct H end; repeat match goal with H : _ /\ _ |- _ => destruct H end; subst; eauto.
Qed.
Lemma fun_len v d b f : spell_fun v d b f -> 4 + zlen (rf_regs f) + zlen (rf_ops f) <= zlen b.
Proof.
  intros (b1 & b2 & b3 & b4 & b5 & b6 & b7 & -> & V1 & V2 & V3 & V4 & M5 & M6 & _). rewrite !zlen_app. apply ix_len in V1. apply uix_len in V2, V3, V4.
  apply (many_count _ _ 1) in M5; [|exact ix_len]. apply (many_count _ _ 1) in M6; [|exact op_len]. pose proof (zlen_nonneg b7). lia.
Qed.
Lemma native_len b n : spell_native b n -> 4 <= zlen b.
Proof.
  intros (b1 & b2 & -> & (b3 & b4 & -> & (b5 & b6 & -> & V1 & V2) & V3) & V4). rewrite !zlen_app. apply ix_len in V1, V2, V3. apply uix_len in V4. lia.
Qed.
Lemma constant_len b k : spell_constant b k -> 2 + zlen (snd k) <= zlen b.
Proof.
  intros (b1 & b2 & -> & V1 & (c1 & c2 & -> & V2 & M)). rewrite !zlen_app. apply uix_len in V1, V2. apply (many_count _ _ 1) in M; [|exact uix_len]. lia.
Qed.
Lemma cuts_sizes text : forall n cur sizes ss, cuts text n cur sizes ss -> zlen ss = zlen sizes.
Proof.
  induction n as [|n IH]; intros cur [|k sizes] [|s ss]; cbn [cuts]; try tauto. intros (_ & H). rewrite !zlen_cons. destruct (zlen text <=? cur + k); [destruct H as (-> & ->); reflexivity|]. apply IH in H. lia.
Qed.
Lemma strings_len b t ss : spell_strings b t -> strings_of t ss -> zlen ss <= zlen b.
Proof.
  intros (c & -> & _ & M) (_ & C). apply cuts_sizes in C. rewrite !zlen_app. apply (many_count _ _ 1) in M; [|exact uix_len]. pose proof (zlen_nonneg (enc_le 4 (zlen (rs_text t)))). pose proof (zlen_nonneg (rs_text t)). lia.
Qed.
Lemma zlen_enc_le k v : zlen (enc_le k v) = Z.of_nat k.
Proof. unfold zlen, enc_le. generalize (v mod 256 ^ Z.of_nat k) as u. induction k as [|k IH]; intros u; [reflexivity|]. cbn [length le_bytes] in *. specialize (IH (u / 256)). lia. Qed.
Lemma flat_len k l : zlen (flat_map (enc_le k) l) = Z.of_nat k * zlen l.
Proof. induction l as [|x l IH]; [cbn; lia|]. cbn [flat_map]. rewrite zlen_app, IH, zlen_cons, zlen_enc_le. lia. Qed.
Lemma total_map A B (w : B -> Z) (f : A -> B) l : total w (map f l) = total (fun x => w (f x)) l.
Proof. unfold total. induction l as [|x l IH]; cbn; [reflexivity|]. now rewrite IH. Qed.
Lemma total_ext A (w w' : A -> Z) l : (forall x, w x = w' x) -> total w l = total w' l.
Proof. intros H. unfold total. induction l as [|x l IH]; cbn; [reflexivity|]. now rewrite H, IH. Qed.
Theorem C71_cells_partial file c : bytes file -> zlen file < 2 ^ 63 -> accepted None file c ->
  2 * cells c + zlen (c_types c) + zlen (c_globals c) <= 2 * zlen file.
Proof.
  intros B L A. apply C66_exact in A; auto. destruct A as (used & rest & m & ss & fs & -> & S & G & ->). rewrite zlen_app. pose proof (zlen_nonneg rest). unfold mean_module.
  pose proof (mean_types_len ss (rm_types m) [] []) as Lt. destruct (mean_types ss [] [] (rm_types m)) as [ts ins] eqn:Em. cbn [fst] in Lt. change (zlen (@nil vtype)) with 0 in Lt.
  destruct (negb (rm_debug m) && (zlen (rm_types m) =? 0) && (zlen (rm_constants m) =? 0)). { change (2 * cells code_new + zlen (c_types code_new) + zlen (c_globals code_new)) with 0. pose proof (zlen_nonneg used). lia. }
  unfold cells. cbn [c_ints c_floats c_strings c_bytes c_bytes_pos c_debugfiles c_natives c_functions c_constants c_types c_globals].
  destruct S as (h & s1 & s2 & s3 & s4 & s5 & -> & Hh & _ & _ & S1 & S2 & S3 & S4 & (t1 & t2 & t3 & t4 & -> & M9 & M10 & M11 & M12)). destruct G as (_ & G1 & G2 & _).
  pose proof (strings_len _ _ _ S1 G1) as X1. apply (many_count _ _ 1) in S4; [|exact type_len]. apply (many_count _ _ 1) in M9; [|exact ix_len]. apply (many_count _ _ 4) in M10; [|exact native_len].
  apply (many_total _ _ (fun f => 4 + zlen (rf_regs f) + zlen (rf_ops f))) in M11; [|intros b f; apply fun_len]. apply (many_total _ _ (fun k => 2 + zlen (snd k))) in M12; [|exact constant_len].
  assert (X2 : zlen (rm_bytes m) + zlen (rm_bytes_pos m) <= zlen s2).
  { unfold spell_bytes in S2. destruct (5 <=? rm_version m) eqn:Q.
    - destruct S2 as (b & -> & _ & M). rewrite !zlen_app. apply (many_count _ _ 1) in M; [|exact uix_len]. pose proof (zlen_nonneg (enc_le 4 (zlen (rm_bytes m)))). lia.
    - destruct Hh as (b0 & b1 & b2 & b3 & b4 & b5 & b6 & b7 & b8 & b9 & b10 & _ & _ & _ & _ & _ & V & _). rewrite Q in V. destruct V as (_ & -> & ->). pose proof (zlen_nonneg s2). exact H0. }
  assert (X3 : zlen fs <= zlen s3).
  { unfold spell_debugfiles in S3. destruct (rm_debug m); [destruct S3 as (b1 & b2 & -> & _ & S); rewrite zlen_app; pose proof (zlen_nonneg b1); pose proof (strings_len _ _ _ S G2); lia|].
    destruct S3 as (-> & Q). rewrite Q in G2. destruct G2 as (_ & C). apply cuts_sizes in C. rewrite C. cbn. lia. }
  rewrite !zlen_app, !flat_len, !total_map. rewrite (total_ext _ _ (fun f => 4 + zlen (rf_regs f) + zlen (rf_ops f))) by (intros f; cbn; unfold zlen; now rewrite !map_length).
  cbn [k_fields mean_fun]. pose proof (zlen_nonneg h). pose proof (zlen_nonneg (rm_types m)). pose proof (zlen_nonneg (rm_globals m)). rewrite !zlen_repeat by auto.
  assert (Y1 : zlen (map (ty ts) (rm_globals m)) = zlen (rm_globals m)) by (unfold zlen; now rewrite map_length).
  assert (Y2 : forall A B (f : A -> B) l, zlen (map f l) = zlen l) by (intros; unfold zlen; now rewrite map_length). rewrite !Y2. lia.
Qed.
(** ... except the cache of decoded names, whose size is a number written in the file: 26 bytes are
    accepted as a module with 2^31 - 1 cache places. *)
Definition bomb : list Z := [72; 76; 66; 2; 1; 0; 0; 255; 255; 255; 127; 0; 0; 0; 0; 0; 0; 0; 0; 0; 0; 0; 0; 0; 0; 0].
Theorem C71_cache_refuted : exists c, accepted None bomb c /\ zlen bomb = 26 /\ zlen (c_ustrings c) = 2147483647 /\ zlen (c_strings c) = 1.
Proof.
  set (t := {| rs_count := 2147483647; rs_text := []; rs_sizes := [0] |}).
  set (m := {| rm_version := 2; rm_flags := 1; rm_ints := []; rm_floats := []; rm_strings := t; rm_bytes := []; rm_bytes_pos := []; rm_debugfiles := no_strings; rm_types := [];
    rm_globals := []; rm_natives := []; rm_functions := []; rm_constants := []; rm_entrypoint := 0 |}).
  exists (mean_module m [[]] []). split; [|split; [reflexivity|]].
  - apply C66_exact; [unfold bytes, is_byte, bomb; repeat constructor; lia|reflexivity|].
    exists bomb, [], m, [[]], []. split; [now rewrite app_nil_r|]. split; [|split; [|reflexivity]].
    + exists [72; 76; 66; 2; 1; 0; 0; 255; 255; 255; 127; 0; 0; 0; 0; 0], [0; 0; 0; 0; 0], [], [0; 0; 0; 0; 0], [], []. split; [reflexivity|].
      split. { exists [1], [0], [0], [255; 255; 255; 127], [], [0], [0], [0], [0], [], [0]. cbn - [uix]. repeat split; try reflexivity; try (cbn; lia); intros; discriminate. }
      split; [constructor|]. split; [constructor|]. split. { exists [0]. split; [reflexivity|]. split; [reflexivity|]. change [0] with ([0] ++ []) at 1. constructor; [split; [reflexivity|lia]|constructor]. }
      split; [reflexivity|]. split. { exists [0], [0; 0; 0; 0]. split; [reflexivity|]. split; [split; [reflexivity|cbn; lia]|]. exists []. split; [reflexivity|]. split; [reflexivity|constructor]. }
      split; [constructor|]. exists [], [], [], []. split; [reflexivity|]. repeat split; constructor.
    + split; [cbn; lia|]. split; [|split; [split; [cbn; lia|exact I]|]].
      * split; [cbn; lia|]. cbn [rs_count rs_text rs_sizes rm_strings m t]. destruct (Z.to_nat 2147483647) as [|k] eqn:Q; [lia|]. cbn [cuts]. split; [|cbn; auto].
        exists [], []. split; [reflexivity|]. split; [reflexivity|]. split; [reflexivity|]. auto using ex_utf8_nil.
      * repeat split; constructor.
  - unfold mean_module. cbn [rm_types rm_strings rm_debug rm_flags m mean_types Z.odd negb andb c_ustrings c_strings t rs_count]. split; [rewrite cache_len by lia; reflexivity|reflexivity].
Qed.

(** * Cases *)
Lemma ex_bytes : bytes (enc_module ex_mod) /\ zlen (enc_module ex_mod) < 2 ^ 62.
Proof. split; [|vm_compute; reflexivity]. apply Forall_forall. intros x H. unfold is_byte. assert (Q : forallb (fun x => (0 <=? x) && (x <? 256)) (enc_module ex_mod) = true) by (vm_compute; reflexivity). rewrite forallb_forall in Q. specialize (Q x H). lia. Qed.
Example C66_ex : (exists c, denotes (enc_module ex_mod ++ [7]) c /\ c_functions c <> [] /\ c_ntypes c = 5) /\ ~ (exists c, denotes (firstn 60 (enc_module ex_mod)) c).
Proof.
  destruct ex_bytes as (B & L). split.
  - destruct (C37_roundtrip ex_mod [7] ex_wf) as (u & R). exists (view_module ex_mod u). split; [|split; [discriminate|reflexivity]].
    apply C66_exact; [apply Forall_app; split; [auto|repeat constructor; cbn; lia]|rewrite zlen_app; change (zlen [7]) with 1; lia|]. unfold accepted. now rewrite R.
  - intros (c & D). apply C66_exact in D; [exact (proj2 C38_C39_ex c D)|rewrite <- (firstn_skipn 60 (enc_module ex_mod)) in B; now apply Forall_app in B|].
    rewrite <- (firstn_skipn 60 (enc_module ex_mod)), zlen_app in L. pose proof (zlen_nonneg (skipn 60 (enc_module ex_mod))). lia.
Qed.
Example C69_ex : exists c, accepted None (enc_module ex_mod) c /\ 0 < c_ntypes c /\ nth_error (c_types c) 4 = Some (VT UNull None (Some (VT UNull None None HI32)) HREF).
Proof. destruct (C37_roundtrip ex_mod [] ex_wf) as (u & R). exists (view_module ex_mod u). rewrite app_nil_r in R. split; [unfold accepted; now rewrite R|]. split; reflexivity. Qed.
Example C70_ex : exists c h, accepted None (enc_module ex_mod) c /\ nth_error (c_functions c) 0 = Some h /\ hf_debug h = [0; 3; 0; 200; 0; 201].
Proof. destruct (C37_roundtrip ex_mod [] ex_wf) as (u & R). exists (view_module ex_mod u). rewrite app_nil_r in R. eexists. split; [unfold accepted; now rewrite R|]. split; reflexivity. Qed.
