(** Theorems C27-C36: indices, string tables, instructions, debug tables, types and names.
    Model: DecoderModel.v, CodeModel.v.  Vocabulary: FormatSpec.v, ReaderSpec.v. *)
From Verif Require Import Prelude StdModel BrassTypes DecoderModel CodeModel FormatSpec ReaderSpec AcceptSpec.
From Verif Require Import CodeGenericProofs Utf8Proofs FormatProofs StringsProofs TypesProofs OpsProofs ReaderPost
  ReaderTables AcceptProofs PropsDecoder.
From Coq Require Import Lia ZifyBool.

(** * C27 *)
(** A negative index read as unsigned: the error is recorded, the value 0 is used. *)
Theorem C27_negative s i s1 : read_index s = (Ok i, s1) -> i < 0 ->
  let e := {| e_kind := NegativeIndex; e_pos := d_pos s1 |} in
  UINDEX s = (Ok 0, {| d_buf := d_buf s1; d_pos := d_pos s1; d_code := d_code s1; errs := Some e;
                       d_log := d_log s1 ++ [e] |}).
Proof.
  intros E H. cbv zeta. unfold UINDEX, INDEX, unwrap_mapped, unwrap, bind. rewrite E.
  destruct (Z.ltb_spec i 0); [|lia]. reflexivity.
Qed.
(** A non-negative one is returned as it is, nothing recorded. *)
Theorem C27_nonnegative s i s1 : read_index s = (Ok i, s1) -> 0 <= i -> UINDEX s = (Ok i, s1).
Proof.
  intros E H. unfold UINDEX, INDEX, unwrap_mapped, unwrap, bind. rewrite E.
  destruct (Z.ltb_spec i 0); [lia|]. reflexivity.
Qed.
(** No result of an unsigned index is negative, whatever the input. *)
Theorem C27_result s i s1 : UINDEX s = (Ok i, s1) -> 0 <= i.
Proof. apply UINDEX_nonneg. Qed.
(** An accepted file has recorded no error at all, in particular no negative index, during the read:
    with [C27_negative], no unsigned index of an accepted file was negative. *)
Theorem C27_accepted e0 buf c s' : bytes buf -> code_read (start e0 buf) = (Ok c, s') -> d_log s' = [].
Proof. intros B E. now destruct (accepted_clean e0 buf c s' B E) as (_ & _ & L). Qed.
(** The record of errors only ever grows: a negative unsigned index met anywhere on the way is in the
    record at the end. *)
Theorem C27_log_grows s r s' : bytes (d_buf s) -> code_read s = (r, s') -> exists l, d_log s' = d_log s ++ l.
Proof. intros B E. destruct (g_fwd _ _ (good_code_read true) s _ _ B E) as (_ & _ & l & L & _). eauto. Qed.

(** In the header: if any of the flags, counts or the entry point is negative the file is rejected
    with NegativeIndex. *)
Definition header_fields (v : Z) : Z := 9 + (if 4 <=? v then 1 else 0) + (if 5 <=? v then 1 else 0).

(** [read_index] looks at the remaining bytes and position only. *)
Definition reframe (s t : st) : st :=
  {| d_buf := d_buf t; d_pos := d_pos t; d_code := d_code s; errs := errs s; d_log := d_log s |}.
Definition framed {A} (m : M A) : Prop := forall s t, d_buf s = d_buf t -> d_pos s = d_pos t ->
  exists r u, m t = (r, u) /\ m s = (r, reframe s u).
Lemma framed_bind {A B} (m : M A) (k : A -> M B) : framed m -> (forall a, framed (k a)) -> framed (bind m k).
Proof.
  intros Hm Hk s t Eb Ep. destruct (Hm s t Eb Ep) as (r & u & E1 & E2). unfold bind. rewrite E1, E2.
  destruct r as [a|e|p]; eauto. destruct (Hk a (reframe s u) u eq_refl eq_refl) as (r & w & F1 & F2).
  exists r, w. rewrite F1, F2. auto.
Qed.
Lemma framed_ret {A} (a : A) : framed (ret a).
Proof. intros s t Eb Ep. exists (Ok a), t. split; [reflexivity|]. unfold ret, reframe. rewrite <- Eb, <- Ep. now destruct s. Qed.
Lemma framed_unwrap {A} (m : M A) : framed m -> framed (unwrap m).
Proof.
  intros H s t Eb Ep. destruct (H s t Eb Ep) as (r & u & E1 & E2). unfold unwrap. rewrite E1, E2.
  destruct r; eauto.
Qed.
Lemma framed_u8 : framed decode_u8.
Proof.
  unfold decode_u8, decode_unsigned. apply framed_bind; [|intros; apply framed_ret].
  intros s t Eb Ep. unfold read_bytes. rewrite Eb, Ep. destruct (_ <? _); eexists _, _; split; try reflexivity.
  unfold reframe. rewrite <- Eb, <- Ep. now destruct s.
Qed.
Lemma framed_index : framed read_index.
Proof.
  unfold read_index. apply framed_bind; [apply framed_u8|]. intros b.
  destruct (_ =? 0); [apply framed_ret|]. destruct (_ =? 0).
  - apply framed_bind; [apply framed_unwrap, framed_u8|]. intros x. cbv zeta. apply framed_ret.
  - repeat (apply framed_bind; [apply framed_u8|]; intros ?). apply framed_ret.
Qed.
Lemma index_step k s r : -8192 < k < 8192 -> d_buf s = enc_index k ++ r ->
  read_index s = (Ok k, {| d_buf := r; d_pos := d_pos s + zlen (enc_index k); d_code := d_code s; errs := errs s; d_log := d_log s |}).
Proof.
  intros H E. destruct (framed_index s (mk (d_buf s) (d_pos s) code_new) eq_refl eq_refl) as (q & u & E1 & E2).
  rewrite E in E1. rewrite (eats_index code_new k H) in E1. inversion E1; subst. exact E2.
Qed.
(** The error cell after reading unsigned indices [ks]. *)
Definition cell_after (e : option derr) (p : Z) (k : Z) : option derr :=
  if k <? 0 then Some {| e_kind := NegativeIndex; e_pos := p |} else e.
Lemma uindex_step k s r : -8192 < k < 8192 -> d_buf s = enc_index k ++ r ->
  exists n s1, UINDEX s = (Ok n, s1) /\ d_buf s1 = r /\ errs s1 = cell_after (errs s) (d_pos s1) k.
Proof.
  intros H E. pose proof (index_step k s r H E) as R. unfold cell_after. destruct (Z.ltb_spec k 0) as [N|N].
  - rewrite (C27_negative _ _ _ R N). eexists _, _. repeat split.
  - rewrite (C27_nonnegative _ _ _ R N). eexists _, _. repeat split.
Qed.
Definition neg_cell (e : option derr) (b : bool) : Prop :=
  if b then exists x, e = Some x /\ e_kind x = NegativeIndex else e = None.
Lemma count_step k set c s r b : -8192 < k < 8192 -> d_buf s = enc_index k ++ r -> neg_cell (errs s) b ->
  exists n s1, read_count set c s = (Ok (set n c), s1) /\ d_buf s1 = r /\ neg_cell (errs s1) (b || (k <? 0)).
Proof.
  intros H E Hb. destruct (uindex_step k s r H E) as (n & s1 & E1 & E2 & E3).
  unfold read_count, bind, ok. rewrite E1. exists n, s1. repeat split; auto.
  rewrite E3. unfold cell_after, neg_cell. destruct (k <? 0), b; cbn; eauto.
Qed.
Lemma bind_step {A B} (m : M A) (k : A -> M B) s a s1 : m s = (Ok a, s1) -> bind m k s = k a s1.
Proof. intros E. unfold bind. now rewrite E. Qed.

Definition rejects (o : res derr code * st) : Prop := exists e s', o = (Err e, s') /\ e_kind e = NegativeIndex.
Lemma peel k ks rest set c (K : code -> M code) s b : -8192 < k < 8192 ->
  d_buf s = flat_map enc_index (k :: ks) ++ rest -> neg_cell (errs s) b ->
  (forall n s1, d_buf s1 = flat_map enc_index ks ++ rest -> neg_cell (errs s1) (b || (k <? 0)) -> rejects (K (set n c) s1)) ->
  rejects (bind (read_count set c) K s).
Proof.
  intros H E B HK. cbn [flat_map] in E. rewrite <- app_assoc in E.
  destruct (count_step k set c s _ b H E B) as (n & s1 & E1 & E2 & E3).
  rewrite (bind_step _ _ _ _ _ E1). auto.
Qed.

Lemma neg_end b s c : neg_cell (errs s) b -> b = true -> rejects ((check_error ;;; ret c) s).
Proof.
  intros H ->. destruct H as (x & E & K). unfold bind, check_error. rewrite E. exists x, s. auto.
Qed.

Theorem C27_header v ks rest : 2 <= v <= 5 -> zlen ks = header_fields v ->
  Forall (fun k => -8192 < k < 8192) ks -> Exists (fun k => k < 0) ks ->
  exists e cell, read_module None ([72; 76; 66; v] ++ flat_map enc_index ks ++ rest) = (Err e, cell) /\
    e_kind e = NegativeIndex.
Proof.
  intros Hv Hl F X. unfold read_module, code_read. cbv zeta.
  assert (Rm : read_magic code_new (start None ([72; 76; 66; v] ++ flat_map enc_index ks ++ rest))
    = (Ok (set_version v code_new), mk (flat_map enc_index ks ++ rest) 4 code_new)).
  { exact (ModuleProofs.eats_read_magic code_new v Hv 0 (flat_map enc_index ks ++ rest)). }
  rewrite (bind_step _ _ _ _ _ Rm).
  assert (Rc : rejects (read_counts (set_version v code_new) (mk (flat_map enc_index ks ++ rest) 4 code_new))).
  2:{ destruct Rc as (e & s' & Rc & K). unfold bind at 1. rewrite Rc. eauto. }
  assert (B0 : neg_cell (errs (mk (flat_map enc_index ks ++ rest) 4 code_new)) false) by reflexivity.
  assert (E0 : d_buf (mk (flat_map enc_index ks ++ rest) 4 code_new) = flat_map enc_index ks ++ rest) by reflexivity.
  remember (mk (flat_map enc_index ks ++ rest) 4 code_new) as s0 eqn:Hs0. clear Hs0 Rm.
  assert (X' : existsb (fun k => k <? 0) ks = true).
  { apply existsb_exists. apply Exists_exists in X as (k & I & L). exists k. split; [auto|lia]. }
  clear X.
  assert (H9 : 9 <= zlen ks) by (rewrite Hl; unfold header_fields; destruct (4 <=? v), (5 <=? v); lia).
  assert (NF : exists a1 a2 a3 a4 a5 a6 a7 a8 a9 r, ks = a1 :: a2 :: a3 :: a4 :: a5 :: a6 :: a7 :: a8 :: a9 :: r).
  { unfold zlen in H9. do 9 (destruct ks as [|? ks]; [exfalso; cbn [length] in H9; lia|]). repeat eexists. }
  destruct NF as (a1 & a2 & a3 & a4 & a5 & a6 & a7 & a8 & a9 & r & ->). clear H9.
  assert (Hr : zlen r = (if 4 <=? v then 1 else 0) + (if 5 <=? v then 1 else 0)).
  { unfold header_fields in Hl. rewrite !zlen_cons in Hl. lia. }
  clear Hl. repeat (apply Forall_cons_iff in F; destruct F as [? F]).
  unfold read_counts.
  cbn [flat_map] in E0. rewrite <- app_assoc in E0.
  destruct (uindex_step a1 s0 _ ltac:(auto) E0) as (fl & s1 & E1 & E2 & E3).
  assert (Ro : ok UINDEX s0 = (Ok (Some fl), s1)) by (unfold ok; now rewrite E1).
  rewrite (bind_step _ _ _ _ _ Ro). cbv zeta.
  assert (B1 : neg_cell (errs s1) (a1 <? 0)).
  { rewrite E3. unfold cell_after, neg_cell in *. destruct (a1 <? 0); eauto. }
  clear E0 B0 Ro E3 E1.
  change (d_buf s1 = flat_map enc_index (a2 :: a3 :: a4 :: a5 :: a6 :: a7 :: a8 :: a9 :: r) ++ rest) in E2.
  Ltac pl E B := eapply peel; [ |exact E|exact B|]; [assumption|]; clear E B; intros ? ? E B; cbv beta.
  Ltac opt :=
    match goal with |- context [(if ?k <=? c_version ?c then _ else _)] =>
      let t := eval vm_compute in (k <=? c_version c) in replace (k <=? c_version c) with t by reflexivity end; cbv iota.
  Ltac skip_ := match goal with |- rejects (bind (ret ?c) ?K ?s) => change (rejects (K c s)); cbv beta end.
  assert (V : v = 2 \/ v = 3 \/ v = 4 \/ v = 5) by lia.
  pl E2 B1. pl E2 B1. pl E2 B1.
  destruct V as [V|[V|[V|V] ] ]; subst v; cbn in Hr.
  - opt. skip_. pl E2 B1. pl E2 B1. pl E2 B1. pl E2 B1. cbv zeta. opt. skip_. pl E2 B1. eapply neg_end; [exact B1|].
    destruct r; [|unfold zlen in Hr; cbn in Hr; lia]. cbn [existsb] in X'. rewrite !orb_assoc, orb_false_r in X'. exact X'.
  - opt. skip_. pl E2 B1. pl E2 B1. pl E2 B1. pl E2 B1. cbv zeta. opt. skip_. pl E2 B1. eapply neg_end; [exact B1|].
    destruct r; [|unfold zlen in Hr; cbn in Hr; lia]. cbn [existsb] in X'. rewrite !orb_assoc, orb_false_r in X'. exact X'.
  - destruct r as [|b1 [|? ?]]; try (unfold zlen in Hr; cbn in Hr; lia). apply Forall_cons_iff in F; destruct F as [? F].
    opt. skip_. pl E2 B1. pl E2 B1. pl E2 B1. pl E2 B1. cbv zeta. opt. pl E2 B1. pl E2 B1. eapply neg_end; [exact B1|].
    cbn [existsb] in X'. rewrite !orb_assoc, orb_false_r in X'. exact X'.
  - destruct r as [|b1 [|b2 [|? ?]]]; try (unfold zlen in Hr; cbn in Hr; lia).
    apply Forall_cons_iff in F; destruct F as [? F]. apply Forall_cons_iff in F; destruct F as [? F].
    opt. pl E2 B1. pl E2 B1. pl E2 B1. pl E2 B1. pl E2 B1. cbv zeta. opt. pl E2 B1. pl E2 B1. eapply neg_end; [exact B1|].
    cbn [existsb] in X'. rewrite !orb_assoc, orb_false_r in X'. exact X'.
Qed.
Example C27_ex :
  read_index (mk (enc_index (-5) ++ [9]) 3 code_new) = (Ok (-5), mk [9] 5 code_new) /\
  fst (read_module None ([72; 76; 66; 2] ++ flat_map enc_index [0; 0; -5; 0; 0; 0; 0; 0; 0])) =
    Err {| e_kind := NegativeIndex; e_pos := 8 |}.
Proof. split; vm_compute; reflexivity. Qed.

(** * C28 *)
(** String tables of well-formed strings shorter than 8192 bytes round-trip. *)
Theorem C28_roundtrip_partial c (ss : list str) lens :
  Forall (fun s : str => utf8 s /\ zlen s < 8192) ss -> zlen (flat_map (fun s : str => s ++ [0]) ss) < 2 ^ 31 ->
  eats c (read_strings (zlen ss) lens) (enc_strings ss) (ss, lens ++ map zlen ss) c.
Proof. intros F L. apply eats_read_strings_gen; auto. Qed.

(** The same with longer strings is violated (their lengths take the four-byte index form): no table
    starting with a string of 8192 bytes or more is ever read back. *)
Lemma index_long c v : 8192 <= v < 2 ^ 29 -> exists w, w <> v /\ eats c read_index (enc_index v) w c.
Proof. intros H. apply C25_long_refuted. lia. Qed.
Lemma strings_loop_acc text : forall n cur acc lens s r s',
  strings_loop n text cur acc lens s = (Ok r, s') -> exists more, fst r = acc ++ more.
Proof.
  induction n as [|n IH]; intros cur acc lens s r s' E; cbn [strings_loop] in E.
  - inversion E; subst. exists []. cbn. now rewrite app_nil_r.
  - apply bind_ok in E as (sz & s1 & _ & E). apply bind_ok in E as (tl & s2 & _ & E).
    apply bind_ok in E as (x & s3 & _ & E). cbv zeta in E.
    destruct (_ <=? _); [inversion E; subst; exists [x]; reflexivity|].
    apply IH in E as (more & ->). exists (x :: more). now rewrite <- app_assoc.
Qed.
Lemma str_to_len s n x : str_to s n = Some x -> 0 <= n -> zlen x = n.
Proof.
  unfold str_to, is_char_boundary. intros E H.
  destruct (Z.eqb_spec n 0) as [->|N0].
  - inversion E; subst. reflexivity.
  - destruct (Z.eqb_spec n (zlen s)) as [->|N1].
    + inversion E; subst. rewrite to_nat_zlen, firstn_all. reflexivity.
    + destruct (znth s n) as [b|] eqn:Z; [|discriminate].
      destruct (negb (is_cont b)); [|discriminate]. inversion E; subst.
      apply znth_some_range in Z. unfold zlen in *. rewrite firstn_length. lia.
Qed.
Lemma long_loop c text rest : forall (ss : list str) q cur acc lens r st', Forall (fun s : str => zlen s < 2 ^ 29) ss ->
  strings_loop (length ss) text cur acc lens (mk (flat_map (fun s : str => enc_index (zlen s)) ss ++ rest) q c) = (Ok r, st') ->
  fst r = acc ++ ss -> Forall (fun s : str => zlen s < 8192) ss.
Proof.
  induction ss as [|s ss IH]; intros q cur acc lens r st' F E Q; [constructor|]. inversion F as [|? ? Fs F']; subst.
  cbn [length strings_loop flat_map] in E. rewrite <- app_assoc in E.
  apply bind_ok in E as (sz & s4 & E4 & E). apply unwrap_ok in E4.
  apply bind_ok in E as (tl & s5 & E5 & E). apply expect_ok in E5 as [_ ->]. apply bind_ok in E as (x & s6 & E6 & E).
  apply expect_ok in E6 as [E6 ->]. pose proof (UINDEX_nonneg _ _ _ E4) as P. apply str_to_len in E6; [|lia]. cbv zeta in E.
  assert (X : exists more, fst r = acc ++ x :: more).
  { destruct (_ <=? _); [inversion E; subst; exists []; reflexivity|].
    apply strings_loop_acc in E as (more & ->). exists more. now rewrite <- app_assoc. }
  destruct X as [more X]. rewrite X in Q. apply app_inv_head in Q. injection Q as -> ->.
  destruct (Z.lt_ge_cases (zlen s) 8192) as [L|L].
  - constructor; [exact L|]. pose proof (zlen_nonneg s). rewrite (C27_nonnegative _ (zlen s) (mk (flat_map (fun s : str => enc_index (zlen s)) ss ++ rest) (q + zlen (enc_index (zlen s))) c)) in E4.
    2:{ apply eats_index. unfold small. lia. } 2:lia.
    injection E4 as <- <-. destruct (_ <=? _).
    + injection E as <- _. cbn [fst] in X. apply app_inv_head in X. injection X as <-. constructor.
    + apply IH in E; auto. rewrite X. now rewrite <- app_assoc.
  - exfalso. destruct (index_long c (zlen s) (conj L Fs)) as (w & Nw & Ew).
    specialize (Ew q (flat_map (fun s : str => enc_index (zlen s)) ss ++ rest)). destruct (Z.ltb_spec w 0) as [Hw|Hw].
    + rewrite (C27_negative _ _ _ Ew Hw) in E4. injection E4 as <- _. lia.
    + rewrite (C27_nonnegative _ _ _ Ew Hw) in E4. injection E4 as <- _. lia.
Qed.
Theorem C28_long_refuted c (ss : list str) lens p rest r st' :
  Forall (fun s : str => zlen s < 2 ^ 29) ss -> zlen (flat_map (fun s : str => s ++ [0]) ss) < 2 ^ 31 ->
  Exists (fun s : str => 8192 <= zlen s) ss ->
  read_strings (zlen ss) lens (mk (enc_strings ss ++ rest) p c) = (Ok r, st') ->
  fst r <> ss.
Proof.
  intros F Lt X E Q.
  assert (Enc : exists text, zlen text < 2 ^ 31 /\
    enc_strings ss = enc_le 4 (zlen text) ++ text ++ flat_map (fun s : str => enc_index (zlen s)) ss).
  { eexists. split; [exact Lt|]. reflexivity. }
  destruct Enc as (text & Lx & Enc). rewrite Enc in E. clear Enc Lt.
  unfold read_strings in E. apply bind_ok in E as (size & s1 & E1 & E). apply unwrap_ok in E1.
  rewrite <- !app_assoc in E1. pose proof (zlen_nonneg text) as Nt.
  rewrite (eats_i32 c (zlen text)) in E1 by (unfold i32_range; lia). inversion E1; subst size s1. clear E1.
  assert (Z0 : i32_as_usize (zlen text) = zlen text).
  { unfold i32_as_usize. destruct (Z.ltb_spec (zlen text) 0); lia. }
  cbv zeta in E. rewrite Z0 in E. apply bind_ok in E as (sl & s2 & E2 & E).
  cbn [d_buf mk] in E2. destruct (_ <? _); [discriminate|]. inversion E2; subst s2. clear E2 H0.
  apply bind_ok in E as (u & s3 & E3 & E).
  unfold advance in E3. cbn [d_buf mk] in E3. destruct (_ <? _) eqn:Lz in E3; [discriminate|].
  assert (S3e : exists q, s3 = mk (flat_map (fun s : str => enc_index (zlen s)) ss ++ rest) q c).
  { inversion E3; subst s3. rewrite to_nat_zlen, skipn_app, skipn_all, Nat.sub_diag. cbn [app skipn]. eexists. reflexivity. }
  clear E3 Lz. destruct S3e as [q ->]. rewrite to_nat_zlen in E.
  apply long_loop in E; auto. rewrite Forall_forall in E. apply Exists_exists in X as (s & I & L). specialize (E s I). cbn beta in E. lia.
Qed.
Example C28_ex :
  let ss := [[104; 105]; []; [195; 169; 0; 226; 130; 172]] in
  Forall (fun s : str => utf8 s /\ zlen s < 8192) ss /\
  read_strings 3 [] (mk (enc_strings ss ++ [7]) 0 code_new) = (Ok (ss, [2; 0; 6]), mk [7] 18 code_new).
Proof.
  split; [|vm_compute; reflexivity].
  repeat constructor; try (cbn; lia).
  - exists [104; 105]. split; [repeat constructor; unfold scalar; lia|reflexivity].
  - exists []. split; [constructor|reflexivity].
  - exists [233; 0; 8364]. split; [repeat constructor; unfold scalar; lia|reflexivity].
Qed.
(** A long string that is not read back (the read panics). *)
Example C28_long_ex : fst (read_strings 1 [] (mk (enc_strings [zrepeat 65 8192]) 0 code_new)) = Panic PSlice.
Proof. vm_compute. reflexivity. Qed.

(** * C29 *)
(** Whatever the input: if a string table is read, the file holds a size and that many raw bytes; with
    ill-formed pieces replaced by U+FFFD these are a text of which every string is a well-formed piece,
    and the recorded lengths are the byte lengths. *)
Theorem C29_strings n lens s ss lens' s' : bytes (d_buf s) -> 0 <= n ->
  read_strings n lens s = (Ok (ss, lens'), s') ->
  exists size raw rest text, d_buf s = enc_le 4 size ++ raw ++ rest /\ zlen raw = size mod 2 ^ 64 /\ lossy_of raw text /\
    lens' = lens ++ map zlen ss /\ zlen ss <= n /\
    Forall (fun x : str => utf8 x /\ exists a b, text = a ++ x ++ b) ss.
Proof. exact (read_strings_spec n lens s ss lens' s'). Qed.
(** In an accepted module. *)
Theorem C29_module e0 buf c cell : bytes buf -> read_module e0 buf = (Ok c, cell) ->
  Forall utf8 (c_strings c) /\ c_strings_lens c = map zlen (c_strings c) /\ Forall utf8 (c_debugfiles c).
Proof.
  intros B E. unfold read_module in E. destruct (code_read (start e0 buf)) as [r s'] eqn:R. inversion E; subst.
  destruct (accepted_ok e0 buf c s' B R) as [H _]. unfold contents_ok in H. tauto.
Qed.
Lemma app_inj_len {A} (a b c d : list A) : a ++ b = c ++ d -> length a = length c -> a = c /\ b = d.
Proof.
  revert c. induction a as [|x a IH]; intros [|y c] E L; cbn in *; try lia; [auto|].
  inversion E; subst. destruct (IH c H1) as [-> ->]; [lia|auto].
Qed.
(** Well-formed text is not altered. *)
Theorem C29_wellformed_kept (raw text : list Z) : bytes raw -> lossy_of raw text -> utf8 raw -> text = raw.
Proof.
  intros _ L. induction L as [|ch i o Sc L IH|bad i o Lb _ Nc _ L IH]; intros (cs & F & E).
  - reflexivity.
  - destruct F as [|d cs Sd F]; [apply (f_equal (@length Z)) in E; rewrite app_length in E;
      pose proof (utf8_char_len ch); cbn in E; lia|]. cbn [flat_map] in E.
    pose proof (utf8_head_char ch i Sc) as H1. rewrite E, (utf8_head_char d _ Sd) in H1.
    assert (Ld : length (utf8_char ch) = length (utf8_char d)) by congruence.
    apply app_inj_len in E as [_ E]; [|exact Ld]. rewrite IH; [reflexivity|]. exists cs. auto.
  - destruct F as [|d cs Sd F].
    + destruct bad; [congruence|discriminate].
    + exfalso. eapply Nc; [exact Sd|]. exact E.
Qed.
(** The text is determined by the raw bytes. *)
Theorem C29_unique raw t1 t2 : bytes raw -> lossy_of raw t1 -> lossy_of raw t2 -> t1 = t2.
Proof.
  intros B H1 H2. rewrite (lossy_unique _ _ H1 B (length raw) (le_n _)). symmetry. exact (lossy_unique _ _ H2 B (length raw) (le_n _)).
Qed.
(** A lead byte with one continuation, then a lead byte alone: two replacements. *)
Example C29_unique_ex : lossy_of [226; 130; 226] (utf8_char 65533 ++ utf8_char 65533 ++ []).
Proof. exact (lossy_spec [226; 130; 226] ltac:(unfold bytes, is_byte; repeat constructor; lia)). Qed.
Example C29_ex :
  read_strings 2 [] (mk ([6; 0; 0; 0] ++ [65; 255; 66; 0; 67; 0] ++ [5; 1]) 0 code_new)
    = (Ok ([[65; 239; 191; 189; 66]; [67]], [5; 1]), mk [] 12 code_new).
Proof. vm_compute. reflexivity. Qed.

(** * C30 *)
(** Every instruction is decoded to its opcode, its first three operands, and the remaining operands
    in order (followed, for variadic ones, by padding: see C31), consuming exactly its encoding. *)
Theorem C30_roundtrip c i : wf_aop i -> exists o, eats c read_opcode (enc_aop i) o c /\
  let v := view_op i in
  o_op o = o_op v /\ o_p1 o = o_p1 v /\ o_p2 o = o_p2 v /\ o_p3 o = o_p3 v /\
  firstn (length (o_extra v)) (o_extra o) = o_extra v.
Proof.
  intros W. exists (read_op i). split; [now apply eats_read_opcode|]. cbv zeta. unfold read_op.
  destruct (padded i); cbn [o_op o_p1 o_p2 o_p3 o_extra]; repeat split.
  - rewrite firstn_app, firstn_all, Nat.sub_diag. cbn. apply app_nil_r.
  - apply firstn_all.
Qed.
(** Instructions with at most four operands are decoded exactly. *)
Theorem C30_exact c op args : arity op = Some (Some (zlen args)) -> zlen args <= 4 ->
  Forall (fun a => -8192 < a < 8192) args ->
  eats c read_opcode (op :: flat_map enc_index args)
    {| o_op := op; o_p1 := nth_error args 0; o_p2 := nth_error args 1; o_p3 := nth_error args 2; o_extra := skipn 3 args |} c.
Proof.
  intros A L F. pose proof (eats_read_opcode c (IFixed op args)) as H. cbn [wf_aop enc_aop read_op view_op] in H.
  unfold read_op in H. cbn [padded] in H. destruct (Z.ltb_spec 4 (zlen args)); [lia|]. apply H. split; assumption.
Qed.
(** Opcode bytes from 99 on are recorded as errors, so no accepted file contains one (C43). *)
Theorem C30_invalid s b r : d_buf s = b :: r -> 99 <= b ->
  exists o, read_opcode s = (Ok o,
    let e := {| e_kind := InvalidOpcode; e_pos := d_pos s + 1 |} in
    {| d_buf := r; d_pos := d_pos s + 1; d_code := d_code s; errs := Some e; d_log := d_log s ++ [e] |}).
Proof.
  intros E H. exists opcode_default. unfold read_opcode, bind, unwrap. rewrite (u8_at s b r E).
  destruct (Z.leb_spec 99 b); [|lia]. unfold get_pos, record_error, ret, after. cbn [d_buf d_pos d_code errs d_log].
  rewrite E. reflexivity.
Qed.
(** Whatever the input, an instruction read without an error has as many operands as its opcode says. *)
Theorem C30_arity s o s' : bytes (d_buf s) -> read_opcode s = (Ok o, s') -> errs s' = None -> opcode_ok o.
Proof. intros B E N. exact (proj1 (h_read_opcode (fun _ => True) s o s' B I E N)). Qed.
Example C30_ex : wf_aop (IFixed 4 [3; 4]) /\ wf_aop (ICall 29 1 (-300) [5; 6]) /\
  read_opcode (mk (enc_aop (ICall 29 1 300 [5; 6]) ++ [1]) 0 code_new) =
  (Ok {| o_op := 29; o_p1 := Some 1; o_p2 := Some 300; o_p3 := Some 2; o_extra := [5; 6; 0; 0] |}, mk [1] 7 code_new).
Proof.
  split; [|split; [|vm_compute; reflexivity]]; cbn [wf_aop].
  - split; [reflexivity|]. repeat constructor.
  - repeat split; try (unfold small; lia); try (cbn; lia); try (repeat constructor); cbn; auto.
Qed.

(** * C31 *)
(** The stated property is violated: the list of a variadic instruction (and of call3, call4) with at
    least one extra operand has twice the encoded length, zeros following the operands. *)
Theorem C31_refuted c i : wf_aop i -> (match i with IFixed _ args => 5 <= zlen args | _ => True end) ->
  exists o, eats c read_opcode (enc_aop i) o c /\
    o_extra o = o_extra (view_op i) ++ repeat 0 (length (o_extra (view_op i))) /\
    (o_extra (view_op i) <> [] -> o_extra o <> o_extra (view_op i)).
Proof.
  intros W P. exists (read_op i). split; [now apply eats_read_opcode|]. unfold read_op.
  replace (padded i) with true. 2:{ destruct i; cbn; try reflexivity. symmetry. apply Z.ltb_lt. lia. }
  cbn [o_extra]. unfold zrepeat. rewrite to_nat_zlen. split; [reflexivity|].
  intros N E. apply (f_equal (@length Z)) in E. rewrite app_length, repeat_length in E.
  destruct (o_extra (view_op i)); [congruence|cbn in E; lia].
Qed.
(** For instructions with no, or exactly one, fixed extra operand it holds. *)
Theorem C31_fixed_partial c op args : arity op = Some (Some (zlen args)) -> zlen args <= 4 ->
  Forall (fun a => -8192 < a < 8192) args ->
  exists o, eats c read_opcode (op :: flat_map enc_index args) o c /\ o_extra o = skipn 3 args.
Proof. intros A L F. eexists. split; [now apply C30_exact|reflexivity]. Qed.
(** In every accepted module, whatever its bytes, the extra list of a callN-like instruction has
    exactly twice its declared number of operands. *)
Theorem C31_module e0 buf c cell f o : bytes buf -> read_module e0 buf = (Ok c, cell) ->
  In f (c_functions c) -> In o (hf_ops f) -> In (o_op o) variadic_calls ->
  exists n, o_p3 o = Some n /\ zlen (o_extra o) = 2 * n.
Proof.
  intros B E Hf Ho V. unfold read_module in E. destruct (code_read (start e0 buf)) as [r s'] eqn:R. inversion E; subst.
  destruct (accepted_ok e0 buf c s' B R) as [H _]. unfold contents_ok in H. destruct H as (_ & _ & _ & _ & _ & _ & _ & _ & _ & _ & H & _).
  rewrite Forall_forall in H. specialize (H f Hf). unfold function_ok in H. destruct H as (_ & _ & _ & _ & _ & H & _).
  rewrite Forall_forall in H. specialize (H o Ho). unfold opcode_ok in H.
  assert (A : arity (o_op o) = Some None /\ (o_op o =? 70) = false).
  { cbn in V. repeat (destruct V as [<-|V]; [split; vm_compute; reflexivity|]). contradiction. }
  destruct A as [A1 A]. rewrite A1 in H. destruct H as (_ & _ & p & q & n & _ & _ & P3 & L). rewrite A in L. eauto.
Qed.

(** * C32 *)
(** Streams of file switches, small deltas and absolute lines below 256. *)
Theorem C32_roundtrip_partial c rs :
  c_ndebugfiles c < 2 ^ 31 -> Forall (wf_drec (c_ndebugfiles c)) rs -> Forall no_repeat rs -> ends_stored rs ->
  zlen rs < 2 ^ 24 ->
  eats c (debug_infos (zlen (lines rs (-1) 0))) (flat_map enc_drec rs) (pairs (lines rs (-1) 0)) c.
Proof. intros. apply eats_debug_infos; auto. unfold I32_MAX. lia. Qed.

(** Repeats are violated: a table with a repeat record (of count > 0) can never be read back; on exactly
    its bytes the reader never succeeds. *)
Definition stored (rs : list drec) : Z := zlen (filter stores rs).
Lemma unwrap_u8_ok s b s' : unwrap decode_u8 s = (Ok b, s') -> exists r, d_buf s = b :: r /\ d_buf s' = r /\ d_code s' = d_code s.
Proof.
  intros E. apply unwrap_ok in E. destruct (d_buf s) as [|x r] eqn:Q.
  - destruct (u8_none s Q) as [e Q']. congruence.
  - rewrite (u8_at s x r Q) in E. inversion E; subst. exists r. unfold after. cbn. rewrite Q. auto.
Qed.
Lemma i32_add_same x y s z s' : i32_add x y s = (Ok z, s') -> s' = s.
Proof. unfold i32_add. destruct (_ <? _); intros E; inversion E; reflexivity. Qed.
Lemma starved nfiles : forall rs fuel nops i f l dbg s r s', d_buf s = flat_map enc_drec rs -> Forall (wf_drec nfiles) rs ->
  i + stored rs < nops -> debug_loop fuel nops i f l dbg s <> (Ok r, s').
Proof.
  induction rs as [|d rs IH]; intros fuel nops i f l dbg s r s' Eb W Hi E.
  - destruct fuel as [|fuel]; [discriminate|]. cbn [debug_loop] in E. unfold stored in Hi. cbn in Hi.
    destruct (Z.ltb_spec i nops); [|lia]. apply bind_ok in E as (b & s1 & E1 & E).
    apply unwrap_u8_ok in E1 as (q & E1 & _). cbn in Eb. congruence.
  - apply Forall_cons_iff in W. destruct W as [Wd W]. cbn [flat_map] in Eb.
    assert (Hst : stored (d :: rs) = (if stores d then 1 else 0) + stored rs).
    { unfold stored. cbn [filter]. destruct (stores d); rewrite ?zlen_cons; lia. }
    assert (0 <= stored rs) by apply zlen_nonneg. rewrite Hst in Hi.
    destruct fuel as [|fuel]; [discriminate|]. cbn [debug_loop] in E.
    destruct (Z.ltb_spec i nops); [|destruct (stores d); lia].
    apply bind_ok in E as (b & s1 & E1 & E). apply unwrap_u8_ok in E1 as (q & E1 & B1 & _). rewrite E1 in Eb.
    destruct d as [fi|dl n|dl|ln]; cbn [enc_drec wf_drec stores app] in *; inversion Eb; subst b q; clear Eb.
    + assert (0 <= fi / 128 < 256) by (split; [apply Z.div_pos|apply Z.div_lt_upper_bound]; lia).
      assert (B : Z.lor (fi / 128) 1 = 2 * (fi / 256) + 1).
      { rewrite lor1 by lia. rewrite Z.div_div by lia. reflexivity. }
      rewrite B in E.
      assert (0 <= fi / 256 < 128) by (split; [apply Z.div_pos|apply Z.div_lt_upper_bound]; lia).
      rewrite land_lor_odd in E by lia.
      replace ((2 * (fi / 256) + 1) mod 2) with 1 in E by (apply Z.mod_unique with (fi / 256); lia).
      change (1 =? 0) with false in E. cbn [negb] in E.
      apply bind_ok in E as (b2 & s2 & E2 & E). apply unwrap_u8_ok in E2 as (q2 & E2 & B2 & _).
      cbv zeta in E. apply bind_ok in E as (cd & s3 & E3 & E). inversion E3; subst cd s3.
      apply bind_ok in E as (n & s4 & E4 & E).
      assert (s4 = s2) by (unfold to_i32 in E4; destruct (_ <? _); inversion E4; reflexivity). subst s4.
      apply bind_ok in E as (p & s5 & E5 & E). inversion E5; subst p s5.
      apply bind_ok in E as (u & s6 & E6 & E).
      eapply (IH fuel); [|exact W| |exact E]; [|lia].
      assert (d_buf s6 = d_buf s2) by (destruct (_ <=? _) in E6; inversion E6; reflexivity). congruence.
    + destruct (land2_mod4 (dl * 64 + n * 4 + 2)) as [L1 L2]; [lia|symmetry; apply Z.mod_unique with (dl * 16 + n); lia|].
      rewrite L1, L2 in E. cbn [negb] in E. cbv zeta in E.
      apply bind_ok in E as (p & s5 & E5 & E). inversion E5; subst p s5.
      apply bind_ok in E as (u & s6 & E6 & E). apply bind_ok in E as (cl & s7 & E7 & E).
      assert (s7 = s6) by (now apply i32_add_same in E7). subst s7.
      eapply (IH fuel); [|exact W| |exact E]; [|lia].
      assert (d_buf s6 = d_buf s1) by (destruct (_ <? _) in E6; inversion E6; reflexivity). congruence.
    + destruct (land4_mod8 (dl * 8 + 4)) as (L1 & L2 & L3); [lia|symmetry; apply Z.mod_unique with dl; lia|].
      rewrite L1, L2, L3 in E. cbn [negb] in E.
      apply bind_ok in E as (cl & s7 & E7 & E).
      assert (s7 = s1) by (now apply i32_add_same in E7). subst s7.
      apply bind_ok in E as (db & s8 & E8 & E).
      eapply (IH fuel); [|exact W| |exact E]; [|lia].
      unfold debug_store in E8. apply bind_ok in E8 as (d1 & s9 & E9 & E8). apply expect_ok in E9 as [_ ->].
      apply expect_ok in E8 as [_ ->]. congruence.
    + pose proof (Z.mod_pos_bound (ln * 8) 256 ltac:(lia)).
      destruct (land0_mod8 (ln * 8 mod 256)) as (L1 & L2 & L3); [lia| |].
      { change 256 with (32 * 8). rewrite Z.mul_mod_distr_r by lia. apply Z.mod_mul. lia. }
      rewrite L1, L2, L3 in E. cbn [negb] in E.
      apply bind_ok in E as (b2 & s2 & E2 & E). apply unwrap_u8_ok in E2 as (q2 & E2 & B2 & _).
      apply bind_ok in E as (b3 & s3 & E3 & E). apply unwrap_u8_ok in E3 as (q3 & E3 & B3 & _).
      cbv zeta in E. apply bind_ok in E as (db & s8 & E8 & E).
      eapply (IH fuel); [|exact W| |exact E]; [|lia].
      unfold debug_store in E8. apply bind_ok in E8 as (d1 & s9 & E9 & E8). apply expect_ok in E9 as [_ ->].
      apply expect_ok in E8 as [_ ->]. congruence.
Qed.
Lemma stored_lines nfiles rs : forall f l, Forall (wf_drec nfiles) rs -> stored rs <= zlen (lines rs f l) /\
  (Exists (fun r => match r with DRepeat _ n => 0 < n | _ => False end) rs -> stored rs < zlen (lines rs f l)).
Proof.
  induction rs as [|r rs IH]; intros f l W.
  - split; [cbn; lia|]. intros X; inversion X.
  - apply Forall_cons_iff in W. destruct W as [Wr W]. unfold stored in *. cbn [filter].
    destruct r as [fi|d n|d|ln]; cbn [stores lines wf_drec] in *.
    + destruct (IH fi l W) as [H1 H2]. split; [exact H1|]. intros X. inversion X; subst; [contradiction|auto].
    + destruct (IH f (l + d) W) as [H1 H2]. rewrite zlen_app.
      assert (Rl : zlen (repeat (f, l) (Z.to_nat n)) = n) by (unfold zlen; rewrite repeat_length; lia). rewrite Rl.
      split; [lia|]. intros X. inversion X; subst; [lia|]. specialize (H2 ltac:(assumption)). lia.
    + destruct (IH f (l + d) W) as [H1 H2]. rewrite !zlen_cons. split; [lia|]. intros X. inversion X; subst; [contradiction|].
      specialize (H2 ltac:(assumption)). lia.
    + destruct (IH f ln W) as [H1 H2]. rewrite !zlen_cons. split; [lia|]. intros X. inversion X; subst; [contradiction|].
      specialize (H2 ltac:(assumption)). lia.
Qed.
Theorem C32_repeat_refuted c rs : Forall (wf_drec (c_ndebugfiles c)) rs ->
  Exists (fun r => match r with DRepeat _ n => 0 < n | _ => False end) rs ->
  forall p out s', debug_infos (zlen (lines rs (-1) 0)) (mk (flat_map enc_drec rs) p c) <> (Ok out, s').
Proof.
  intros W X p out s' E. unfold debug_infos in E.
  eapply (starved (c_ndebugfiles c) rs) in E; [contradiction|reflexivity|exact W|].
  destruct (stored_lines _ rs (-1) 0 W) as [_ H]. specialize (H X). lia.
Qed.
(** Absolute lines from 256 on are violated: the line is cut to eight bits. *)
Theorem C32_line_refuted c l : 256 <= l < 2 ^ 21 ->
  exists w, 0 <= w < 256 /\ eats c (debug_infos 1) (enc_drec (DLine l)) [-1; w] c.
Proof.
  intros H. change (2 ^ 21) with 2097152 in H.
  set (w := Z.lor (Z.lor (Z.shiftr (l * 8 mod 256) 3) (Z.shiftl (l / 32 mod 256) 5 mod 256)) (l / 8192)).
  exists w. pose proof (Z.mod_pos_bound (l * 8) 256 ltac:(lia)) as M1.
  pose proof (Z.mod_pos_bound (Z.shiftl (l / 32 mod 256) 5) 256 ltac:(lia)) as M2. split.
  { unfold w. apply lor_byte; [apply lor_byte|]; [apply shiftr_byte; lia|lia|].
    split; [apply Z.div_pos|apply Z.div_lt_upper_bound]; lia. }
  intros p rest. unfold debug_infos.
  destruct (land0_mod8 (l * 8 mod 256)) as (L1 & L2 & L3); [lia| |].
  { change 256 with (32 * 8). rewrite Z.mul_mod_distr_r by lia. apply Z.mod_mul. lia. }
  cbn [enc_drec]. change ([?a; ?b; ?d] ++ ?r) with (a :: b :: d :: r).
  cbn [d_buf mk length]. cbn [debug_loop]. change (0 <? 1) with true. cbv iota.
  assert (R : forall q b t (k : Z -> M (list Z)), bind (unwrap decode_u8) k (mk (b :: t) q c) = k b (mk t (q + 1) c)).
  { intros q b t k. unfold bind. pose proof (eats_unwrap c _ _ _ _ (eats_u8 c b) q t) as Q. cbn [app] in Q. rewrite Q. reflexivity. }
  rewrite R, L1, L2, L3. cbn [negb]. rewrite !R. cbv zeta. fold w.
  change (zrepeat 0 (2 * 1)) with [0; 0]. unfold bind. cbn [debug_store expect ret bind].
  change (0 + 1 <? 1) with false. cbv iota. unfold ret. change (debug_store [0; 0] 0 (-1) w (mk rest (p + 1 + 1 + 1) c)) with (@Ok derr _ [-1; w], mk rest (p + 1 + 1 + 1) c). cbv iota. unfold zlen. cbn [length]. f_equal. f_equal. lia.
Qed.
Example C32_ex :
  let rs := [DFile 300; DDelta 3; DLine 200; DRepeat 2 0; DDelta 0] in
  let c := set_ndebugfiles 400 code_new in
  Forall (wf_drec 400) rs /\ Forall no_repeat rs /\ ends_stored rs /\ lines rs (-1) 0 = [(300, 3); (300, 200); (300, 202)] /\
  debug_infos 3 (mk (flat_map enc_drec rs ++ [9]) 0 c) = (Ok [300; 3; 300; 200; 300; 202], mk [9] 8 c) /\
  fst (debug_infos 3 (mk (flat_map enc_drec [DDelta 3; DRepeat 1 2]) 0 c)) = Panic PUnwrap /\
  fst (debug_infos 1 (mk (flat_map enc_drec [DLine 300]) 0 c)) = Ok [-1; 44].
Proof.
  split; [repeat constructor; lia|]. split; [repeat constructor; cbn; lia|].
  split; [right; exists [DFile 300; DDelta 3; DLine 200; DRepeat 2 0], (DDelta 0); split; reflexivity|].
  repeat split; vm_compute; reflexivity.
Qed.

(** * C33 *)
(** The debug reader never runs out of the recursion bound of the model, i.e. it terminates. *)
Theorem C33_terminates nops s : bytes (d_buf s) -> fst (debug_infos nops s) <> Panic PFuel.
Proof. intros B. apply (g_nofuel _ _ (good_debug_infos false nops) eq_refl s B). Qed.
Lemma zset_len {A} (l : list A) : forall i x l', zset l i x = Some l' -> zlen l' = zlen l.
Proof.
  induction l as [|y l IH]; intros i x l' E; cbn [zset] in E; [discriminate|].
  destruct (i =? 0); [inversion E; subst; rewrite !zlen_cons; reflexivity|].
  destruct (zset l (i - 1) x) as [l1|] eqn:E1; inversion E; subst. rewrite !zlen_cons. apply IH in E1. lia.
Qed.
Lemma debug_loop_len : forall fuel nops i f l dbg s out s',
  debug_loop fuel nops i f l dbg s = (Ok out, s') -> zlen out = zlen dbg.
Proof.
  induction fuel as [|fuel IH]; intros nops i f l dbg s out s' E; cbn [debug_loop] in E; [discriminate|].
  assert (St : forall j ff ll s1 d s2, debug_store dbg j ff ll s1 = (Ok d, s2) -> zlen d = zlen dbg).
  { intros j ff ll s1 d s2 E1. unfold debug_store in E1. apply bind_ok in E1 as (d1 & s3 & E2 & E1).
    apply expect_ok in E2 as [E2 ->]. apply expect_ok in E1 as [E1 ->]. apply zset_len in E1, E2. lia. }
  destruct (i <? nops); [|inversion E; subst; reflexivity].
  apply bind_ok in E as (b & s1 & _ & E). destruct (negb _); [|destruct (negb _); [|destruct (negb _)]].
  - do 5 (apply bind_ok in E as (? & ? & _ & E)). eapply IH; eauto.
  - cbv zeta in E. do 3 (apply bind_ok in E as (? & ? & _ & E)). eapply IH; eauto.
  - apply bind_ok in E as (? & ? & _ & E). apply bind_ok in E as (d & ? & E1 & E). apply St in E1. apply IH in E. lia.
  - do 2 (apply bind_ok in E as (? & ? & _ & E)). cbv zeta in E.
    apply bind_ok in E as (d & ? & E1 & E). apply St in E1. apply IH in E. lia.
Qed.
Theorem C33_length nops s out s' : 0 <= nops -> debug_infos nops s = (Ok out, s') -> zlen out = 2 * nops.
Proof. intros H E. apply debug_loop_len in E. rewrite E, zlen_repeat; lia. Qed.
Example C33_ex : exists s', debug_infos 2 (mk [4; 12; 7] 0 code_new) = (Ok [-1; 0; -1; 1], s').
Proof. eexists. vm_compute. reflexivity. Qed.

(** * C34 *)
(** A type entry, read in a module whose first types are [ts] (as many default entries follow), decodes
    to the type it denotes, consuming exactly its encoding. *)
Theorem C34_entry c ts t :
  c_nstrings c = zlen (c_strings c) -> zlen (c_strings c) < 8192 -> c_ntypes c < 8192 ->
  c_types c = ts ++ zrepeat vt_default (c_ntypes c) -> zlen ts <= c_ntypes c ->
  c_ustrings c = zrepeat None (c_nstrings c) ->                    (* no name looked up yet *)
  wf_atype (zlen (c_strings c)) (c_ntypes c) t -> increasing_first_use [] (names_of t) ->
  exists u, eats c read_type (enc_atype t) (view_type (c_strings c) ts t) (set_ustrings u c).
Proof.
  intros H1 H2 H3 H4 H5 H6 W I. pose proof (zlen_nonneg (c_strings c)). pose proof (zlen_nonneg ts).
  exists (cache (c_strings c) (names_of t) (c_ustrings c)).
  pose proof (eats_read_type (c_strings c) ts (c_ntypes c) c) as E.
  rewrite <- (set_ustrings_id c) at 1. apply E; auto.
  - split; auto; unfold usmall; lia.
  - rewrite H6, H1. apply cache_ok_init; [apply W|exact I].
Qed.
(** A whole table of entries, in file order. *)
Theorem C34_table c0 c ats :
  c_nstrings c = zlen (c_strings c) -> zlen (c_strings c) < 8192 ->
  c_ntypes c = zlen ats -> zlen ats < 8192 -> c_ustrings c = zrepeat None (c_nstrings c) ->
  Forall (wf_atype (zlen (c_strings c)) (zlen ats)) ats -> increasing_first_use [] (flat_map names_of ats) ->
  exists c' d', eats c0 (read_types c) (flat_map enc_atype ats) c' d' /\
    firstn (length ats) (c_types c') = view_types (c_strings c) ats.
Proof.
  intros H1 H2 H3 H4 H6 W I. pose proof (zlen_nonneg (c_strings c)). pose proof (zlen_nonneg ats).
  eexists _, _. split.
  - eapply (eats_read_types (c_strings c) ats c0 c); auto; try (unfold usmall; lia).
    rewrite H6, H1. apply cache_ok_init; [|exact I].
    apply Forall_flat_map. eapply Forall_impl; [|exact W]. intros a Wa. apply Wa.
  - cbn [c_types set_types]. pose proof (view_types_len (c_strings c) ats) as L. unfold zlen in L.
    replace (length ats) with (length (view_types (c_strings c) ats)) by lia.
    rewrite firstn_app, firstn_all, Nat.sub_diag, firstn_O. apply app_nil_r.
Qed.
(** Names and types used by the examples: strings "a","b","c"; one type i32 already read. *)
Definition ex_code : code :=
  set_ustrings [None; None; None] (set_types [VT UNull None None HI32; vt_default; vt_default; vt_default]
    (set_ntypes 3 (set_strings [[97]; [98]; [99]] (set_nstrings 3 code_new)))).
Example C34_ex : let t := AObj false 0 (Some 0) 1 [(1, 0); (2, 0)] [(2, 5, -1)] [(0, 7)] in
  wf_atype 3 3 t /\ increasing_first_use [] (names_of t) /\
  fst (read_type (mk (enc_atype t) 0 ex_code)) = Ok (
    let i32 := VT UNull None None HI32 in
    VT (ObjType [97] i32 [mkField [98] (crc32 [98]) i32; mkField [99] (crc32 [99]) i32] 2 1 1
       [mkProto [99] (crc32 [99]) 5 (-1)] [0; 7] [1] None) None None HOBJ).
Proof.
  split; [|split; [|vm_compute; reflexivity]].
  - repeat split; cbn; repeat constructor; unfold usmall, small; cbn; lia.
  - cbn. repeat split; auto; try (right; repeat constructor; lia).
Qed.

(** * C35 *)
(** In a table, an entry all of whose references are to earlier entries denotes the type built from the
    types its references have in the final table. *)
Lemma view_types_app ss a b : exists c, view_types ss (a ++ b) = view_types ss a ++ c.
Proof.
  revert a. induction b as [|t b IH] using rev_ind; intros a; [exists []; now rewrite !app_nil_r|].
  destruct (IH a) as [c E]. rewrite app_assoc, view_types_snoc, E. eexists. now rewrite <- app_assoc.
Qed.
Lemma ty_app ts us k : 0 <= k < zlen ts -> ty (ts ++ us) k = ty ts k.
Proof. intros H. unfold ty. rewrite app_nth1; [reflexivity|]. unfold zlen in H. lia. Qed.
Lemma view_type_ext ss ts us t : Forall (fun k => ty ts k = ty us k) (refs_of t) -> view_type ss ts t = view_type ss us t.
Proof.
  intros F. destruct t as [k|m args r|st n sup g fs ps bs|fs|n|n g cs|k t]; cbn [view_type refs_of] in *; auto.
  - apply Forall_app in F. destruct F as [F1 F2]. apply Forall_cons_iff in F2. destruct F2 as [F2 _]. rewrite F2.
    do 2 f_equal. apply map_ext_in. rewrite Forall_forall in F1. auto.
  - apply Forall_app in F. destruct F as [F1 F2].
    assert (S : match sup with Some k => ty ts k | None => vt_default end = match sup with Some k => ty us k | None => vt_default end).
    { destruct sup; [|reflexivity]. apply Forall_cons_iff in F1. apply F1. }
    rewrite S. do 2 f_equal. apply map_ext_in. intros f Hf. unfold view_field. rewrite Forall_forall in F2.
    now rewrite F2 by (apply in_map; exact Hf).
  - do 2 f_equal. apply map_ext_in. intros f Hf. unfold view_field. rewrite Forall_forall in F.
    now rewrite F by (apply in_map; exact Hf).
  - do 2 f_equal. apply map_ext_in. intros c Hc. f_equal. apply map_ext_in. intros k Hk.
    rewrite Forall_forall in F. apply F. apply in_flat_map. eauto.
  - apply Forall_cons_iff in F. destruct F as [F _]. now rewrite F.
Qed.
Theorem C35_backward_partial ss ats i a : znth ats i = Some a -> Forall (fun k => 0 <= k < i) (refs_of a) ->
  znth (view_types ss ats) i = Some (view_type ss (view_types ss ats) a).
Proof.
  intros H F. pose proof (znth_some_range _ _ _ H) as R.
  assert (S : exists p q, ats = p ++ a :: q /\ zlen p = i).
  { rewrite znth_nth_error in H by lia. apply nth_error_split in H as (p & q & -> & L). exists p, q. split; [auto|unfold zlen; lia]. }
  destruct S as (p & q & -> & L). destruct (view_types_app ss (p ++ [a]) q) as [c E].
  rewrite <- app_assoc in E. cbn [app] in E. rewrite E, view_types_snoc.
  rewrite <- app_assoc. pose proof (view_types_len ss p) as Lp.
  rewrite znth_app_r by lia. replace (i - zlen (view_types ss p)) with 0 by lia. cbn [app znth Z.eqb]. f_equal.
  apply view_type_ext. eapply Forall_impl; [|exact F]. intros k Hk. cbv beta in *. symmetry. apply ty_app. lia.
Qed.
(** Violated for the entry itself and for later ones: the reference denotes the default type (kind null),
    whatever the later entry is. *)
Theorem C35_forward_refuted ss p k q : zlen p <= k ->
  znth (view_types ss (p ++ AParam HREF k :: q)) (zlen p) = Some (VT UNull None (Some vt_default) HREF).
Proof.
  intros H. destruct (view_types_app ss (p ++ [AParam HREF k]) q) as [c E].
  rewrite <- app_assoc in E. cbn [app] in E. rewrite E, view_types_snoc, <- app_assoc.
  pose proof (view_types_len ss p) as Lp. pose proof (zlen_nonneg p).
  rewrite znth_app_r by lia. replace (zlen p - zlen (view_types ss p)) with 0 by lia. cbn [app znth Z.eqb view_type].
  unfold ty. rewrite nth_overflow; [reflexivity|]. unfold zlen in *. lia.
Qed.
(** The tables these two theorems speak of are what the reader returns: C34_table, C37.  An example:
    entry 0 refers to entry 1, which is i32, but denotes a reference to the default type. *)
Example C35_ex :
  let ats := [AParam HREF 1; APrim HI32; AParam HREF 1] in
  let c := set_ntypes 3 code_new in
  exists c' s', read_types c (mk (flat_map enc_atype ats) 0 c) = (Ok c', s') /\
    firstn 3 (c_types c') = [VT UNull None (Some vt_default) HREF; VT UNull None None HI32;
                             VT UNull None (Some (VT UNull None None HI32)) HREF].
Proof. eexists _, _. split; vm_compute; reflexivity. Qed.

(** * C36 *)
(** Looking up a sequence of names. *)
Fixpoint lookups (ns : list Z) : M (list str) :=
  match ns with
  | [] => ret []
  | _ :: r => x <- read_ustring ;; l <- lookups r ;; ret (x :: l)
  end.
Lemma eats_lookups ss : forall ns c, c_strings c = ss -> c_nstrings c = zlen ss -> usmall (zlen ss) ->
  cache_ok ss (c_ustrings c) ns ->
  exists c', eats c (lookups ns) (flat_map enc_index ns) (map (nm ss) ns) c'.
Proof.
  induction ns as [|n ns IH]; intros c E1 E2 E3 K.
  - exists c. apply eats_ret.
  - cbn [cache_ok] in K. destruct K as (K1 & K2 & K3). cbn [lookups flat_map map].
    destruct (IH (set_ustrings (cache1 ss (c_ustrings c) n) c)) as [c' E]; auto.
    exists c'. pose proof (eats_read_ustring c n) as R. rewrite E1, E2 in R.
    eapply eats_bind; [apply R; auto; repeat split; auto; tauto|].
    eapply eats_bind_last; [exact E|]. apply eats_ret.
Qed.
(** While first uses come in increasing order, every lookup finds the string at its index. *)
Theorem C36_increasing_partial c ns :
  c_nstrings c = zlen (c_strings c) -> zlen (c_strings c) < 8192 -> c_ustrings c = zrepeat None (c_nstrings c) ->
  Forall (fun n => 0 <= n < zlen (c_strings c)) ns -> increasing_first_use [] ns ->
  exists c', eats c (lookups ns) (flat_map enc_index ns) (map (fun n => nth (Z.to_nat n) (c_strings c) []) ns) c'.
Proof.
  intros H1 H2 H3 F I. pose proof (zlen_nonneg (c_strings c)).
  apply (eats_lookups (c_strings c)); auto; [unfold usmall; lia|].
  rewrite H3, H1. apply cache_ok_init; auto.
Qed.
(** Violated otherwise: after looking up name i and then an earlier name j, name i + 1 denotes string i. *)
Lemma lookup_hit c n x : c_nstrings c <= I32_MAX -> 0 <= n < c_nstrings c -> n < 8192 ->
  znth (c_ustrings c) n = Some (Some x) -> eats c read_ustring (enc_index n) x c.
Proof.
  intros H1 H2 H3 H4. unfold read_ustring.
  eapply eats_bind_last. { apply eats_unwrap, eats_INDEX. unfold small. lia. }
  eapply eats_bind_nil; [apply eats_get_code|].
  eapply eats_bind_nil. { apply eats_to_i32. lia. }
  destruct (Z.ltb_spec n 0), (Z.leb_spec (c_nstrings c) n); try lia. cbn [orb].
  eapply eats_bind_nil. { unfold get_ustring. rewrite H4. apply eats_lift. }
  cbn [fst snd]. eapply eats_bind_nil; [apply eats_put_code|]. apply eats_ret.
Qed.
Theorem C36_order_refuted c i j :
  c_nstrings c = zlen (c_strings c) -> zlen (c_strings c) < 8192 -> c_ustrings c = zrepeat None (c_nstrings c) ->
  0 <= j < i -> i + 1 < zlen (c_strings c) ->
  let str n := nth (Z.to_nat n) (c_strings c) [] in
  exists c', eats c (lookups [i; j; i + 1]) (flat_map enc_index [i; j; i + 1]) [str i; str j; str i] c'.
Proof.
  intros H1 H2 H3 Hj Hi. cbv zeta. set (ss := c_strings c) in *. set (N := zlen ss) in *.
  assert (Hn : zlen (c_ustrings c) = N) by (rewrite H3, zlen_repeat; lia).
  assert (None_at : forall n, 0 <= n < N -> znth (c_ustrings c) n = Some None).
  { intros n Hn'. rewrite H3. apply znth_repeat. lia. }
  (* first lookup *)
  pose proof (eats_read_ustring c i) as L1. fold ss N in L1.
  destruct (zinsert_some (c_ustrings c) i (Some (nm ss i))) as [u1 U1]; [lia|].
  assert (Q1 : cache1 ss (c_ustrings c) i = u1) by (unfold cache1; rewrite None_at, U1 by lia; reflexivity).
  rewrite Q1 in L1. set (c1 := set_ustrings u1 c) in *.
  assert (Z1 : forall n, 0 <= n -> znth u1 n = if n <? i then znth (c_ustrings c) n else if n =? i then Some (Some (nm ss i)) else znth (c_ustrings c) (n - 1)).
  { intros n Hn'. apply (znth_insert _ _ _ _ _ U1); lia. }
  (* second *)
  pose proof (eats_read_ustring c1 j) as L2. change (c_strings c1) with ss in L2. change (c_nstrings c1) with (c_nstrings c) in L2.
  change (c_ustrings c1) with u1 in L2. fold N in L2.
  destruct (zinsert_some u1 j (Some (nm ss j))) as [u2 U2]; [apply zinsert_len in U1; lia|].
  assert (J1 : znth u1 j = Some None).
  { rewrite Z1 by lia. destruct (Z.ltb_spec j i); [|lia]. apply None_at. lia. }
  assert (Q2 : cache1 ss u1 j = u2) by (unfold cache1; rewrite J1, U2; reflexivity).
  rewrite Q2 in L2. set (c2 := set_ustrings u2 c1) in *.
  (* third *)
  assert (Z2 : znth u2 (i + 1) = Some (Some (nm ss i))).
  { rewrite (znth_insert _ _ _ _ _ U2) by lia. destruct (Z.ltb_spec (i + 1) j); [lia|].
    destruct (Z.eqb_spec (i + 1) j); [lia|]. replace (i + 1 - 1) with i by lia. rewrite Z1 by lia.
    destruct (Z.ltb_spec i i); [lia|]. rewrite Z.eqb_refl. reflexivity. }
  exists c2. cbn [lookups flat_map].
  eapply eats_bind; [apply L1; unfold usmall; try lia; cbn [cache_ok]; repeat split; try lia; left; apply None_at; lia|].
  eapply eats_bind_last; [|apply eats_ret].
  eapply eats_bind; [apply L2; unfold usmall; try lia; cbn [cache_ok]; repeat split; try lia; left; exact J1|].
  eapply eats_bind_last; [|apply eats_ret].
  eapply eats_bind; [apply lookup_hit with (x := nm ss i); try exact Z2|].
  - cbn. unfold I32_MAX. lia.
  - cbn. lia.
  - lia.
  - eapply eats_bind_nil; apply eats_ret.
Qed.
Example C36_ex : increasing_first_use [] [0; 2; 0; 2] /\
  fst (lookups [0; 2; 0; 2] (mk [0; 2; 0; 2] 0 ex_code)) = Ok [[97]; [99]; [97]; [99]] /\
  fst (lookups [1; 0; 2] (mk [1; 0; 2] 0 ex_code)) = Ok [[98]; [97]; [98]].
Proof. split; [|split; vm_compute; reflexivity]. cbn. repeat split; auto; right; repeat constructor; lia. Qed.
