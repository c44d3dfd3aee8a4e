(** Sharp forms of properties that the code meets only in part: each theorem says exactly when the
    property holds (C17, C25, C28, C31, C32, C35, C45).  Vocabulary: ImmixSpec.v, FormatSpec.v,
    ReaderSpec.v, GrammarSpec.v. *)
From Verif Require Import Prelude StdModel BrassTypes DecoderModel CodeModel FormatSpec ReaderSpec AcceptSpec GrammarSpec.
From Verif Require ImmixModel ImmixSpec ImmixBlockProofs PropsImmix.
From Verif Require Import CodeGenericProofs FormatProofs StringsProofs TypesProofs OpsProofs ModuleProofs ReaderPost
  PropsDecoder PropsReader HashAlloc GrammarNames PropsModule PropsGrammar.
From Verif Require Import ReaderTables.
From Coq Require Import Lia ZifyBool.

(** * C17 *)
Section Recycled.
Import ImmixModel ImmixSpec ImmixBlockProofs PropsImmix.
(** A recycled block keeps its first 16 bytes through every sequence of requests exactly when line 0 is
    marked or the search starts beyond line 0. *)
Theorem C17_iff b : recycled b ->
  ((forall sizes rs b', Forall (fun n => 0 < n < 2 ^ 63) sizes -> serve b sizes = (rs, b') ->
      Forall (fun '(a, e) => base b + 16 <= a) (ranges sizes rs)) <->
   znth (marks b) 0 = Some true \/ 128 <= bb_cursor b).
Proof.
  intros R. split.
  - intros H. destruct (Z_lt_dec (bb_cursor b) 128) as [Hc|]; [left|right; lia]. destruct R as (R1 & R2 & R3).
    destruct (znth (marks b) 0) as [[]|] eqn:E0; [reflexivity| |].
    + exfalso. pose proof (C17_line0_unmarked_refuted b 16 (conj R1 (conj R2 R3)) Hc E0 ltac:(lia)) as Q.
      destruct (inner_alloc b 16) as [r b1] eqn:E. cbn [fst] in Q. subst r. specialize (H [16] [Ok (Some (base b))] b1).
      assert (F : Forall (fun '(a, e) => base b + 16 <= a) (ranges [16] [@Ok alloc_error _ (Some (base b))])) by (apply H; [repeat constructor; lia|cbn [serve]; now rewrite E]).
      cbn in F. inversion F; subst. lia.
    + exfalso. revert E0. unfold znth, marks. unfold zlen in R3. destruct (line_mark (bb_meta b)); [cbn in R3; lia|]. cbn. discriminate.
  - intros [H|H] sizes rs b' F S; [now apply (C17_line0_marked_partial b sizes rs b')|].
    destruct R as (R1 & R2 & R3). assert (W : bwf b) by (split; [exact R3|lia|lia|left; exact R1]).
    destruct (serve_spec sizes b W F) as (rs' & b'' & S' & _ & _ & _ & _ & Inc & _). rewrite S in S'. injection S' as <- <-.
    change (base_of b) with (base b) in Inc.
    assert (Fl : 16 <= floor_of b). { unfold floor_of. destruct (Z.ltb_spec (bb_limit b) 128); [lia|]. rewrite Bool.andb_false_r. lia. }
    revert Inc. generalize (ranges sizes rs). intros l. assert (G : forall x, base b + 16 <= x -> increasing x l -> Forall (fun '(a, e) => base b + 16 <= a) l).
    { induction l as [|[a e] l IH]; intros x Hx Hi; [constructor|]. cbn in Hi. constructor; [lia|]. apply (IH e); [lia|tauto]. }
    apply G. lia.
Qed.
Example C17_iff_ex : recycled (ex_block (false :: true :: repeat false 254) 256) /\ znth (marks (ex_block (false :: true :: repeat false 254) 256)) 0 = Some false /\
  fst (serve (ex_block (false :: true :: repeat false 254) 256) [100]) = [Ok (Some (65536 + 384))].
Proof. split; [unfold recycled; cbn; lia|]. split; vm_compute; reflexivity. Qed.
End Recycled.

(** * C25 *)
(** An index written in the format is read back exactly when it takes one or two bytes. *)
Theorem C25_iff c v : Z.abs v < 2 ^ 29 -> (eats c read_index (enc_index v) v c <-> -8192 < v < 8192).
Proof.
  intros H. split; [|apply C25_short_partial]. intros E. destruct (Z_lt_dec (Z.abs v) 8192); [lia|exfalso].
  destruct (C25_long_refuted c v ltac:(lia)) as (w & N & W). specialize (E 0 []). specialize (W 0 []). congruence.
Qed.

(** * C28 *)
(** A table of well-formed strings is read back exactly when all of them are shorter than 8192 bytes. *)
Theorem C28_iff c (ss : list str) lens :
  Forall (fun s : str => utf8 s /\ zlen s < 2 ^ 29) ss -> zlen (flat_map (fun s : str => s ++ [0]) ss) < 2 ^ 31 ->
  (eats c (read_strings (zlen ss) lens) (enc_strings ss) (ss, lens ++ map zlen ss) c <-> Forall (fun s : str => zlen s < 8192) ss).
Proof.
  intros F L. split.
  - intros E. specialize (E 0 []). rewrite Forall_forall. intros s Hs. destruct (Z_lt_dec (zlen s) 8192); [assumption|exfalso].
    apply (C28_long_refuted c ss lens 0 [] _ _) in E; [apply E; reflexivity| |exact L|].
    + eapply Forall_impl; [|exact F]. intros a Ha; exact (proj2 Ha).
    + apply Exists_exists. exists s. split; [exact Hs|lia].
  - intros Q. apply C28_roundtrip_partial; [|exact L]. rewrite Forall_forall in *. intros s Hs. split; [apply (F s Hs)|apply (Q s Hs)].
Qed.

(** * C31 *)
(** The operand list of an instruction is read back exactly when it has no extra operand, or is one of
    the instructions with a fixed number of operands, at most 4. *)
Theorem C31_iff c i : wf_aop i ->
  ((exists o, eats c read_opcode (enc_aop i) o c /\ o_extra o = o_extra (view_op i)) <->
   o_extra (view_op i) = [] \/ exists op args, i = IFixed op args /\ zlen args <= 4).
Proof.
  intros W. split.
  - intros (o & E & X). destruct i as [op args|op p1 p2 xs|r offs e].
    + destruct (Z_le_dec (zlen args) 4) as [H|H]; [right; eauto|]. left.
      destruct (C31_refuted c (IFixed op args) W ltac:(cbn; lia)) as (o' & E' & X' & N). specialize (E 0 []). specialize (E' 0 []).
      assert (o' = o) by congruence. subst o'. destruct (o_extra (view_op (IFixed op args))) eqn:Q; [reflexivity|]. exfalso. apply N; [discriminate|exact X].
    + left. destruct (C31_refuted c (ICall op p1 p2 xs) W I) as (o' & E' & X' & N). specialize (E 0 []). specialize (E' 0 []).
      assert (o' = o) by congruence. subst o'. destruct (o_extra (view_op (ICall op p1 p2 xs))) eqn:Q; [reflexivity|]. exfalso. apply N; [discriminate|exact X].
    + left. destruct (C31_refuted c (ISwitch r offs e) W I) as (o' & E' & X' & N). specialize (E 0 []). specialize (E' 0 []).
      assert (o' = o) by congruence. subst o'. destruct (o_extra (view_op (ISwitch r offs e))) eqn:Q; [reflexivity|]. exfalso. apply N; [discriminate|exact X].
  - intros H. exists (read_op i). split; [now apply eats_read_opcode|]. unfold read_op. destruct (padded i) eqn:P; [|reflexivity]. cbn [o_extra].
    destruct H as [H|(op & args & -> & H)]; [now rewrite H|]. cbn [padded] in P. lia.
Qed.

(** * C32 *)
(** Entries of the debug table already written stay. *)
Lemma debug_store_at dbg j f l s d s' : debug_store dbg j f l s = (Ok d, s') ->
  s' = s /\ znth d (2 * j + 1) = Some l /\ forall k, k < 2 * j -> znth d k = znth dbg k.
Proof.
  intros E. unfold debug_store in E. apply bind_ok in E as (d1 & s3 & E2 & E). apply expect_ok in E2 as [E2 ->]. apply expect_ok in E as [E ->].
  apply zset_get in E as (_ & _ & G). apply zset_get in E2 as (_ & _ & G2). split; [reflexivity|]. split.
  - rewrite G, Z.eqb_refl. reflexivity.
  - intros k H. rewrite G, G2. destruct (Z.eqb_spec k (2 * j + 1)); [lia|]. destruct (Z.eqb_spec k (2 * j)); [lia|reflexivity].
Qed.
Lemma debug_keeps : forall fuel nops i f l dbg s out s', debug_loop fuel nops i f l dbg s = (Ok out, s') -> forall k, k < 2 * i -> znth out k = znth dbg k.
Proof.
  induction fuel as [|fuel IH]; intros nops i f l dbg s out s' E k H; cbn [debug_loop] in E; [discriminate|].
  destruct (i <? nops); [|inversion E; subst; reflexivity].
  apply bind_ok in E as (b & s1 & _ & E). destruct (negb _); [|destruct (negb _); [|destruct (negb _)]].
  - do 5 (apply bind_ok in E as (? & ? & _ & E)). eapply IH; eauto.
  - cbv zeta in E. do 3 (apply bind_ok in E as (? & ? & _ & E)). eapply IH; eauto.
  - apply bind_ok in E as (? & ? & _ & E). apply bind_ok in E as (d & ? & E1 & E). apply debug_store_at in E1 as (_ & _ & E1). rewrite (IH _ _ _ _ _ _ _ _ E k ltac:(lia)). now apply E1.
  - do 2 (apply bind_ok in E as (? & ? & _ & E)). cbv zeta in E.
    apply bind_ok in E as (d & ? & E1 & E). apply debug_store_at in E1 as (_ & _ & E1). rewrite (IH _ _ _ _ _ _ _ _ E k ltac:(lia)). now apply E1.
Qed.
Definition big_line (r : drec) : Prop := match r with DLine l => 256 <= l | _ => False end.
Lemma byte_of s b s' : bytes (d_buf s) -> unwrap decode_u8 s = (Ok b, s') -> 0 <= b < 256 /\ bytes (d_buf s').
Proof. intros B E. apply unwrap_u8_ok in E as (r & E & E' & _). rewrite E in B. unfold bytes in *. apply Forall_cons_iff in B. rewrite E'. exact B. Qed.
Lemma cut_line nfiles : forall rs fuel nops i f l f' l' dbg s out s', d_buf s = flat_map enc_drec rs -> bytes (d_buf s) -> Forall (wf_drec nfiles) rs ->
  Forall (fun r => match r with DRepeat _ n => n = 0 | _ => True end) rs -> 0 <= i -> i + stored rs = nops -> Exists big_line rs ->
  debug_loop fuel nops i f l dbg s = (Ok out, s') ->
  exists j w fl ln, i <= j /\ znth out (2 * j + 1) = Some w /\ w < 256 /\ znth (lines rs f' l') (j - i) = Some (fl, ln) /\ 256 <= ln.
Proof.
  induction rs as [|d rs IH]; intros fuel nops i f l f' l' dbg s out s' Eb By W N I0 Hi X E; [inversion X|].
  apply Forall_cons_iff in W. destruct W as [Wd W]. apply Forall_cons_iff in N. destruct N as [Nd N]. cbn [flat_map] in Eb.
  assert (Hst : stored (d :: rs) = (if stores d then 1 else 0) + stored rs).
  { unfold stored. cbn [filter]. destruct (stores d); rewrite ?zlen_cons; lia. }
  assert (S0 : 0 <= stored rs) by apply zlen_nonneg. rewrite Hst in Hi.
  assert (Lt : i < nops).
  { destruct (stores d) eqn:Sd; [lia|]. assert (Exists big_line rs) by (inversion X; subst; [destruct d; cbn in *; try discriminate; contradiction|assumption]).
    assert (0 < stored rs); [|lia]. clear - H. unfold stored. induction H as [r rs H|r rs H IH]; cbn [filter].
    - destruct r; cbn [big_line] in H; try contradiction. cbn [stores]. rewrite zlen_cons. pose proof (zlen_nonneg (filter stores rs)). lia.
    - destruct (stores r); rewrite ?zlen_cons; lia. }
  destruct fuel as [|fuel]; [discriminate|]. cbn [debug_loop] in E. destruct (Z.ltb_spec i nops); [|lia].
  apply bind_ok in E as (b & s1 & E1 & E). destruct (byte_of _ _ _ By E1) as [Bb By1]. apply unwrap_u8_ok in E1 as (q & E1 & B1 & _). rewrite E1 in Eb.
  destruct d as [fi|dl n|dl|ln]; cbn [enc_drec wf_drec stores app] in *; inversion Eb; subst b q; clear Eb.
  - assert (0 <= fi / 128 < 256) by (split; [apply Z.div_pos|apply Z.div_lt_upper_bound]; lia).
    assert (B : Z.lor (fi / 128) 1 = 2 * (fi / 256) + 1).
    { rewrite lor1 by lia. rewrite Z.div_div by lia. reflexivity. }
    rewrite B in E.
    assert (0 <= fi / 256 < 128) by (split; [apply Z.div_pos|apply Z.div_lt_upper_bound]; lia).
    rewrite land_lor_odd in E by lia.
    replace ((2 * (fi / 256) + 1) mod 2) with 1 in E by (apply Z.mod_unique with (fi / 256); lia).
    change (1 =? 0) with false in E. cbn [negb] in E.
    apply bind_ok in E as (b2 & s2 & E2 & E). destruct (byte_of _ _ _ By1 E2) as [_ By2]. apply unwrap_u8_ok in E2 as (q2 & E2 & B2 & _).
    cbv zeta in E. apply bind_ok in E as (cd & s3 & E3 & E). inversion E3; subst cd s3.
    apply bind_ok in E as (n & s4 & E4 & E).
    assert (s4 = s2) by (unfold to_i32 in E4; destruct (_ <? _); inversion E4; reflexivity). subst s4.
    apply bind_ok in E as (p & s5 & E5 & E). inversion E5; subst p s5.
    apply bind_ok in E as (u & s6 & E6 & E).
    assert (D6 : d_buf s6 = d_buf s2) by (destruct (_ <=? _) in E6; inversion E6; reflexivity).
    cbn [lines]. eapply (IH fuel nops i); [| |exact W|exact N|exact I0|lia| |exact E]; [congruence|now rewrite D6|]. inversion X; subst; [contradiction|assumption].
  - destruct (land2_mod4 (dl * 64 + n * 4 + 2)) as [L1 L2]; [lia|symmetry; apply Z.mod_unique with (dl * 16 + n); lia|].
    rewrite L1, L2 in E. cbn [negb] in E. cbv zeta in E.
    apply bind_ok in E as (p & s5 & E5 & E). inversion E5; subst p s5.
    apply bind_ok in E as (u & s6 & E6 & E). apply bind_ok in E as (cl & s7 & E7 & E).
    assert (s7 = s6) by (now apply i32_add_same in E7). subst s7.
    assert (D6 : d_buf s6 = d_buf s1) by (destruct (_ <? _) in E6; inversion E6; reflexivity).
    cbn [lines]. rewrite Nd. cbn [Z.to_nat repeat app]. eapply (IH fuel nops i); [| |exact W|exact N|exact I0|lia| |exact E]; [congruence|now rewrite D6|]. inversion X; subst; [contradiction|assumption].
  - destruct (land4_mod8 (dl * 8 + 4)) as (L1 & L2 & L3); [lia|symmetry; apply Z.mod_unique with dl; lia|].
    rewrite L1, L2, L3 in E. cbn [negb] in E.
    apply bind_ok in E as (cl & s7 & E7 & E).
    assert (s7 = s1) by (now apply i32_add_same in E7). subst s7.
    apply bind_ok in E as (db & s8 & E8 & E). apply debug_store_at in E8 as (-> & _ & _).
    assert (X' : Exists big_line rs) by (inversion X; subst; [contradiction|assumption]).
    assert (Hi' : i + 1 + stored rs = nops) by lia.
    destruct (IH fuel nops (i + 1) f cl f' (l' + dl) db s1 out s' ltac:(congruence) By1 W N ltac:(lia) Hi' X' E) as (j & w & fl & ln & Hj & Z1 & Hw & Z2 & Hl).
    exists j, w, fl, ln. split; [lia|]. split; [exact Z1|]. split; [exact Hw|]. split; [|exact Hl]. cbn [lines znth]. destruct (Z.eqb_spec (j - i) 0); [lia|]. now replace (j - i - 1) with (j - (i + 1)) by lia.
  - pose proof (Z.mod_pos_bound (ln * 8) 256 ltac:(lia)).
    destruct (land0_mod8 (ln * 8 mod 256)) as (L1 & L2 & L3); [lia| |].
    { change 256 with (32 * 8). rewrite Z.mul_mod_distr_r by lia. apply Z.mod_mul. lia. }
    rewrite L1, L2, L3 in E. cbn [negb] in E.
    apply bind_ok in E as (b2 & s2 & E2 & E). destruct (byte_of _ _ _ By1 E2) as [Bb2 By2]. apply unwrap_u8_ok in E2 as (q2 & E2 & B2 & _).
    apply bind_ok in E as (b3 & s3 & E3 & E). destruct (byte_of _ _ _ By2 E3) as [Bb3 By3]. apply unwrap_u8_ok in E3 as (q3 & E3 & B3 & _).
    cbv zeta in E. apply bind_ok in E as (db & s8 & E8 & E). apply debug_store_at in E8 as (-> & Z8 & _).
    destruct (Z_lt_dec ln 256) as [Small|Big].
    + assert (X' : Exists big_line rs) by (inversion X; subst; [cbn in *; lia|assumption]).
      assert (Hi' : i + 1 + stored rs = nops) by lia.
      assert (D3 : d_buf s3 = flat_map enc_drec rs) by congruence.
      destruct (IH fuel nops (i + 1) _ _ f' ln db s3 out s' D3 By3 W N ltac:(lia) Hi' X' E) as (j & w & fl & lx & Hj & Z1 & Hw & Z2 & Hl).
      exists j, w, fl, lx. split; [lia|]. split; [exact Z1|]. split; [exact Hw|]. split; [|exact Hl]. cbn [lines znth]. destruct (Z.eqb_spec (j - i) 0); [lia|]. now replace (j - i - 1) with (j - (i + 1)) by lia.
    + eexists i, _, f', ln. split; [lia|]. split; [rewrite (debug_keeps _ _ _ _ _ _ _ _ _ E (2 * i + 1) ltac:(lia)); exact Z8|]. split.
      * apply lor_byte; [apply lor_byte|]; [apply shiftr_byte; lia| |lia]. apply Z.mod_pos_bound. lia.
      * split; [|lia]. cbn [lines znth]. rewrite Z.sub_diag. reflexivity.
Qed.
Lemma znth_pairs l : forall j f x, znth l j = Some (f, x) -> znth (pairs l) (2 * j + 1) = Some x.
Proof.
  induction l as [|[g y] l IH]; intros j f x E; [discriminate|]. pose proof (znth_some_range _ _ _ E) as R. cbn [znth] in E. unfold pairs. cbn [flat_map app znth fst snd].
  destruct (Z.eqb_spec (2 * j + 1) 0); [lia|]. destruct (Z.eqb_spec j 0) as [->|H]; [injection E as <- <-; reflexivity|].
  destruct (Z.eqb_spec (2 * j + 1 - 1) 0); [lia|]. replace (2 * j + 1 - 1 - 1) with (2 * (j - 1) + 1) by lia. now apply (IH (j - 1) f).
Qed.
Lemma enc_drec_bytes nfiles r : wf_drec nfiles r -> bytes (enc_drec r).
Proof.
  destruct r; cbn [wf_drec enc_drec]; intros W; unfold bytes, is_byte; repeat constructor; try apply Z.mod_pos_bound; try lia.
  - destruct W. assert (0 <= f / 128 < 256) by (split; [apply Z.div_pos|apply Z.div_lt_upper_bound]; lia). rewrite lor1 by lia. assert (0 <= f / 128 / 2 < 128) by (split; [apply Z.div_pos|apply Z.div_lt_upper_bound]; lia). lia.
  - destruct W. assert (0 <= f / 128 < 256) by (split; [apply Z.div_pos|apply Z.div_lt_upper_bound]; lia). rewrite lor1 by lia. assert (0 <= f / 128 / 2 < 128) by (split; [apply Z.div_pos|apply Z.div_lt_upper_bound]; lia). lia.
  - apply Z.div_pos; lia.
  - change (2 ^ 21) with 2097152 in W. apply Z.div_lt_upper_bound; lia.
Qed.
(** Debug information is read back exactly when it has no repeats and no absolute line from 256 on. *)
Theorem C32_iff c rs :
  c_ndebugfiles c < 2 ^ 31 -> Forall (wf_drec (c_ndebugfiles c)) rs -> ends_stored rs -> zlen rs < 2 ^ 24 ->
  (eats c (debug_infos (zlen (lines rs (-1) 0))) (flat_map enc_drec rs) (pairs (lines rs (-1) 0)) c <->
   Forall (fun r => match r with DRepeat _ n => n = 0 | DLine l => l < 256 | _ => True end) rs).
Proof.
  intros H W S L. split; [|intros N; now apply C32_roundtrip_partial]. intros E. specialize (E 0 []). rewrite app_nil_r in E.
  assert (Nr : Forall (fun r => match r with DRepeat _ n => n = 0 | _ => True end) rs).
  { rewrite Forall_forall. intros r Hr. destruct r as [|d n| |]; auto. destruct (Z_lt_dec 0 n) as [P|P].
    - exfalso. eapply (C32_repeat_refuted c rs W); [|exact E]. apply Exists_exists. eexists. split; [exact Hr|exact P].
    - rewrite Forall_forall in W. specialize (W _ Hr). cbn in W. lia. }
  rewrite Forall_forall. intros r Hr. destruct r as [|d n| |l]; auto. { rewrite Forall_forall in Nr. exact (Nr _ Hr). }
  destruct (Z_lt_dec l 256) as [|Big]; [assumption|exfalso].
  assert (X : Exists big_line rs) by (apply Exists_exists; eexists; split; [exact Hr|cbn; lia]).
  assert (St : forall f l, stored rs = zlen (lines rs f l)).
  { clear - Nr. unfold stored. induction Nr as [|r rs N1 N2 IH]; intros f l; [reflexivity|].
    destruct r; cbn [filter stores lines]; [apply IH|subst; cbn [Z.to_nat repeat app]; apply IH|rewrite !zlen_cons; now rewrite <- IH|rewrite !zlen_cons; now rewrite <- IH]. }
  specialize (St (-1) 0).
  unfold debug_infos in E. eapply (cut_line (c_ndebugfiles c) rs _ _ 0 (-1) 0 (-1) 0) in E as (j & w & fl & ln & Hj & Z1 & Hw & Z2 & Hl); [|reflexivity| |exact W|exact Nr|lia|lia|exact X].
  - rewrite Z.sub_0_r in Z2. rewrite (znth_pairs _ _ _ _ Z2) in Z1. injection Z1 as <-. lia.
  - cbn [d_buf mk]. unfold bytes. apply Forall_flat_map. eapply Forall_impl; [|exact W]. intros a Wa. exact (enc_drec_bytes _ a Wa).
Qed.
Example C32_iff_ex : let c := set_ndebugfiles 1 code_new in let rs := [DFile 0; DLine 255; DDelta 1; DLine 256] in
  Forall (wf_drec (c_ndebugfiles c)) rs /\ ends_stored rs /\ lines rs (-1) 0 = [(0, 255); (0, 256); (0, 256)] /\
  fst (debug_infos 3 (mk (flat_map enc_drec rs) 0 c)) = Ok [0; 255; 0; 256; 0; 0].
Proof. intros c rs. split; [unfold rs, c; repeat apply Forall_cons; try apply Forall_nil; cbn; lia|]. split; [right; exists [DFile 0; DLine 255; DDelta 1], (DLine 256); split; reflexivity|]. split; vm_compute; reflexivity. Qed.

(** * C35 *)
Lemma znth_split {A} (l : list A) : forall i x, znth l i = Some x -> exists p q, l = p ++ x :: q /\ zlen p = i.
Proof.
  induction l as [|y l IH]; intros i x E; [discriminate|]. cbn [znth] in E. destruct (Z.eqb_spec i 0) as [->|H]; [injection E as <-; exists [], l; auto|].
  apply IH in E as (p & q & -> & L). exists (y :: p), q. split; [reflexivity|]. rewrite zlen_cons. lia.
Qed.
Lemma map_same {A B} (f g : A -> B) l : map f l = map g l -> Forall (fun x => f x = g x) l.
Proof. induction l as [|x l IH]; cbn; intros E; [constructor|]. injection E as E1 E2. constructor; auto. Qed.
Lemma view_refs ss ts ts' a : view_type ss ts a = view_type ss ts' a -> Forall (fun k => ty ts k = ty ts' k) (refs_of a).
Proof.
  assert (Fs : forall fs, map (view_field ss ts) fs = map (view_field ss ts') fs -> Forall (fun k => ty ts k = ty ts' k) (map snd fs)).
  { intros fs E. apply map_same in E. rewrite Forall_map. eapply Forall_impl; [|exact E]. unfold view_field. intros f Q. congruence. }
  destruct a as [k|m args r|st name sup g fs ps bs|fs|n|n g cs|k t]; cbn [view_type refs_of]; intros E; try (constructor; fail).
  - assert (E1 : map (ty ts) args = map (ty ts') args) by congruence. assert (E2 : ty ts r = ty ts' r) by congruence. apply map_same in E1. apply Forall_app. split; [exact E1|]. constructor; [exact E2|constructor].
  - assert (E1 : map (view_field ss ts) fs = map (view_field ss ts') fs) by congruence. apply Fs in E1. apply Forall_app. split; [|exact E1].
    destruct sup as [k|]; [|constructor]. constructor; [congruence|constructor].
  - assert (E1 : map (view_field ss ts) fs = map (view_field ss ts') fs) by congruence. now apply Fs.
  - assert (E1 : map (fun c => mkCon (nm ss (fst c)) (zlen (snd c)) (map (ty ts) (snd c)) 0 false []) cs = map (fun c => mkCon (nm ss (fst c)) (zlen (snd c)) (map (ty ts') (snd c)) 0 false []) cs) by congruence.
    apply map_same in E1. apply Forall_flat_map. eapply Forall_impl; [|exact E1]. intros c Q. apply map_same. congruence.
  - constructor; [congruence|constructor].
Qed.
Lemma view_not_default ns nt ss ts a : wf_atype ns nt a -> view_type ss ts a <> vt_default.
Proof.
  intros (_ & _ & W). destruct a as [k|m args r|st name sup g fs ps bs|fs|n|n g cs|k t]; cbn [view_type]; unfold vt_default; try discriminate.
  intros E. assert (k = HNULL) by congruence. subst k. cbn in W. repeat (destruct W as [W|W]; [discriminate|]). contradiction.
Qed.
(** In a module read back, an entry of the type table is the type its entry describes, its references
    denoting the entries of the same table, exactly when it refers only to earlier entries. *)
Theorem C35_iff m rest i a : wf_module m -> znth (am_types m) i = Some a ->
  exists c, accepted None (enc_module m ++ rest) c /\
    (znth (c_types c) i = Some (view_type (c_strings c) (c_types c) a) <-> Forall (fun k => k < i) (refs_of a)).
Proof.
  intros W Zi. destruct (C37_roundtrip m rest W) as [u E]. exists (view_module m u). split; [unfold accepted; now rewrite E|].
  cbn [view_module c_types c_strings]. set (ss := am_strings m). set (ts := view_types ss (am_types m)).
  pose proof (znth_some_range _ _ _ Zi) as R. pose proof (view_types_len ss (am_types m)) as L. fold ts in L.
  assert (Wt : forall k x, znth (am_types m) k = Some x -> wf_atype (zlen (am_strings m)) (zlen (am_types m)) x).
  { destruct W as [(_ & _ & _ & _ & _ & _ & _ & _ & _ & _ & _ & _ & F & _) _]. rewrite Forall_forall in F. intros k x Hx. apply F. apply znth_split in Hx as (p & q & -> & _). apply in_or_app. right. now left. }
  assert (T : forall k, 0 <= k < zlen ts -> ty (ts ++ zrepeat vt_default (zlen (am_types m))) k = ty ts k).
  { intros k Hk. unfold ty. apply app_nth1. unfold zlen in Hk. lia. }
  split.
  - intros Q.
    assert (Sp : exists p q, am_types m = p ++ a :: q /\ zlen p = i).
    { pose proof (znth_split _ _ _ Zi) as Y. exact Y. }
    destruct Sp as (p & q & Ep & Lp). destruct (view_types_app ss (p ++ [a]) q) as [tl E2]. rewrite <- app_assoc in E2. cbn [app] in E2. rewrite <- Ep in E2. fold ts in E2. rewrite view_types_snoc in E2.
    pose proof (view_types_len ss p) as Lv.
    assert (Q2 : znth ts i = Some (view_type ss (view_types ss p) a)).
    { rewrite E2, <- app_assoc. rewrite znth_app_r by lia. replace (i - zlen (view_types ss p)) with 0 by lia. reflexivity. }
    rewrite znth_app_l in Q by lia. rewrite Q2 in Q. assert (Q3 : view_type ss (view_types ss p) a = view_type ss (ts ++ zrepeat vt_default (zlen (am_types m))) a) by congruence.
    apply view_refs in Q3. pose proof (Wt i a Zi) as (_ & Rg & _). rewrite Forall_forall in *. intros k Hk. specialize (Q3 k Hk). specialize (Rg k Hk). destruct (Z_lt_dec k i) as [|Ge]; [assumption|exfalso].
    rewrite T in Q3 by lia. assert (D : ty (view_types ss p) k = vt_default) by (apply nth_overflow; unfold zlen in *; lia). rewrite D in Q3.
    destruct (znth (am_types m) k) as [x|] eqn:Zk. 2:{ destruct (HashProofs.znth_in (am_types m) k ltac:(lia)) as [x Hx]. congruence. }
    pose proof (znth_split _ _ _ Zk) as (p' & q' & Ep' & Lp'). destruct (view_types_app ss (p' ++ [x]) q') as [tl' E2']. rewrite <- app_assoc in E2'. cbn [app] in E2'. rewrite <- Ep' in E2'. fold ts in E2'. rewrite view_types_snoc in E2'.
    pose proof (view_types_len ss p') as Lv'.
    assert (Q4 : ty ts k = view_type ss (view_types ss p') x).
    { rewrite E2'. unfold ty. rewrite <- app_assoc. rewrite app_nth2 by (unfold zlen in *; lia). replace (Z.to_nat k - length (view_types ss p'))%nat with 0%nat by (unfold zlen in *; lia). reflexivity. }
    apply (view_not_default _ _ ss (view_types ss p') x (Wt k x Zk)). congruence.
  - intros F. assert (F0 : Forall (fun k => 0 <= k < i) (refs_of a)).
    { pose proof (Wt i a Zi) as (_ & Rg & _). rewrite Forall_forall in *. intros k Hk. specialize (F k Hk). specialize (Rg k Hk). lia. }
    destruct (C35_module_partial m rest i a W Zi F0) as (c & A & Q). unfold accepted in A. rewrite E in A. cbn [fst] in A. injection A as <-. exact Q.
Qed.
(** The middle entry refers to itself and to earlier and later ones. *)
Example C35_iff_ex : wf_module ex_fwd /\ znth (am_types ex_fwd) 0 = Some (AParam HREF 1) /\ znth (am_types ex_fwd) 2 = Some (AParam HREF 1).
Proof. split; [apply C35_module_ex|split; reflexivity]. Qed.

(** * C45 *)
(** What an accepted module keeps of the tree its file spells: everything but the lengths of the debug
    file names, unless the file has neither debug information, types nor constants; then nothing. *)
Definition keeps (m : rmod) (ss fs : list str) (c : code) : Prop :=
  c_version c = rm_version m /\ c_ints c = rm_ints m /\ c_floats c = rm_floats m /\ c_strings c = ss /\ c_strings_lens c = map zlen ss /\
  c_bytes c = rm_bytes m /\ c_bytes_pos c = rm_bytes_pos m /\ c_debugfiles c = fs /\ c_ntypes c = zlen (rm_types m) /\
  c_nglobals c = zlen (rm_globals m) /\ zlen (c_natives c) = zlen (rm_natives m) /\ map n_findex (c_natives c) = map snd (rm_natives m) /\
  map hf_findex (c_functions c) = map rf_findex (rm_functions m) /\ map hf_ops (c_functions c) = map (fun f => map read_op (rf_ops f)) (rm_functions m) /\
  map (fun k => (k_global k, k_fields k)) (c_constants c) = rm_constants m /\ c_entrypoint c = rm_entrypoint m.
Theorem C45_iff file c : bytes file -> zlen file < 2 ^ 63 -> accepted None file c ->
  exists used rest m ss fs, file = used ++ rest /\ spell_module used m /\ legal_module m ss fs /\ c_debugfiles_lens c = [] /\
    (keeps m ss fs c <-> rm_debug m = true \/ rm_types m <> [] \/ rm_constants m <> []) /\
    (~ keeps m ss fs c -> c = code_new).
Proof.
  intros B L A. apply C66_exact in A; auto. destruct A as (used & rest & m & ss & fs & E & S & G & ->). exists used, rest, m, ss, fs. do 3 (split; [assumption|]).
  assert (V : 2 <= rm_version m) by (destruct G as [G _]; lia). clear - V. unfold mean_module. destruct (mean_types ss [] [] (rm_types m)) as [ts ins].
  destruct (negb (rm_debug m) && (zlen (rm_types m) =? 0) && (zlen (rm_constants m) =? 0)) eqn:D.
  - split; [reflexivity|]. split; [|auto]. split.
    + intros (K & _). cbn in K. lia.
    + apply Bool.andb_true_iff in D as [D D3]. apply Bool.andb_true_iff in D as [D1 D2]. apply Z.eqb_eq in D2, D3. apply zlen_0 in D2, D3. intros [H|[H|H]]; [rewrite H in D1; discriminate|contradiction|contradiction].
  - split; [reflexivity|]. match goal with |- context [keeps m ss fs ?x] => set (c := x) end.
    assert (K : keeps m ss fs c).
    { unfold keeps, c. cbn. do 10 (split; [reflexivity|]). split; [unfold zlen; now rewrite map_length|]. split; [rewrite map_map; apply map_ext; intros [[[? ?] ?] ?]; reflexivity|].
      split; [rewrite map_map; reflexivity|]. split; [rewrite map_map; reflexivity|]. split; [|reflexivity]. rewrite map_map. cbn. rewrite <- (map_id (rm_constants m)) at 2. apply map_ext. intros []; reflexivity. }
    split; [|intros Nk; contradiction]. split; [|intros _; exact K]. intros _. destruct (rm_debug m); [auto|]. destruct (rm_types m); [|right; left; discriminate]. destruct (rm_constants m); [discriminate D|right; right; discriminate].
Qed.
Example C45_iff_ex : exists c, accepted None (enc_module ex_mod) c /\ c <> code_new /\ accepted None (enc_module ex_lost) code_new.
Proof.
  destruct C45_ex as (W & _ & _ & (c & A & D & _)). exists c. split; [exact A|]. split; [intros K; rewrite K in D; discriminate D|].
  destruct (C45_empty_refuted ex_lost [] W eq_refl eq_refl eq_refl) as [R _]. rewrite app_nil_r in R. unfold accepted. rewrite R. reflexivity.
Qed.
