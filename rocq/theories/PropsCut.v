(** C82: what the reader does with every truncation of every file it accepts.  Model: CodeModel.v.  Vocabulary: CutSpec.v, GrammarSpec.v. *)
From Verif Require Import Prelude StdModel BrassTypes DecoderModel CodeModel FormatSpec ReaderSpec ErrSpec GrammarSpec CutSpec.
From Verif Require Import CodeGenericProofs FormatProofs Utf8Proofs StringsProofs ReaderPost ReaderTables ErrProofs GrammarDen GrammarTypes GrammarFuns GrammarStrings GrammarPhases GrammarPhases2 GrammarNames GrammarModule GrammarCode CutProofs CutPieces PropsModule PropsGrammar.
From Coq Require Import Lia ZifyBool.
Ltac Zify.zify_post_hook ::= Z.div_mod_to_equations.

(** * The pieces spell the module *)
Lemma strings_whole t l : strings_pieces t l -> spell_strings (whole_of l) t.
Proof. intros (sizes & -> & L & M). exists sizes. cbn [whole_of map snd concat]. now rewrite app_nil_r. Qed.
Lemma strings_split t b : spell_strings b t -> exists l, strings_pieces t l /\ b = whole_of l.
Proof. intros (sizes & -> & L & M). eexists. split; [exists sizes; split; [reflexivity|auto]|]. cbn [whole_of map snd concat]. now rewrite app_nil_r. Qed.
Theorem C82_sections used m : spell_module used m <-> exists secs, sections m secs /\ used = whole_of secs.
Proof.
  split.
  - intros (h & s1 & s2 & s3 & s4 & s5 & -> & Hh & F1 & F2 & S1 & S2 & S3 & S4 & (t1 & t2 & t3 & t4 & -> & M9 & M10 & M11 & M12)).
    apply strings_split in S1 as (l1 & S1 & ->).
    assert (X2 : exists l2, bytes_pieces m l2 /\ s2 = whole_of l2).
    { unfold spell_bytes, bytes_pieces in *. destruct (5 <=? rm_version m); [destruct S2 as (b & -> & L & M); eexists; split; [exists b; split; [reflexivity|auto]|cbn [whole_of map snd concat]; now rewrite app_nil_r]|subst s2; exists []; auto]. }
    assert (X3 : exists l3, debug_pieces m l3 /\ s3 = whole_of l3).
    { unfold spell_debugfiles, debug_pieces in *. destruct (rm_debug m); [destruct S3 as (b1 & b2 & -> & V & S3); apply strings_split in S3 as (l & S3 & ->); eexists; split; [exists b1, l; split; [reflexivity|auto]|reflexivity]|destruct S3 as (-> & E); exists []; auto]. }
    destruct X2 as (l2 & B2 & ->), X3 as (l3 & B3 & ->). assert (Hc : exists counts, h = [72; 76; 66; rm_version m] ++ counts) by (destruct Hh as (b0 & b1 & b2 & b3 & b4 & b5 & b6 & b7 & b8 & b9 & b10 & E & _); eauto).
    destruct Hc as (counts & ->). eexists. split; [exists counts, l1, l2, l3, s4, t1, t2, t3, t4; split; [reflexivity|auto 15]|].
    rewrite !whole_app. cbn [whole_of map snd concat app]. rewrite ?app_nil_r, <- ?app_assoc. reflexivity.
  - intros (secs & (counts & l1 & l2 & l3 & s4 & t1 & t2 & t3 & t4 & -> & Hh & F1 & F2 & S1 & S2 & S3 & S4 & M9 & M10 & M11 & M12) & ->).
    exists ([72; 76; 66; rm_version m] ++ counts), (whole_of l1), (whole_of l2), (whole_of l3), s4, (t1 ++ t2 ++ t3 ++ t4).
    split; [rewrite !whole_app; cbn [whole_of map snd concat app]; rewrite ?app_nil_r, <- ?app_assoc; reflexivity|].
    split; [exact Hh|]. split; [exact F1|]. split; [exact F2|]. split; [now apply strings_whole|]. split.
    { unfold spell_bytes, bytes_pieces in *. destruct (5 <=? rm_version m); [destruct S2 as (b & -> & L & M); exists b; cbn [whole_of map snd concat]; rewrite app_nil_r; auto|now subst l2]. }
    split.
    { unfold spell_debugfiles, debug_pieces in *. destruct (rm_debug m); [destruct S3 as (n & l & -> & V & S3); apply strings_whole in S3; exists n, (whole_of l); auto|destruct S3 as (-> & E); auto]. }
    split; [exact S4|]. exists t1, t2, t3, t4. auto.
Qed.

(** * The run over the pieces *)
Lemma text_bytes t l : strings_pieces t l -> bytes (whole_of l) -> bytes (rs_text t).
Proof. intros (sizes & -> & _). cbn [whole_of map snd concat]. unfold bytes. rewrite !Forall_app. tauto. Qed.
Lemma pieces_read m ss fs secs : sections m secs -> legal_module m ss fs -> bytes (whole_of secs) -> exists x c', pieces code_read 0 code_new [] secs x c'.
Proof.
  intros (counts & l1 & l2 & l3 & s4 & t1 & t2 & t3 & t4 & -> & Hh & F1 & F2 & S1 & S2 & S3 & S4 & M9 & M10 & M11 & M12) (Rv & (N3 & T3) & (Nf & Tf) & F8 & F9 & F10 & F11) B.
  rewrite !whole_app in B. unfold bytes in B. rewrite !Forall_app in B. destruct B as (B0 & B1 & B2 & B3 & B4). fold (bytes (whole_of l1)) in B1. fold (bytes (whole_of l3)) in B3.
  destruct m as [v flags li lf t vb ps td ats ks nl fns cl ep]. unfold rm_debug in *. cbn [rm_ints rm_floats rm_strings rm_types rm_globals rm_natives rm_functions rm_constants rm_version rm_flags rm_bytes rm_bytes_pos rm_entrypoint rm_debugfiles] in *.
  destruct Hh as (b0 & b1 & b2 & b3 & b4 & b5 & b6 & b7 & b8 & b9 & b10 & Ec & V0 & V1 & V2 & V3 & V4 & V5 & V6 & V7 & V8 & V9 & V10).
  cbn [rm_ints rm_floats rm_strings rm_types rm_globals rm_natives rm_functions rm_constants rm_version rm_flags rm_bytes rm_bytes_pos rm_entrypoint rm_debugfiles] in *.
  apply (f_equal (skipn 4)) in Ec. cbn [skipn app] in Ec. subst counts.
  set (c2 := set_hasdebug (Z.land flags 1) (set_entrypoint ep (set_nconstants (zlen cl) (set_nfunctions (zlen fns) (set_nnatives (zlen nl) (set_nglobals (zlen ks) (set_ntypes (zlen ats) (set_nbytes (zlen ps) (set_nstrings (rs_count t) (set_nfloats (zlen lf) (set_nints (zlen li) (set_version v code_new)))))))))))).
  set (c3 := set_ints li c2). set (c4 := set_floats lf c3). set (c5 := set_ustrings (zrepeat None (c_nstrings c4)) (set_strings_lens (c_strings_lens c4 ++ map zlen ss) (set_strings ss c4))).
  set (c6 := set_bytes_pos ps (set_bytes vb c5)).
  assert (Bc : bytes (b0 ++ b1 ++ b2 ++ b3 ++ b4 ++ b5 ++ b6 ++ b7 ++ b8 ++ b9 ++ b10)).
  { cbn [whole_of map snd concat app] in B0. rewrite !Forall_cons_iff in B0. destruct B0 as (_ & _ & _ & _ & B0). apply Forall_app in B0 as (B0 & _). exact B0. }
  assert (R3 : 0 <= rs_count t <= I32_MAX). { parts Bc. apply (uix_range b3); auto. }
  assert (R5 : 0 <= zlen ats <= I32_MAX). { parts Bc. apply (uix_range b5); auto. }
  assert (Cn : countsP (set_version v code_new) (b0 ++ b1 ++ b2 ++ b3 ++ b4 ++ b5 ++ b6 ++ b7 ++ b8 ++ b9 ++ b10) c2).
  { exists flags, (zlen li), (zlen lf), (rs_count t), (zlen ps), (zlen ats), (zlen ks), (zlen nl), (zlen fns), (zlen cl), ep, b0, b1, b2, b3, b4, b5, b6, b7, b8, b9, b10.
    split; [reflexivity|]. split; [exact V0|]. split; [exact V1|]. split; [exact V2|]. split; [exact V3|]. split; [cbn; destruct (5 <=? v); [exact V4|]; destruct V4 as (-> & _ & ->); auto|].
    split; [exact V5|]. split; [exact V6|]. split; [exact V7|]. split; [exact V8|]. split; [cbn; destruct (4 <=? v); [exact V9|]; destruct V9 as (-> & ->); auto|]. split; [exact V10|reflexivity]. }
  assert (Rd : ready c6) by (unfold ready, c6, c5, c4, c3, c2; cbn - [I32_MAX]; repeat split; try lia; try reflexivity; unfold I32_MAX; lia).
  assert (Hd : c_ndebugfiles c6 = 0 /\ c_debugfiles c6 = []) by (split; reflexivity).
  assert (Dbg : negb (c_hasdebug c6 =? 0) = Z.odd flags) by (unfold c6, c5, c4, c3, c2; cbn - [Z.land]; apply odd_flag).
  assert (Hn : rs_count td <= I32_MAX).
  { unfold debug_pieces, rm_debug in S3. cbn [rm_flags rm_debugfiles] in S3. destruct (Z.odd flags); [|destruct S3 as (_ & ->); cbn; unfold I32_MAX; lia].
    destruct S3 as (n & l & -> & V & _). rewrite whole_cons in B3. apply Forall_app in B3 as (B3 & _). apply (uix_range n) in V; auto. lia. }
  assert (P7 : forall p, pieces (read_debugfiles c6) p code_new [] l3 (m7 c6 (rs_count td) fs) (dec7 c6 (rs_count td) fs)).
  { intros p. assert (Q : pieces (read_debugfiles c6) p code_new [] l3 (if negb (c_hasdebug c6 =? 0) then set_debugfiles fs (set_ndebugfiles (rs_count td) c6) else c6) (if negb (c_hasdebug c6 =? 0) then set_debugfiles fs (set_ndebugfiles (rs_count td) c6) else code_new)).
    { apply pieces_debugfiles. rewrite Dbg. unfold debug_pieces, rm_debug in S3. cbn [rm_flags rm_debugfiles] in S3. destruct (Z.odd flags); [|apply S3].
      destruct S3 as (n & l & -> & V & Sp). exists n, l. split; [auto|]. split; [auto|]. split; [auto|]. split; [|exact Tf]. rewrite whole_cons in B3. apply Forall_app in B3 as (_ & B3). eapply text_bytes; eauto. }
    unfold dec7, m7. rewrite Dbg in Q |- *. unfold debug_pieces, rm_debug in S3. cbn [rm_flags rm_debugfiles] in S3. destruct (Z.odd flags); [exact Q|]. destruct S3 as (_ & ->). cbn in Tf. destruct fs; [|destruct Tf].
    pose proof (m7_same c6 Rd Hd) as E. unfold m7 in E. cbn [rs_count no_strings]. rewrite E. exact Q. }
  assert (L10 : Forall (natR (c_strings c6) (c_ntypes c6) (c_nstrings c6)) nl).
  { pose proof (cuts_len _ _ _ _ _ T3) as Ls. rewrite Z2Nat.id in Ls by auto. eapply Forall_impl; [|exact F10]. intros [[[a b] c] d]. unfold natR. cbn. lia. }
  assert (K9 : zlen ks = Z.max 0 (c_nglobals c6)) by (pose proof (zlen_nonneg ks); cbn; lia).
  eexists _, _. unfold code_read. cbv zeta. cbn [app]. cbn [app].
  match goal with |- pieces _ _ _ _ (?q1 :: ?q2 :: ?r) _ _ => change (q1 :: q2 :: r) with ([q1; q2] ++ r) end. eapply pieces_bind; [apply pieces_magic; exact Rv|]. cbv beta.
  match goal with |- pieces _ _ _ _ (?q1 :: ?r) _ _ => change (q1 :: r) with ([q1] ++ r) end. eapply pieces_bind; [apply (pieces_plain (fun _ => True) _ _ _ code_new [] _ c2 code_new (den_read_counts _ _)); [apply cut_read_counts|exact I|split; [exact Cn|reflexivity]]|]. cbv beta.
  match goal with |- pieces _ _ _ _ (?q1 :: ?r) _ _ => change (q1 :: r) with ([q1] ++ r) end. eapply pieces_bind; [apply pieces_ints; [reflexivity|exact F1]|]. cbv beta. fold c3.
  match goal with |- pieces _ _ _ _ (?q1 :: ?r) _ _ => change (q1 :: r) with ([q1] ++ r) end. eapply pieces_bind; [apply pieces_floats; [reflexivity|exact F2]|]. cbv beta. fold c4.
  eapply pieces_bind; [apply (pieces_string_table c4 t ss l1); [eapply text_bytes; eauto|reflexivity|exact S1|exact T3]|]. cbv beta. fold c5.
  eapply pieces_bind. { apply (pieces_bytes_section c5 vb ps l2); [|reflexivity]. change (c_version c5) with v. unfold bytes_pieces in S2. cbn [rm_version rm_bytes rm_bytes_pos] in S2. destruct (5 <=? v); [destruct S2 as (pos & -> & L & M); exists pos; auto|]. destruct V4 as (_ & -> & ->). auto. }
  cbv beta. fold c6. eapply pieces_bind; [apply P7|]. cbv beta.
  match goal with |- pieces _ _ _ _ (?q1 :: ?r) _ _ => change (q1 :: r) with ([q1] ++ r) end.
  eapply pieces_bind; [apply (pieces_plain _ _ _ _ _ [] s4 (m8 c6 (rs_count td) fs ats) (dec8 c6 (rs_count td) fs ats) (den8 c6 Rd (rs_count td) fs)); [apply cut_read_types|reflexivity|exists ats; auto 10]|]. cbv beta.
  match goal with |- pieces _ _ _ _ (?q1 :: ?r) _ _ => change (q1 :: r) with ([q1] ++ r) end.
  eapply pieces_bind; [apply (pieces_plain _ _ _ _ _ [] t1 (m9 c6 (rs_count td) fs ats ks) (dec9 c6 (rs_count td) fs ats ks) (den9 c6 Rd (rs_count td) fs ats)); [apply cut_read_globals|reflexivity|exists ks; auto 10]|]. cbv beta.
  match goal with |- pieces _ _ _ _ (?q1 :: ?r) _ _ => change (q1 :: r) with ([q1] ++ r) end.
  eapply pieces_bind; [apply (pieces_plain _ _ _ _ _ [] t2 (m10 c6 (rs_count td) fs ats ks nl) (dec10 c6 (rs_count td) fs ats ks nl) (den10 c6 Rd Hd (rs_count td) fs ats ks eq_refl K9 F9)); [apply cut_read_natives|reflexivity|exists nl; split; [pose proof (zlen_nonneg nl); cbn; lia|auto 10]]|]. cbv beta.
  match goal with |- pieces _ _ _ _ (?q1 :: ?r) _ _ => change (q1 :: r) with ([q1] ++ r) end.
  eapply pieces_bind; [apply (pieces_plain _ _ _ _ _ [] t3 (m11 c6 (rs_count td) fs ats ks nl fns) (dec11 c6 (rs_count td) fs ats ks nl fns) (den11 c6 Rd (rs_count td) fs ats ks nl Hn)); [apply cut_read_functions|reflexivity|]|].
  { exists fns. rewrite Dbg. split; [pose proof (zlen_nonneg fns); cbn; lia|]. auto 10. }
  cbv beta. eapply pieces_end; [apply (pieces_plain _ _ _ _ _ [] t4 (m12 c6 (rs_count td) fs ats ks nl fns cl) (dec12 c6 (rs_count td) fs ats ks nl fns cl) (den12 c6 Rd (rs_count td) fs ats ks nl fns)); [apply cut_read_constants|reflexivity|]|].
  { exists cl. split; [pose proof (zlen_nonneg cl); cbn; lia|]. auto. }
  cbv beta. apply pieces_get.
Qed.

(** * C82 *)
(** A file that spells a legal module, cut inside any of its pieces (or just before it), ends as the place of the cut says. *)
Theorem C82_cut m ss fs secs before pl x y after : sections m secs -> legal_module m ss fs -> bytes (whole_of secs) -> zlen (whole_of secs) < 2 ^ 63 ->
  secs = before ++ (pl, x ++ y) :: after -> y <> [] ->
  ended (read_module None (whole_of before ++ x)) (outcome pl (zlen (whole_of before)) (zlen x)).
Proof.
  intros S L B Z E Y. destruct (pieces_read m ss fs secs S L B) as (v & c' & _ & C). specialize (C before pl x y after (conj B Z) E Y).
  rewrite Z.add_0_l in C. unfold read_module. change (start None (whole_of before ++ x)) with (At 0 code_new [] (whole_of before ++ x)).
  destruct (code_read (At 0 code_new [] (whole_of before ++ x))) as [r s]. unfold ends in C. destruct (outcome pl (zlen (whole_of before)) (zlen x)); cbn [fst snd ended] in *; destruct C as (-> & <-); reflexivity.
Qed.
(** Every cut of a sequence of pieces is inside one of them. *)
Lemma cut_somewhere : forall secs k, 0 <= k < zlen (whole_of secs) -> exists before pl x y after, secs = before ++ (pl, x ++ y) :: after /\ y <> [] /\ zlen (whole_of before ++ x) = k.
Proof.
  induction secs as [|[pl u] secs IH]; intros k Hk; [cbn in Hk; lia|]. rewrite whole_cons, zlen_app in Hk. destruct (Z.lt_ge_cases k (zlen u)) as [H|H].
  - exists [], pl, (firstn (Z.to_nat k) u), (skipn (Z.to_nat k) u), secs. rewrite firstn_skipn. split; [reflexivity|]. unfold zlen in *. split.
    + intros Q. apply (f_equal (@length Z)) in Q. rewrite skipn_length in Q. cbn in Q. lia.
    + cbn [whole_of map concat app]. rewrite firstn_length. lia.
  - destruct (IH (k - zlen u) ltac:(lia)) as (before & pl2 & x & y & after & -> & Y & L). exists ((pl, u) :: before), pl2, x, y, after. split; [reflexivity|]. split; [exact Y|]. rewrite whole_cons, <- app_assoc, zlen_app. lia.
Qed.
(** Every file the reader accepts, cut anywhere inside the part it uses. *)
Theorem C82_every file c : bytes file -> zlen file < 2 ^ 63 -> accepted None file c ->
  exists m ss fs secs rest, sections m secs /\ legal_module m ss fs /\ c = mean_module m ss fs /\ file = whole_of secs ++ rest /\
    forall k, 0 <= k < zlen (whole_of secs) -> exists before pl x y after, secs = before ++ (pl, x ++ y) :: after /\ y <> [] /\
      firstn (Z.to_nat k) file = whole_of before ++ x /\ zlen (whole_of before) + zlen x = k /\
      ended (read_module None (firstn (Z.to_nat k) file)) (outcome pl (zlen (whole_of before)) (k - zlen (whole_of before))).
Proof.
  intros B Z A. apply C66_exact in A; auto. destruct A as (used & rest & m & ss & fs & -> & S & L & ->). apply C82_sections in S as (secs & S & ->).
  exists m, ss, fs, secs, rest. split; [exact S|]. split; [exact L|]. split; [reflexivity|]. split; [reflexivity|]. intros k Hk.
  destruct (cut_somewhere secs k Hk) as (before & pl & x & y & after & E & Y & K). exists before, pl, x, y, after. split; [exact E|]. split; [exact Y|].
  assert (F : firstn (Z.to_nat k) (whole_of secs ++ rest) = whole_of before ++ x).
  { rewrite E, whole_app, whole_cons. replace ((whole_of before ++ (x ++ y) ++ whole_of after) ++ rest) with ((whole_of before ++ x) ++ (y ++ whole_of after ++ rest)) by (rewrite <- !app_assoc; reflexivity).
    rewrite firstn_app. replace (Z.to_nat k) with (length (whole_of before ++ x)) by (unfold zlen in K; lia). rewrite firstn_all, Nat.sub_diag. cbn. apply app_nil_r. }
  split; [exact F|]. rewrite zlen_app in K. split; [exact K|]. rewrite F. replace (k - zlen (whole_of before)) with (zlen x) by lia.
  apply Forall_app in B as (B & _). rewrite zlen_app in Z. pose proof (zlen_nonneg rest). apply (C82_cut m ss fs secs before pl x y after); auto. lia.
Qed.
(** "A file cut short is refused with an error": false.  A file with at least one type that has lost its last useful byte always crashes the reader. *)
Theorem C82_refused_refuted file c : bytes file -> zlen file < 2 ^ 63 -> accepted None file c -> 0 < c_ntypes c ->
  exists n, 0 < n <= zlen file /\ accepted None (firstn (Z.to_nat n) file) c /\ read_module None (firstn (Z.to_nat (n - 1)) file) = (Panic PUnwrap, None).
Proof.
  intros B Z A N. destruct (C82_every file c B Z A) as (m & ss & fs & secs & rest & S & L & -> & E & C). 
  assert (Ht : 0 < zlen (rm_types m)).
  { unfold mean_module in N. destruct (mean_types ss [] [] (rm_types m)) as [ts ins]. destruct (negb (rm_debug m) && (zlen (rm_types m) =? 0) && (zlen (rm_constants m) =? 0)); [cbn in N; lia|exact N]. }
  pose proof S as (counts & l1 & l2 & l3 & s4 & t1 & t2 & t3 & t4 & Es & _ & _ & _ & _ & _ & _ & M4 & _).
  set (tail := [(Elsewhere, s4); (Elsewhere, t1); (Elsewhere, t2); (Elsewhere, t3); (Elsewhere, t4)]) in Es.
  assert (L4 : 0 < zlen s4). { pose proof (many_count _ _ 1 _ _ (fun b x => type_len b x) M4). lia. }
  set (hd := [(Elsewhere, [72; 76; 66]); (Block, [rm_version m]); (Elsewhere, counts); (Number 4, flat_map (enc_le 4) (rm_ints m)); (Number 8, flat_map (enc_le 8) (rm_floats m))] ++ l1 ++ l2 ++ l3).
  assert (Es2 : secs = hd ++ tail) by (rewrite Es; unfold hd; rewrite <- !app_assoc; reflexivity).
  set (n := zlen (whole_of secs)).
  assert (Lt : zlen s4 <= zlen (whole_of tail)). { unfold tail. rewrite whole_cons, zlen_app. pose proof (zlen_nonneg (whole_of [(Elsewhere, t1); (Elsewhere, t2); (Elsewhere, t3); (Elsewhere, t4)])). lia. }
  assert (Ln : n = zlen (whole_of hd) + zlen (whole_of tail)) by (unfold n; rewrite Es2, whole_app, zlen_app; reflexivity).
  pose proof (zlen_nonneg (whole_of hd)). pose proof (zlen_nonneg rest).
  exists n. split; [rewrite E, zlen_app; lia|]. split.
  - replace (firstn (Z.to_nat n) file) with (whole_of secs ++ []).
    + apply C66_exact; [rewrite app_nil_r; rewrite E in B; now apply Forall_app in B|rewrite app_nil_r; rewrite E, zlen_app in Z; lia|]. exists (whole_of secs), [], m, ss, fs. split; [reflexivity|]. split; [apply C82_sections; eauto|auto].
    + rewrite E, firstn_app, app_nil_r. replace (Z.to_nat n) with (length (whole_of secs)) by (unfold n, zlen; lia). rewrite firstn_all, Nat.sub_diag. cbn. now rewrite app_nil_r.
  - destruct (C (n - 1) ltac:(lia)) as (before & pl & x & y & after & E2 & Y & F & K & En).
    assert (P : pl = Elsewhere).
    { destruct (split_list hd tail before after (pl, x ++ y) ltac:(congruence)) as [(a1 & E3)|(b2 & -> & E3)].
      - exfalso. assert (zlen (whole_of before) + zlen x < zlen (whole_of hd)).
        { rewrite E3, whole_app, whole_cons, !zlen_app. destruct y; [congruence|]. rewrite zlen_cons. pose proof (zlen_nonneg y). pose proof (zlen_nonneg (whole_of a1)). lia. }
        lia.
      - assert (Q : Forall (fun q => fst q = Elsewhere) tail) by (unfold tail; repeat constructor). rewrite E3, Forall_app, Forall_cons_iff in Q. destruct Q as (_ & Q & _). exact Q. }
    subst pl. exact En.
Qed.
(** The hypotheses are met by a module with something in every table, and every kind of outcome occurs. *)
Definition cut_at (k : nat) : res derr code * option derr := read_module None (firstn k (enc_module ex_mod)).
Example C82_ex : (exists c, accepted None (enc_module ex_mod) c /\ 0 < c_ntypes c) /\ (exists m ss fs secs, sections m secs /\ legal_module m ss fs /\ enc_module ex_mod = whole_of secs /\ (length secs > 10)%nat) /\
  cut_at 3 = (Panic PUnwrap, Some {| e_kind := NoMoreData; e_pos := 3 |}) /\ cut_at 10 = (Panic PUnwrap, None) /\
  cut_at 21 = (Err {| e_kind := NoMoreData; e_pos := 19 |}, Some {| e_kind := NoMoreData; e_pos := 19 |}) /\ cut_at 40 = (Panic PSlice, None) /\
  cut_at 49 = (Err {| e_kind := NoMoreData; e_pos := 47 |}, None) /\ cut_at 52 = (Panic PUnwrap, Some {| e_kind := NoMoreData; e_pos := 51 |}) /\ cut_at 80 = (Panic PUnwrap, None).
Proof.
  split; [|split; [|repeat split; vm_compute; reflexivity]].
  - destruct (C37_roundtrip ex_mod [] ex_wf) as (u & R). exists (view_module ex_mod u). rewrite app_nil_r in R. split; [unfold accepted; now rewrite R|reflexivity].
  - destruct ex_bytes as (B & L). destruct (C37_roundtrip ex_mod [] ex_wf) as (u & R). rewrite app_nil_r in R.
    destruct (C82_every (enc_module ex_mod) (view_module ex_mod u) B ltac:(lia)) as (m & ss & fs & secs & rest & S & Lg & E1 & E2 & C); [unfold accepted; now rewrite R|].
    exists m, ss, fs, secs. split; [exact S|]. split; [exact Lg|]. assert (Er : rest = []).
    { destruct (code_read (start None (enc_module ex_mod))) as [r s] eqn:Q. assert (D : d_buf s = []) by (replace s with (snd (code_read (start None (enc_module ex_mod)))) by (rewrite Q; reflexivity); vm_compute; reflexivity).
      rewrite E2 in Q. assert (SM : spell_module (whole_of secs) m) by (apply C82_sections; eauto). rewrite E2 in B. assert (L2 : zlen (whole_of secs ++ rest) < 2 ^ 63) by (rewrite <- E2; lia).
      destruct (C66_position _ _ _ _ _ B L2 SM Lg) as (s' & R' & _ & _ & D' & _). rewrite R' in Q. congruence. }
    subst rest. rewrite app_nil_r in E2. split; [exact E2|].
    destruct S as (counts & l1 & l2 & l3 & s4 & t1 & t2 & t3 & t4 & -> & _ & _ & _ & (sz & -> & _) & _). rewrite !app_length. cbn. lia.
Qed.
