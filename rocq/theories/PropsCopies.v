(** Theorems C85: how many table entries the reader copies.  Model: CostModel.v (the reader of CodeModel.v with counters of its cost). *)
From Verif Require Import Prelude StdModel BrassTypes DecoderModel CodeModel FormatSpec ReaderSpec ErrSpec GrammarSpec.
From Verif Require Import CodeGenericProofs FormatProofs ErrProofs ErrExact ReaderPost GrammarTypes PropsModule PropsGrammar PropsTurns CostProofs CostTurns CostQuiet CostCopies CostSections CostWhole CostExact.
From Verif Require CostModel.
Import CostModel(cost, turns, copied, filled, none, plus, entries).
From Coq Require Import Lia.
Local Open Scope Z_scope.

(** The numbers of strings, types and globals announced in the file's header (negative counts are taken as 0 there), added up. *)
Definition announced (file : list Z) (n : Z) : Prop :=
  exists v ks a b c, 2 <= v <= 5 /\ header_counts file v ks /\ znth ks 3 = Some a /\ znth ks (if 5 <=? v then 5 else 4) = Some b /\ znth ks (if 5 <=? v then 6 else 5) = Some c /\
    n = Z.max 0 a + Z.max 0 b + Z.max 0 c.

(** * the header *)
Section Header.
Variables (file : list Z) (old : option derr).
Hypothesis B : bytes file.
Lemma W_sets c : entries c = 0 -> W 1 c = Z.max 0 (c_nstrings c) + Z.max 0 (c_ntypes c) + Z.max 0 (c_nglobals c).
Proof. intros H. rewrite W_eq. unfold weight. rewrite H. lia. Qed.
Ltac cs X H k H' B :=
  unfold bind at 1 in X;
  match type of X with context [read_count ?set ?c ?s] =>
    let E := fresh "E" in let Y := fresh "Y" in
    destruct (read_count set c s) as [[?|?|?] ?] eqn:E; pose proof (read_count_st _ B _ _ _ _ _ _ _ _ H E) as Y; cbn beta iota in Y; clear E;
    [destruct Y as (k & -> & H' & _)|discriminate|discriminate]
  end.
Lemma header_read c0 s0 c s : read_magic code_new (start old file) = (Ok c0, s0) -> read_counts c0 s0 = (Ok c, s) -> announced file (W 1 c) /\ d_code s = code_new /\ zlen (d_buf s) <= zlen file /\ bytes (d_buf s) /\ declares_strings file (c_nstrings c).
Proof.
  intros X0 X. pose proof (magic_st _ B _ _ _ X0) as Y. cbn beta iota in Y. destruct Y as (v & Hv & -> & H0). unfold read_counts in X.
  unfold bind at 1 in X. destruct (ok UINDEX s0) as [[o|e|p] s1] eqn:E1; pose proof (count_st _ B _ _ _ _ _ _ H0 E1) as Y; cbn beta iota in Y; [|contradiction|discriminate]. destruct Y as (k0 & -> & H1 & _). clear E1.
  cbv zeta in X. cs X H1 k1 H2 B. cs X H2 k2 H3 B. cs X H3 k3 H4 B.
  cbn [c_version set_nstrings set_nfloats set_nints set_version] in X.
  assert (FIN : forall ks s2 c2, at_header file old v ks s2 -> entries c2 = 0 -> znth ks 3 = Some k3 -> c_nstrings c2 = Z.max 0 k3 -> (exists k4 k5, znth ks (if 5 <=? v then 5 else 4) = Some k4 /\ znth ks (if 5 <=? v then 6 else 5) = Some k5 /\ c_ntypes c2 = Z.max 0 k4 /\ c_nglobals c2 = Z.max 0 k5) ->
    (check_error ;;; ret c2) s2 = (Ok c, s) -> announced file (W 1 c) /\ d_code s = code_new /\ zlen (d_buf s) <= zlen file /\ bytes (d_buf s) /\ declares_strings file (c_nstrings c)).
  { clear - Hv B. intros ks s2 c2 (_ & HC & encs & F & Me) En Z3 N3 (k4 & k5 & Z4 & Z5 & N4 & N5) X. unfold bind, check_error, ret in X. destruct (errs s2); [discriminate|]. injection X as <- <-.
    split. { exists v, ks, k3, k4, k5. split; [exact Hv|]. split; [exists encs, (d_buf s2); auto|]. split; [exact Z3|]. split; [exact Z4|]. split; [exact Z5|]. rewrite W_sets by exact En. rewrite N3, N4, N5. lia. }
    split; [exact HC|]. split; [rewrite F, !zlen_app; pose proof (zlen_nonneg (concat encs)); change (zlen [72; 76; 66; v]) with 4; lia|].
    split; [rewrite F in B; unfold bytes in *; apply Forall_app in B; destruct B as (_ & B'); apply Forall_app in B'; apply B'|]. exists v, ks, k3. split; [exists encs, (d_buf s2); auto|]. split; [exact Z3|exact N3]. }
  assert (V : v = 2 \/ v = 3 \/ v = 4 \/ v = 5) by lia.
  destruct (Z.leb_spec 5 v) as [V5|V5].
  - cs X H4 kb H5 B. cs X H5 k5 H6 B. cs X H6 k6 H7 B. cs X H7 k7 H8 B. cs X H8 k8 H9 B.
    cbv zeta in X. rewrite (proj2 (Z.leb_le 4 _)) in X by (cbn; lia).
    cs X H9 k9 H10 B. cs X H10 k10 H11 B. refine (FIN _ _ _ H11 _ _ _ _ X); [vm_compute; reflexivity|reflexivity|reflexivity|]. exists k5, k6. repeat split; reflexivity.
  - unfold bind at 1 in X. unfold ret at 1 in X.
    cs X H4 k5 H6 B. cs X H6 k6 H7 B. cs X H7 k7 H8 B. cs X H8 k8 H9 B.
    cbv zeta in X. cbn [c_version set_nconstants set_nfunctions set_nnatives set_nglobals set_ntypes set_nstrings set_nfloats set_nints set_version] in X.
    destruct (Z.leb_spec 4 v) as [V4|V4].
    + cs X H9 k9 H10 B. cs X H10 k10 H11 B. refine (FIN _ _ _ H11 _ _ _ _ X); [vm_compute; reflexivity|reflexivity|reflexivity|]. exists k5, k6. repeat split; reflexivity.
    + unfold bind at 1 in X. unfold ret at 1 in X. cs X H9 k10 H11 B. refine (FIN _ _ _ H11 _ _ _ _ X); [vm_compute; reflexivity|reflexivity|reflexivity|]. exists k5, k6. repeat split; reflexivity.
Qed.
End Header.
Lemma code_read_body s : CostModel.code_read s = CostModel.bind (CostModel.read_magic code_new) (fun c => CostModel.bind (CostModel.read_counts c) body) s.
Proof. reflexivity. Qed.
Lemma no_cost A (m : M A) (k : A -> CostModel.M code) s r s' t : CostModel.bind (CostModel.free m) k s = ((r, s'), t) ->
  (exists a s1 t1, m s = (Ok a, s1) /\ k a s1 = ((r, s'), t1) /\ copied t = copied t1) \/ (copied t = 0 /\ match r with Ok _ => False | _ => True end).
Proof.
  unfold CostModel.bind, CostModel.free. destruct (m s) as [[a|e|u] s1].
  - destruct (k a s1) as [[r2 s2] t2] eqn:E2. intros E. injection E as <- <- <-. left. exists a, s1, t2. cbn [plus copied none]. repeat split; auto; lia.
  - intros E. injection E as <- <- <-. right. auto.
  - intros E. injection E as <- <- <-. right. auto.
Qed.
Lemma copies_found e0 file r s t : bytes file -> CostModel.code_read (start e0 file) = ((r, s), t) -> 0 <= copied t /\
  ((copied t = 0 /\ match r with Ok _ => False | _ => True end) \/ exists n, announced file n /\ zlen (d_buf s) <= zlen file /\ copied t <= (3 * (zlen file - zlen (d_buf s)) + match r with Ok _ => 0 | _ => 1 end) * (n + 2 * zlen file)).
Proof.
  intros B E. rewrite code_read_body in E. apply no_cost in E. destruct E as [(c0 & s0 & t0 & E0 & E & ->)|(Z0 & N)]; [|split; [lia|left; auto]].
  apply no_cost in E. destruct E as [(c & s1 & t1 & E1 & E & ->)|(Z0 & N)]; [|split; [lia|left; auto]].
  destruct (header_read file e0 B _ _ _ _ E0 E1) as (A & D & L & B1 & _).
  assert (Lf : 4 <= zlen file). { destruct A as (v & ks & a & b & x & _ & (encs & rest & -> & _) & _). rewrite !zlen_app. pose proof (zlen_nonneg (concat encs)). pose proof (zlen_nonneg rest). change (zlen [72; 76; 66; v]) with 4. lia. }
  assert (W0 : 0 <= W 1 c). { rewrite W_eq. pose proof (entries_le 1 1 ltac:(lia) ltac:(lia) c). pose proof (entries_pos c). lia. }
  set (K := W 1 c + 2 * zlen file) in *. assert (K0 : 0 < K) by lia.
  assert (I : F K 1 c s1) by (split; [lia|exact D]).
  destruct (step_body K K0 _ _ _ _ _ B1 I E) as (B2 & L2 & N2 & X). split; [exact N2|]. right. exists (W 1 c). split; [exact A|]. split; [lia|]. fold K.
  assert (3 * K * (zlen (d_buf s1) - zlen (d_buf s)) <= 3 * K * (zlen file - zlen (d_buf s))) by (apply Z.mul_le_mono_nonneg_l; lia).
  destruct r; lia.
Qed.
Lemma counts_prefix encs : forall encs' ks ks' rest rest', concat encs ++ rest = concat encs' ++ rest' -> map index_value encs = map Some ks -> map index_value encs' = map Some ks' ->
  forall i a a', znth ks i = Some a -> znth ks' i = Some a' -> a = a'.
Proof.
  induction encs as [|e encs IH]; intros encs' ks ks' rest rest' E V V' i a a' Z1 Z2; (destruct ks as [|k ks]; [discriminate|]); [discriminate|].
  destruct encs' as [|e' encs']; (destruct ks' as [|k' ks']; [discriminate|]); [discriminate|].
  cbn [map] in V, V'. injection V as V1 V2. injection V' as V1' V2'. cbn [concat] in E. rewrite <- !app_assoc in E.
  assert (e = e') as -> by (eapply index_prefix; eauto). apply app_inv_head in E. assert (k = k') as -> by congruence.
  cbn [znth] in Z1, Z2. destruct (i =? 0); [congruence|]. exact (IH encs' ks ks' rest rest' E V2 V2' (i - 1) a a' Z1 Z2).
Qed.
Lemma announced_unique file n n' : announced file n -> announced file n' -> n = n'.
Proof.
  intros (v & ks & a & b & c & _ & (encs & rest & F & V) & Za & Zb & Zc & ->) (v' & ks' & a' & b' & c' & _ & (encs' & rest' & F' & V') & Za' & Zb' & Zc' & ->).
  rewrite F in F'. injection F' as <- E. pose proof (counts_prefix _ _ _ _ _ _ E V V') as U. now rewrite (U _ _ _ Za Za'), (U _ _ _ Zb Zb'), (U _ _ _ Zc Zc').
Qed.
Lemma count_small file : bytes file -> forall v ks, header_counts file v ks -> forall i x, znth ks i = Some x -> Z.max 0 x <= I32_MAX.
Proof.
  intros B v ks (encs & rest & -> & V) i x Zx. assert (Gi : 0 <= i). { destruct (Z.lt_ge_cases i 0) as [G|G]; [|exact G]. exfalso. clear - Zx G. revert i Zx G. induction ks as [|k ks IH]; intros i Zx G; [discriminate|]. cbn [znth] in Zx. destruct (Z.eqb_spec i 0); [lia|]. apply (IH _ Zx). lia. }
    rewrite znth_nth_error in Zx by exact Gi. assert (Hx : nth_error (map index_value encs) (Z.to_nat i) = Some (Some x)) by (rewrite V; now rewrite nth_error_map, Zx).
    rewrite nth_error_map in Hx. destruct (nth_error encs (Z.to_nat i)) as [enc|] eqn:Ne; [|discriminate]. cbn in Hx. injection Hx as Hx. apply nth_error_In in Ne. apply in_split in Ne. destruct Ne as (l1 & l2 & ->).
    assert (Be : bytes enc). { unfold bytes in *. apply Forall_app in B. destruct B as (_ & B). apply Forall_app in B. destruct B as (B & _). rewrite concat_app in B. apply Forall_app in B. destruct B as (_ & B). cbn in B. apply Forall_app in B. apply B. }
    pose proof (index_value_range _ _ Be Hx) as R. unfold i32_range in R. unfold I32_MAX. lia.
Qed.
Lemma announced_range file n : bytes file -> announced file n -> 0 <= n <= 3 * I32_MAX.
Proof.
  intros B (v & ks & a & b & c & _ & HC & Za & Zb & Zc & ->). pose proof (count_small file B _ _ HC _ _ Za). pose proof (count_small file B _ _ HC _ _ Zb). pose proof (count_small file B _ _ HC _ _ Zc). lia.
Qed.

(** * C85 *)
(** Every file whatever, read in any process: nothing is copied before the header has been read; then at most three modules' worth of entries per byte
    read (and once more if the reading fails), where a module has at most as many entries as strings, types and globals are announced, plus two per byte. *)
Theorem C85_copies e0 file r s t n : bytes file -> announced file n -> CostModel.code_read (start e0 file) = ((r, s), t) ->
  0 <= copied t <= (3 * (zlen file - zlen (d_buf s)) + match r with Ok _ => 0 | _ => 1 end) * (n + 2 * zlen file).
Proof.
  intros B A E. destruct (copies_found _ _ _ _ _ B E) as (N & [(Z0 & Nr)|(n' & A' & L & X)]).
  - split; [exact N|]. destruct r; [contradiction|..]; pose proof (announced_range _ _ B A); pose proof (zlen_nonneg file); (assert (Ld : zlen (d_buf s) <= zlen file); [|apply Z.le_trans with 0; [lia|apply Z.mul_nonneg_nonneg; lia]]).
    all: pose proof (C78_same e0 file) as S1; rewrite E in S1; cbn [fst] in S1; symmetry in S1; destruct (good_len _ _ _ _ _ (good_code_read true) (B : bytes (d_buf (start e0 file))) S1) as (_ & Ld); exact Ld.
  - rewrite (announced_unique _ _ _ A A'). auto.
Qed.
Theorem C85_unannounced e0 file r s t : bytes file -> ~ (exists n, announced file n) -> CostModel.code_read (start e0 file) = ((r, s), t) -> copied t = 0 /\ match r with Ok _ => False | _ => True end.
Proof. intros B A E. destruct (copies_found _ _ _ _ _ B E) as (N & [(Z0 & Nr)|(n' & A' & L & X)]); [auto|]. exfalso. eauto. Qed.
(** So for any file whatever: *)
Theorem C85_uniform e0 file r s t : bytes file -> CostModel.code_read (start e0 file) = ((r, s), t) -> 0 <= copied t <= (3 * zlen file + 1) * (3 * I32_MAX + 2 * zlen file).
Proof.
  intros B E. pose proof (zlen_nonneg file). destruct (copies_found _ _ _ _ _ B E) as (N & [(Z0 & Nr)|(n' & A' & L & X)]).
  - split; [exact N|]. rewrite Z0. apply Z.mul_nonneg_nonneg; unfold I32_MAX; lia.
  - split; [exact N|]. eapply Z.le_trans; [exact X|]. pose proof (announced_range _ _ B A') as R. pose proof (zlen_nonneg (d_buf s)).
    apply Z.mul_le_mono_nonneg; [destruct r; lia|destruct r; lia|lia|lia].
Qed.
Lemma spelled_header h rest m : spell_header h m -> header_counts (h ++ rest) (rm_version m) ([rm_flags m; zlen (rm_ints m); zlen (rm_floats m); rs_count (rm_strings m)] ++ (if 5 <=? rm_version m then [zlen (rm_bytes_pos m)] else []) ++
  [zlen (rm_types m); zlen (rm_globals m); zlen (rm_natives m); zlen (rm_functions m)] ++ (if 4 <=? rm_version m then [zlen (rm_constants m)] else []) ++ [rm_entrypoint m]).
Proof.
  intros (b0 & b1 & b2 & b3 & b4 & b5 & b6 & b7 & b8 & b9 & b10 & -> & (V0 & _) & (V1 & _) & (V2 & _) & (V3 & _) & V4 & (V5 & _) & (V6 & _) & (V7 & _) & (V8 & _) & V9 & (V10 & _)).
  exists ([b0; b1; b2; b3] ++ (if 5 <=? rm_version m then [b4] else []) ++ [b5; b6; b7; b8] ++ (if 4 <=? rm_version m then [b9] else []) ++ [b10]), rest. split.
  - rewrite !concat_app. destruct (5 <=? rm_version m); [|destruct V4 as (-> & _)]; (destruct (4 <=? rm_version m); [|destruct V9 as (-> & _)]); cbn [concat app]; rewrite ?app_nil_r, <- ?app_assoc; reflexivity.
  - rewrite !map_app. destruct (5 <=? rm_version m); (destruct (4 <=? rm_version m)); cbn [map app]; rewrite ?V0, ?V1, ?V2, ?V3, ?V5, ?V6, ?V7, ?V8, ?V10; try (destruct V4 as (-> & _)); try (destruct V9 as (-> & _)); reflexivity.
Qed.
(** An accepted file of [L] bytes that announces [k] strings: *)
Theorem C85_accepted file c s t k : bytes file -> zlen file < 2 ^ 63 -> CostModel.code_read (start None file) = ((Ok c, s), t) -> declares_strings file k ->
  0 <= copied t <= 3 * zlen file * (k + 3 * zlen file).
Proof.
  intros B Lf E (v0 & ks0 & a0 & (encs & rest0 & F0 & V0) & Za & ->). pose proof (C78_same None file) as S1. rewrite E in S1. cbn [fst] in S1. symmetry in S1.
  assert (A : denotes file c) by (apply C66_exact; auto; apply accepted_run; exists s; exact S1). destruct A as (used & rest & m & ss & fs & F & Sm & G & _).
  destruct Sm as (h & s1 & s2 & s3 & s4 & s5 & -> & Hh & _ & _ & _ & _ & _ & M4 & (t1 & t2 & t3 & t4 & -> & M9 & _)). destruct G as (Hv & _).
  apply (many_count _ _ 1) in M4; [|exact type_len]. apply (many_count _ _ 1) in M9; [|exact ix_len].
  rewrite <- !app_assoc in F. pose proof (spelled_header h (flat_map (enc_le 4) (rm_ints m) ++ flat_map (enc_le 8) (rm_floats m) ++ s1 ++ s2 ++ s3 ++ s4 ++ t1 ++ t2 ++ t3 ++ t4 ++ rest) m Hh) as HC.
  repeat rewrite <- app_assoc in HC. rewrite <- F in HC.
  pose proof (zlen_nonneg (rm_types m)) as N1. pose proof (zlen_nonneg (rm_globals m)) as N2.
  assert (An : announced file (Z.max 0 (rs_count (rm_strings m)) + zlen (rm_types m) + zlen (rm_globals m))).
  { exists (rm_version m). eexists. exists (rs_count (rm_strings m)), (zlen (rm_types m)), (zlen (rm_globals m)). split; [exact Hv|]. split; [exact HC|]. split; [destruct (5 <=? rm_version m); reflexivity|]. split; [destruct (5 <=? rm_version m); reflexivity|]. split; [destruct (5 <=? rm_version m); reflexivity|]. lia. }
  assert (Ek : a0 = rs_count (rm_strings m)).
  { destruct HC as (encs' & rest' & F' & V'). rewrite F0 in F'. injection F' as _ E'. refine (counts_prefix _ _ _ _ _ _ E' V0 V' 3 _ _ Za _). destruct (5 <=? rm_version m); reflexivity. }
  pose proof (C85_copies None file _ _ _ _ B An E) as (Y1 & Y2). split; [exact Y1|]. eapply Z.le_trans; [exact Y2|]. rewrite Ek.
  assert (Lx : zlen (rm_types m) + zlen (rm_globals m) <= zlen file).
  { rewrite F, !zlen_app. repeat match goal with |- context [zlen ?l] => lazymatch goal with H : 0 <= zlen l |- _ => fail | _ => pose proof (zlen_nonneg l) end end. lia. }
  pose proof (zlen_nonneg (d_buf s)). pose proof (zlen_nonneg file).
  assert (Ld : zlen (d_buf s) <= zlen file) by (destruct (good_len _ _ _ _ _ (good_code_read true) (B : bytes (d_buf (start None file))) S1) as (_ & Ld); exact Ld).
  apply Z.mul_le_mono_nonneg; lia.
Qed.
(** The bounds are not in terms of the file's size alone, and not linear: files of [17] bytes and the two counts' spellings and one byte per type, announcing
    [ns] strings (of which there need be only one) and [nt] types of kind 0, are accepted, and exactly this much is copied: *)
Theorem C85_family es et ns nt : bytes es -> bytes et -> index_value es = Some ns -> index_value et = Some (Z.of_nat nt) -> 1 <= ns ->
  zlen (copies_file es et nt) = 17 + zlen es + zlen et + Z.of_nat nt /\
  exists c s t, CostModel.code_read (start None (copies_file es et nt)) = ((Ok c, s), t) /\ copied t = 3 * Z.of_nat nt * Z.of_nat nt + 2 * Z.of_nat nt * (ns + 2).
Proof.
  intros Be Bt Es Et Hn. split; [|apply copies_exact; auto]. unfold copies_file. rewrite !zlen_app. cbn [concat]. rewrite !zlen_app. unfold zlen. rewrite repeat_length. cbn [length]. lia.
Qed.
(** 23 bytes; 4294967301 entries copied *)
Theorem C85_linear_refuted : exists file c s t, bytes file /\ zlen file = 23 /\ CostModel.code_read (start None file) = ((Ok c, s), t) /\ copied t = 4294967301.
Proof.
  exists (copies_file [255; 255; 255; 127] [1] 1). destruct (C85_family [255; 255; 255; 127] [1] 2147483647 1) as (L & c & s & t & E & C).
  - repeat constructor; unfold is_byte; lia.
  - repeat constructor; unfold is_byte; lia.
  - reflexivity.
  - reflexivity.
  - lia.
  - exists c, s, t. split; [repeat constructor; unfold is_byte; lia|]. split; [exact L|]. split; [exact E|]. rewrite C. reflexivity.
Qed.
(** With one string (all that is announced is there): [n + 22] bytes, more than [3 * n * n] entries copied. *)
Theorem C85_quadratic_refuted n b x y z : 192 <= b < 256 -> is_byte x -> is_byte y -> 0 <= z < 128 -> Z.of_nat n = b + 256 * x + 65536 * y + 16777216 * z ->
  exists file c s t, bytes file /\ zlen file = Z.of_nat n + 22 /\ CostModel.code_read (start None file) = ((Ok c, s), t) /\ copied t = 3 * Z.of_nat n * (Z.of_nat n + 2).
Proof.
  intros Hb Hx Hy Hz Hn. exists (copies_file [1] [b; x; y; z] n). unfold is_byte in *. destruct (C85_family [1] [b; x; y; z] 1 n) as (L & c & s & t & E & C).
  - repeat constructor; unfold is_byte; lia.
  - repeat constructor; unfold is_byte; lia.
  - reflexivity.
  - unfold index_value. destruct (Z.leb_spec 192 b); [|lia]. cbv zeta. rewrite <- Hn. destruct (Z.ltb_spec (Z.of_nat n) 2147483648); [reflexivity|lia].
  - lia.
  - exists c, s, t. split.
    + unfold bytes, copies_file. repeat (apply Forall_app; split); try (repeat constructor; unfold is_byte; lia). apply Forall_forall. intros w Hw. apply repeat_spec in Hw. subst. unfold is_byte. lia.
    + split; [rewrite L; unfold zlen; cbn [length]; lia|]. split; [exact E|]. rewrite C. lia.
Qed.
(** The example module of PropsModule.v: 131 bytes, 10 entries announced, 717 copied. *)
Example C85_ex : announced (enc_module ex_mod) 10 /\ zlen (enc_module ex_mod) = 131 /\ exists c s t, CostModel.code_read (start None (enc_module ex_mod)) = ((Ok c, s), t) /\ copied t = 717.
Proof.
  split; [|split; [vm_compute; reflexivity|]].
  - exists 5, [1; 2; 1; 3; 2; 5; 2; 1; 1; 1; 0], 3, 5, 2. split; [lia|]. split; [|repeat split].
    exists (map (fun b => [b]) [1; 2; 1; 3; 2; 5; 2; 1; 1; 1; 0]), (skipn 15 (enc_module ex_mod)). split; vm_compute; reflexivity.
  - do 3 eexists. split; vm_compute; reflexivity.
Qed.
