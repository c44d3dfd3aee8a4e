(** The reader up to the type table (C83). *)
From Verif Require Import Prelude StdModel BrassTypes DecoderModel CodeModel FormatSpec ReaderSpec ErrSpec GrammarSpec.
From Verif Require Import CodeGenericProofs FormatProofs StringsProofs ReaderPost ErrProofs ErrExact GrammarDen GrammarPhases GrammarPhases2 GrammarTypes GrammarModule GrammarStrings GrammarCode BadSpec BadProofs.
From Coq Require Import Lia ZifyBool.

Lemma head_front bs m ss fs : spell_head bs m ss fs -> exists b1 b2 c6, bs = b1 ++ b2 /\ front b1 c6 /\
  debug_part c6 b2 (rs_count (rm_debugfiles m)) (rm_debugfiles m) fs /\
  c_nstrings c6 = rs_count (rm_strings m) /\ c_ntypes c6 = zlen (rm_types m) /\ c_nglobals c6 = zlen (rm_globals m) /\ c_nnatives c6 = zlen (rm_natives m) /\
  c_strings c6 = ss /\ c_ustrings c6 = zrepeat None (rs_count (rm_strings m)) /\
  c_nfunctions c6 = zlen (rm_functions m) /\ c_version c6 = rm_version m /\ negb (c_hasdebug c6 =? 0) = rm_debug m.
Proof.
  intros (h & s1 & s2 & s3 & -> & Hh & F1 & F2 & S1 & S2 & S3 & Rv & (N3 & T3) & (Nf & Tf)).
  destruct m as [v flags li lf t vb ps td ats ks nl fns cl ep]. unfold rm_debug in *. cbn [rm_ints rm_floats rm_strings rm_types rm_globals rm_natives rm_functions rm_constants rm_version rm_flags rm_bytes rm_bytes_pos rm_entrypoint rm_debugfiles] in *.
  destruct Hh as (b0 & b1 & b2 & b3 & b4 & b5 & b6 & b7 & b8 & b9 & b10 & -> & V0 & V1 & V2 & V3 & V4 & V5 & V6 & V7 & V8 & V9 & V10).
  cbn [rm_ints rm_floats rm_strings rm_types rm_globals rm_natives rm_functions rm_constants rm_version rm_flags rm_bytes rm_bytes_pos rm_entrypoint rm_debugfiles] in *.
  pose proof (cuts_len _ _ _ _ _ T3) as Ls. rewrite Z2Nat.id in Ls by auto.
  set (c2 := set_hasdebug (Z.land flags 1) (set_entrypoint ep (set_nconstants (zlen cl) (set_nfunctions (zlen fns) (set_nnatives (zlen nl) (set_nglobals (zlen ks) (set_ntypes (zlen ats) (set_nbytes (zlen ps) (set_nstrings (rs_count t) (set_nfloats (zlen lf) (set_nints (zlen li) (set_version v code_new)))))))))))).
  set (c3 := set_ints li c2). set (c4 := set_floats lf c3). set (c5 := set_ustrings (zrepeat None (c_nstrings c4)) (set_strings_lens (c_strings_lens c4 ++ map zlen ss) (set_strings ss c4))).
  exists (([72; 76; 66; v] ++ b0 ++ b1 ++ b2 ++ b3 ++ b4 ++ b5 ++ b6 ++ b7 ++ b8 ++ b9 ++ b10) ++ flat_map (enc_le 4) li ++ flat_map (enc_le 8) lf ++ s1 ++ s2), s3, (set_bytes_pos ps (set_bytes vb c5)).
  split; [rewrite <- !app_assoc; reflexivity|]. split; [|split; [|repeat split]].
  - exists v, (b0 ++ b1 ++ b2 ++ b3 ++ b4 ++ b5 ++ b6 ++ b7 ++ b8 ++ b9 ++ b10), (flat_map (enc_le 4) li), (flat_map (enc_le 8) lf), s1, s2, c2, c3, c4, c5.
    split; [rewrite <- !app_assoc; reflexivity|]. split; [exact Rv|]. split.
    { exists flags, (zlen li), (zlen lf), (rs_count t), (zlen ps), (zlen ats), (zlen ks), (zlen nl), (zlen fns), (zlen cl), ep, b0, b1, b2, b3, b4, b5, b6, b7, b8, b9, b10.
      split; [reflexivity|]. split; [exact V0|]. split; [exact V1|]. split; [exact V2|]. split; [exact V3|]. split; [cbn; destruct (5 <=? v); [exact V4|]; destruct V4 as (-> & _ & ->); auto|].
      split; [exact V5|]. split; [exact V6|]. split; [exact V7|]. split; [exact V8|]. split; [cbn; destruct (4 <=? v); [exact V9|]; destruct V9 as (-> & ->); auto|]. split; [exact V10|reflexivity]. }
    split; [exists li; cbn; pose proof (zlen_nonneg li); repeat split; auto; lia|]. split; [exists lf; cbn - [Z.pow]; pose proof (zlen_nonneg lf); repeat split; auto; lia|].
    split; [exists t, ss; split; [split; [reflexivity|split; [exact S1|exact T3]]|reflexivity]|].
    unfold spell_bytes in S2. cbn [rm_ints rm_version rm_bytes rm_bytes_pos] in S2. change (c_version c5) with v. destruct (5 <=? v).
    * destruct S2 as (b & -> & Lb & Mb). exists vb, ps, b. split; [reflexivity|]. split; [exact Lb|]. split; [exact Mb|]. split; [cbn; pose proof (zlen_nonneg ps); lia|]. change (c_bytes_pos c5) with (@nil Z). now rewrite app_nil_r.
    * destruct V4 as (_ & -> & ->). split; [exact S2|]. now apply set_bytes_none.
  - unfold debug_part. cbn - [Z.pow I32_MAX Z.land mean_module]. rewrite odd_flag.
    unfold spell_debugfiles, rm_debug in S3. cbn [rm_flags rm_debugfiles] in S3. destruct (Z.odd flags); [destruct S3 as (c1 & d2 & -> & V & S); exists c1, d2; split; [auto|]; split; [auto|]; split; auto|].
    destruct S3 as (-> & ->). split; [auto|]. split; [auto|]. split; [auto|]. cbn in Tf. destruct fs; [auto|destruct Tf].
  - unfold rm_debug. cbn [rm_flags]. apply odd_flag.
Qed.
Lemma head_run bs m ss fs rest : spell_head bs m ss fs -> bytes (bs ++ rest) -> zlen (bs ++ rest) < 2 ^ 63 ->
  exists c d, code_read (start None (bs ++ rest)) =
    (c <- read_types c ;; c <- read_globals c ;; c <- read_natives c ;; c <- read_functions c ;; c <- read_constants c ;; get_code) (S_ rest (zlen bs) d []) /\
  c_nstrings c = rs_count (rm_strings m) /\ c_ntypes c = zlen (rm_types m) /\ c_nglobals c = zlen (rm_globals m) /\ c_nnatives c = zlen (rm_natives m) /\
  c_strings c = ss /\ zlen (c_ustrings c) = rs_count (rm_strings m) /\ 0 <= rs_count (rm_strings m) <= I32_MAX /\ zlen (rm_types m) <= I32_MAX.
Proof.
  intros H B L. destruct (head_front bs m ss fs H) as (b1 & b2 & c6 & -> & F & D & Q1 & Q2 & Q3 & Q4 & Q5 & Q6 & _).
  assert (Bb : bytes b1) by (rewrite <- app_assoc in B; now apply Forall_app in B). destruct (front_ready _ _ Bb F) as (Rd & E1).
  assert (C : clean (start None ((b1 ++ b2) ++ rest))) by (split; auto).
  assert (E : d_buf (start None ((b1 ++ b2) ++ rest)) = b1 ++ b2 ++ rest) by (cbn; now rewrite app_assoc).
  exists (m7 c6 (rs_count (rm_debugfiles m)) fs), (dec7 c6 (rs_count (rm_debugfiles m)) fs).
  rewrite code_read_front. rewrite (step_from _ _ _ _ _ _ _ b1 (b2 ++ rest) c6 code_new (den_front (fun d => d = code_new))); auto; [|split; auto].
  unfold read_back. pose proof (clean_fin _ _ _ code_new C E) as C6.
  rewrite (step_from _ _ _ _ _ _ _ b2 rest (m7 c6 (rs_count (rm_debugfiles m)) fs) (dec7 c6 (rs_count (rm_debugfiles m)) fs) (den7 c6 Rd E1)); auto; [|eauto 10].
  split; [rewrite fin_fin, <- zlen_app; reflexivity|]. destruct Rd as (U & R1 & R2 & _). unfold m7. cbn - [I32_MAX zlen].
  rewrite Q6, Q1 in *. rewrite Q2 in R2. repeat split; auto; try lia. apply zlen_repeat. lia.
Qed.
