(** C87: the exact work of an accepted file (WorkSpec.v). *)
From Verif Require Import Prelude StdModel BrassTypes DecoderModel CodeModel FormatSpec ReaderSpec ErrSpec GrammarSpec WorkSpec.
From Verif Require Import CodeGenericProofs FormatProofs StringsProofs ReaderPost CostProofs PropsGrammar GrammarDen GrammarFuns GrammarTypes GrammarPhases GrammarPhases2 GrammarNames GrammarModule GrammarCode PropsModule CostWork CostPhases CostFuns.
From Verif Require CostModel.
Import CostModel(cost, turns, copied, filled, none, plus).
From Coq Require Import Lia ZifyBool.
Local Open Scope Z_scope.

(** * types *)
Lemma resolve_len have : forall ns ins, length (fst (resolve have ins ns)) = length ns.
Proof.
  induction ns as [|n r IH]; intros ins; cbn [resolve]; [reflexivity|]. destruct (slot have ins n) as [m|].
  - specialize (IH ins). destruct (resolve have ins r). cbn [fst length] in *. now rewrite IH.
  - specialize (IH (n :: ins)). destruct (resolve have (n :: ins) r). cbn [fst length] in *. now rewrite IH.
Qed.
Lemma total_combine A B (w : B -> Z) (a : list A) : forall b, (length b <= length a)%nat -> total (fun p => w (snd p)) (combine a b) = total w b.
Proof.
  induction a as [|x a IH]; intros [|y b] L; cbn [combine length] in *; try reflexivity; [lia|]. change (w y + total (fun p => w (snd p)) (combine a b) = w y + total w b). rewrite IH by lia. reflexivity.
Qed.
Lemma type_turns_mean xs ts a : length xs = length (names_of a) -> type_turns (mean_type xs ts a) = atype_turns a.
Proof.
  intros L. destruct a; cbn [mean_type type_turns vt_union atype_turns names_of] in *; pose proof @zlen_nonneg as P; rewrite ?Z.max_r by apply P; try reflexivity.
  f_equal. rewrite total_map. cbn [ec_nparams]. rewrite (total_combine _ _ (fun p => Z.max 0 (zlen p))), total_map.
  - apply total_ext. intros c. rewrite Z.max_r by apply P. reflexivity.
  - cbn [length] in L. rewrite map_length in L. rewrite map_length, skipn_length. lia.
Qed.
Lemma types_turns ss : forall ats ins ts, total type_turns (fst (mean_types ss ins ts ats)) = total type_turns ts + total atype_turns ats.
Proof.
  induction ats as [|a r IH]; intros ins ts; cbn [mean_types]; [cbn [fst]; change (total atype_turns []) with 0; lia|]. pose proof (resolve_len (zlen ss) (names_of a) ins) as L. destruct (resolve (zlen ss) ins (names_of a)) as [ms ins'].
  rewrite IH, total_app. cbn [fst] in L. change (total atype_turns (a :: r)) with (atype_turns a + total atype_turns r). set (x := mean_type _ _ _). change (total type_turns [x]) with (type_turns x + 0). unfold x. rewrite type_turns_mean by (rewrite map_length; exact L). lia.
Qed.
Lemma cuts_sizes text : forall n cur sizes ss, cuts text n cur sizes ss -> zlen ss = zlen sizes.
Proof.
  induction n as [|n IH]; intros cur [|k sizes] [|s ss]; cbn [cuts]; try tauto. intros (_ & H). rewrite !zlen_cons.
  destruct (zlen text <=? cur + k); [destruct H as (-> & ->); reflexivity|]. apply IH in H. lia.
Qed.

Definition back_part (c6 : code) : CostModel.M code := CostModel.bind (CostModel.read_debugfiles c6) (fun c => CostModel.bind (CostModel.read_types c) (fun c => CostModel.bind (CostModel.read_globals c) (fun c => CostModel.bind (CostModel.read_natives c) (fun c =>
    CostModel.bind (CostModel.read_functions c) (fun c => CostModel.bind (CostModel.read_constants c) (fun _ => CostModel.get_code)))))).
Section Meter.
Variables al be : Z.
Notation runs := (runs al be).

Definition front_cost (c : code) : Z := al * Z.max 0 (c_nints c) + (al * Z.max 0 (c_nfloats c) + ((al * zlen (c_strings c) + be * Z.max 0 (c_nstrings c)) + if 5 <=? c_version c then al * Z.max 0 (c_nbytes c) + be * zlen (c_bytes c) else 0)).
Ltac z := repeat first [apply z_free|apply z_on|apply z_bind; [|intros ?]|match goal with |- CostWork.zero _ _ (match ?x with _ => _ end) => destruct x end].
Lemma front_runs A (k : code -> CostModel.M A) s bs rest c6 a s2 w : front bs c6 -> clean s -> d_buf s = bs ++ rest -> runs (k c6) (fin s rest (zlen bs) (d_code s)) a s2 w ->
  runs (CostModel.bind (CostModel.read_magic code_new) (fun c => CostModel.bind (CostModel.read_counts c) (fun c => CostModel.bind (CostModel.read_ints c) (fun c => CostModel.bind (CostModel.read_floats c) (fun c =>
    CostModel.bind (CostModel.read_string_table c) (fun c => CostModel.bind (CostModel.read_bytes_section c) k)))))) s a s2 (front_cost c6 + w).
Proof.
  intros (v & q0 & q1 & q2 & q3 & q4 & c2 & c3 & c4 & c5 & -> & Rv & H2 & H3 & H4 & H5 & H6) C B K. rewrite <- !app_assoc in B.
  pose proof (clean_fin _ _ _ (d_code s) C B) as C1. pose proof (clean_fin _ q0 (q1 ++ q2 ++ q3 ++ q4 ++ rest) (d_code s) C1 eq_refl) as C2. pose proof (clean_fin _ q1 (q2 ++ q3 ++ q4 ++ rest) (d_code s) C2 eq_refl) as C3.
  pose proof (clean_fin _ q2 (q3 ++ q4 ++ rest) (d_code s) C3 eq_refl) as C4. pose proof (clean_fin _ q3 (q4 ++ rest) (d_code s) C4 eq_refl) as C5. rewrite !fin_fin in *.
  assert (N : c_nints c6 = c_nints c2 /\ c_nfloats c6 = c_nfloats c3 /\ c_strings c6 = c_strings c5 /\ c_nstrings c6 = c_nstrings c4 /\ c_version c6 = c_version c5 /\ c_nbytes c6 = c_nbytes c5).
  { destruct H3 as (li & _ & _ & _ & ->), H4 as (lf & _ & _ & _ & ->), H5 as (t & ss & _ & ->). match type of H6 with if ?b then _ else _ => destruct b end; [destruct H6 as (w' & ps & b & _ & _ & _ & _ & ->)|destruct H6 as (_ & ->)]; cbn; auto 10. }
  destruct N as (N1 & N2 & N3 & N4 & N5 & N6). unfold front_cost. rewrite N1, N2, N3, N4, N5, N6. rewrite <- !Z.add_assoc.
  pose (I := fun _ : code => True).
  eapply r_then. { eapply (r_den al be I) with (Q := fun _ v => v = 0); [apply same_free|apply den_read_magic|apply c_zero; [apply z_free|auto]|exact C|exact Logic.I|exact B|split; [exists v; split; [reflexivity|split; [exact Rv|reflexivity]]|reflexivity]|auto]. }
  eapply r_then. { eapply (r_den al be I) with (Q := fun _ v => v = 0); [apply same_free|apply den_read_counts|apply c_zero; [apply z_free|auto]|exact C1|exact Logic.I|reflexivity|split; [exact H2|reflexivity]|auto]. }
  rewrite fin_fin.
  eapply r_bind. { eapply (r_den al be I); [apply same_read_ints|apply den_read_ints|apply co_ints|exact C2|exact Logic.I|reflexivity|split; [exact H3|reflexivity]|auto]. }
  rewrite fin_fin.
  eapply r_bind. { eapply (r_den al be I); [apply same_read_floats|apply den_read_floats|apply co_floats|exact C3|exact Logic.I|reflexivity|split; [exact H4|reflexivity]|auto]. }
  rewrite fin_fin. rewrite Z.add_assoc.
  eapply r_bind. { eapply (r_den al be I); [apply same_read_string_table|apply den_read_string_table|apply co_table|exact C4|exact Logic.I|reflexivity|split; [exact H5|reflexivity]|auto]. }
  rewrite fin_fin.
  eapply r_bind. { eapply (r_den al be I); [apply same_read_bytes_section|apply den_read_bytes_section|apply co_bytes|exact C5|exact Logic.I|reflexivity|split; [exact H6|reflexivity]|auto]. }
  rewrite fin_fin. rewrite !zlen_app in K. rewrite <- !Z.add_assoc in *. exact K.
Qed.

Section Back.
Variable c6 : code.
Hypothesis Hr : ready c6.
Hypothesis Hd : c_ndebugfiles c6 = 0 /\ c_debugfiles c6 = [].
Let dbg := negb (c_hasdebug c6 =? 0).
Let ns := c_nstrings c6. Let nt := c_ntypes c6. Let ss := c_strings c6.
Definition back_cost (fs : list str) (ats : list atype) (fns : list rfun) (cl : list (Z * list Z)) : Z :=
  al * zlen fs + (((al + be) * Z.max 0 nt + al * total atype_turns ats) + ((al + be) * Z.max 0 (c_nglobals c6) + (al * Z.max 0 (c_nnatives c6) +
    ((al * (zlen fns + total fun_turns fns) + be * total (fun_written dbg) fns) + (al * Z.max 0 (c_nconstants c6) + al * total (fun k => zlen (snd k)) cl))))).
Lemma back_runs s rest q1 q2 q3 q4 q5 q6 n td fs ats ks nl fns cl : clean s -> d_code s = code_new -> d_buf s = (q1 ++ q2 ++ q3 ++ q4 ++ q5 ++ q6) ++ rest ->
    debug_part c6 q1 n td fs -> (zlen ats = nt /\ many spell_type q2 ats /\ legal_types ns nt 0 ats) -> (zlen ks = Z.max 0 (c_nglobals c6) /\ many ix q3 ks /\ Forall (fun k => 0 <= k < nt) ks) ->
    (zlen nl = Z.max 0 (c_nnatives c6) /\ many spell_native q4 nl /\ Forall (natR ss nt ns) nl) ->
    (zlen fns = Z.max 0 (c_nfunctions c6) /\ many (spell_fun (c_version c6) dbg) q5 fns /\ Forall (legal_fun nt n dbg) fns) -> (zlen cl = Z.max 0 (c_nconstants c6) /\ many spell_constant q6 cl) ->
  exists x s', runs (back_part c6) s x s' (back_cost fs ats fns cl).
Proof.
  intros C D B H7 (L8 & M8 & F8) (L9 & M9 & F9) (L10 & M10 & F10) (L11 & M11 & F11) (L12 & M12).
  assert (Hn : n <= I32_MAX). { apply debug_part_range with (q := q1) in H7; auto. destruct C as (Bs & _). rewrite B, <- app_assoc in Bs. now apply Forall_app in Bs. }
  rewrite <- !app_assoc in B.
  pose proof (clean_fin _ _ _ (dec7 c6 n fs) C B) as C7. set (s7 := fin s _ _ _) in C7.
  pose proof (clean_fin s7 q2 (q3 ++ q4 ++ q5 ++ q6 ++ rest) (dec8 c6 n fs ats) C7 eq_refl) as C8. set (s8 := fin s7 _ _ _) in C8.
  pose proof (clean_fin s8 q3 (q4 ++ q5 ++ q6 ++ rest) (dec9 c6 n fs ats ks) C8 eq_refl) as C9. set (s9 := fin s8 _ _ _) in C9.
  pose proof (clean_fin s9 q4 (q5 ++ q6 ++ rest) (dec10 c6 n fs ats ks nl) C9 eq_refl) as C10. set (s10 := fin s9 _ _ _) in C10.
  pose proof (clean_fin s10 q5 (q6 ++ rest) (dec11 c6 n fs ats ks nl fns) C10 eq_refl) as C11. set (s11 := fin s10 _ _ _) in C11.
  destruct (m8_parts c6 Hr n fs ats) as (P1 & P2 & P3 & P4 & P5 & P6 & P7 & P8 & P9 & P10 & P11 & P12 & P13 & P14 & P15). pose proof Hr as (U & R1 & R2 & _).
  assert (K9 : c_nnatives (m9 c6 n fs ats ks) = c_nnatives c6) by exact P9.
  assert (K11 : c_nconstants (m11 c6 n fs ats ks nl fns) = c_nconstants c6 /\ c_constants (m11 c6 n fs ats ks nl fns) = []) by (split; [exact P11|exact P15]). destruct K11 as (K11 & K12).
  assert (X : c_ndebugfiles (m10 c6 n fs ats ks nl) = n /\ c_hasdebug (m10 c6 n fs ats ks nl) = c_hasdebug c6 /\ c_version (m10 c6 n fs ats ks nl) = c_version c6 /\ c_nfunctions (m10 c6 n fs ats ks nl) = c_nfunctions c6 /\ c_functions (m10 c6 n fs ats ks nl) = []).
  { split; [exact P5|]. split; [exact P6|]. split; [exact P7|]. split; [exact P10|exact P14]. } destruct X as (X1 & X2 & X3 & X4 & X5).
  eexists. eexists. unfold back_cost, back_part.
  eapply r_bind. { eapply r_den with (rest := q2 ++ q3 ++ q4 ++ q5 ++ q6 ++ rest); [apply same_read_debugfiles|apply (den7 c6 Hr Hd)|apply co_debugfiles|exact C|exact D|exact B|exists n, td, fs; split; [exact H7|split; reflexivity]|].
    cbv beta. intros w ->. fold dbg. change (c_debugfiles (m7 c6 n fs)) with fs. unfold debug_part in H7. fold dbg in H7. destruct dbg; [reflexivity|]. destruct H7 as (_ & _ & _ & ->). change (zlen (@nil str)) with 0. lia. }
  fold s7. eapply r_bind. { eapply r_den with (rest := q3 ++ q4 ++ q5 ++ q6 ++ rest); [apply same_read_types|apply (den8 c6 Hr n fs)|apply co_types|exact C7|reflexivity|reflexivity|exists ats; split; [exact L8|split; [exact M8|split; [exact F8|split; reflexivity]]]|].
    cbv beta. intros w ->. rewrite P4. change (c_ntypes (m7 c6 n fs)) with nt. rewrite total_app, types_turns, total_zero by reflexivity. change (total type_turns []) with 0. rewrite Z.add_0_l, Z.add_0_r. reflexivity. }
  fold s8. eapply r_bind. { eapply r_den with (rest := q4 ++ q5 ++ q6 ++ rest); [apply same_read_globals|apply (den9 c6 Hr n fs ats)|apply co_globals|exact C8|reflexivity|reflexivity|exists ks; split; [exact L9|split; [exact M9|split; [exact F9|split; reflexivity]]]|].
    cbv beta. intros w ->. rewrite P8. reflexivity. }
  fold s9. eapply r_bind. { eapply r_den with (rest := q5 ++ q6 ++ rest); [apply same_read_natives|apply (den10 c6 Hr Hd n fs ats ks L8 L9 F9)|apply co_natives|exact C9|reflexivity|reflexivity|exists nl; split; [exact L10|split; [exact M10|split; [exact F10|split; reflexivity]]]|].
    cbv beta. intros w ->. rewrite K9. reflexivity. }
  fold s10. eapply r_bind. { eapply r_known with (rest := q6 ++ rest); [apply same_read_functions|apply (den11 c6 Hr n fs ats ks nl Hn)|exact C10|reflexivity|reflexivity|exists fns; split; [exact L11|split; [exact M11|split; [exact F11|split; reflexivity]]]|].
    pose proof (r_functions al be (fst (mean_types ss [] [] ats) ++ zrepeat vt_default nt) nt ns n (m10 c6 n fs ats ks nl) s10 q5 (q6 ++ rest) fns) as W. cbv zeta in W. rewrite X2, X3, X4 in W. fold dbg in W. apply W; auto.
    - apply (ts_len c6 Hr).
    - apply R2.
    - split; [exact P4|]. split; [exact P1|exact P2]. }
  fold s11. eapply eq_ind. { eapply r_bind. { eapply r_den with (rest := rest); [apply same_read_constants|apply (den12 c6 Hr n fs ats ks nl fns)|apply co_constants|exact C11|reflexivity|reflexivity|exists cl; split; [exact L12|split; [exact M12|split; reflexivity]]|].
    cbv beta. intros w ->. rewrite K11, K12. change (total (fun k => Z.max 0 (k_nfields k)) []) with 0. change (c_constants (m12 c6 n fs ats ks nl fns cl)) with (map mean_const cl). rewrite total_map. rewrite (total_ext _ _ (fun k : Z * list Z => zlen (snd k))), Z.sub_0_r; [reflexivity|].
    intros k. unfold mean_const. cbn [k_nfields]. apply Z.max_r, zlen_nonneg. }
    apply r_getc. }
  apply Z.add_0_r.
Qed.
End Back.
End Meter.

(** the module after the string and byte tables, and what it has in it *)
Lemma front_of h s1 s2 m ss : spell_header h m -> Forall i32_range (rm_ints m) -> Forall (fun x => 0 <= x < 2 ^ 64) (rm_floats m) -> spell_strings s1 (rm_strings m) -> spell_bytes s2 m -> 2 <= rm_version m <= 5 -> strings_of (rm_strings m) ss ->
  exists c6, front (h ++ flat_map (enc_le 4) (rm_ints m) ++ flat_map (enc_le 8) (rm_floats m) ++ s1 ++ s2) c6 /\
    (c_nints c6 = zlen (rm_ints m) /\ c_nfloats c6 = zlen (rm_floats m) /\ c_strings c6 = ss /\ c_nstrings c6 = rs_count (rm_strings m) /\ c_version c6 = rm_version m /\ c_nbytes c6 = zlen (rm_bytes_pos m) /\ c_bytes c6 = rm_bytes m) /\
    (c_ntypes c6 = zlen (rm_types m) /\ c_nglobals c6 = zlen (rm_globals m) /\ c_nnatives c6 = zlen (rm_natives m) /\ c_nfunctions c6 = zlen (rm_functions m) /\ c_nconstants c6 = zlen (rm_constants m) /\ negb (c_hasdebug c6 =? 0) = rm_debug m).
Proof.
  intros Hh F1 F2 S1 S2 Rv (N3 & T3).
  destruct m as [v flags li lf t vb ps td ats ks nl fns cl ep]. unfold rm_debug in *. cbn [rm_ints rm_floats rm_strings rm_types rm_globals rm_natives rm_functions rm_constants rm_version rm_flags rm_bytes rm_bytes_pos rm_entrypoint rm_debugfiles] in *.
  destruct Hh as (b0 & b1 & b2 & b3 & b4 & b5 & b6 & b7 & b8 & b9 & b10 & -> & V0 & V1 & V2 & V3 & V4 & V5 & V6 & V7 & V8 & V9 & V10).
  cbn [rm_ints rm_floats rm_strings rm_types rm_globals rm_natives rm_functions rm_constants rm_version rm_flags rm_bytes rm_bytes_pos rm_entrypoint rm_debugfiles] in *.
  set (c2 := set_hasdebug (Z.land flags 1) (set_entrypoint ep (set_nconstants (zlen cl) (set_nfunctions (zlen fns) (set_nnatives (zlen nl) (set_nglobals (zlen ks) (set_ntypes (zlen ats) (set_nbytes (zlen ps) (set_nstrings (rs_count t) (set_nfloats (zlen lf) (set_nints (zlen li) (set_version v code_new)))))))))))).
  set (c3 := set_ints li c2). set (c4 := set_floats lf c3). set (c5 := set_ustrings (zrepeat None (c_nstrings c4)) (set_strings_lens (c_strings_lens c4 ++ map zlen ss) (set_strings ss c4))).
  exists (set_bytes_pos ps (set_bytes vb c5)). split.
  - exists v, (b0 ++ b1 ++ b2 ++ b3 ++ b4 ++ b5 ++ b6 ++ b7 ++ b8 ++ b9 ++ b10), (flat_map (enc_le 4) li), (flat_map (enc_le 8) lf), s1, s2, c2, c3, c4, c5.
    split; [rewrite <- !app_assoc; reflexivity|]. split; [exact Rv|]. split.
    { exists flags, (zlen li), (zlen lf), (rs_count t), (zlen ps), (zlen ats), (zlen ks), (zlen nl), (zlen fns), (zlen cl), ep, b0, b1, b2, b3, b4, b5, b6, b7, b8, b9, b10.
      split; [reflexivity|]. split; [exact V0|]. split; [exact V1|]. split; [exact V2|]. split; [exact V3|]. split; [cbn; destruct (5 <=? v); [exact V4|]; destruct V4 as (-> & _ & ->); auto|].
      split; [exact V5|]. split; [exact V6|]. split; [exact V7|]. split; [exact V8|]. split; [cbn; destruct (4 <=? v); [exact V9|]; destruct V9 as (-> & ->); auto|]. split; [exact V10|reflexivity]. }
    split; [exists li; cbn; pose proof (zlen_nonneg li); repeat split; auto; lia|]. split; [exists lf; cbn - [Z.pow]; pose proof (zlen_nonneg lf); repeat split; auto; lia|].
    split; [exists t, ss; split; [split; [reflexivity|split; [exact S1|exact T3]]|reflexivity]|].
    unfold spell_bytes in S2. cbn [rm_ints rm_version rm_bytes rm_bytes_pos] in S2. change (c_version c5) with v. destruct (5 <=? v).
    * destruct S2 as (b & -> & Lb & Mb). exists vb, ps, b. split; [reflexivity|]. split; [exact Lb|]. split; [exact Mb|]. split; [cbn; pose proof (zlen_nonneg ps); lia|]. change (c_bytes_pos c5) with (@nil Z). now rewrite app_nil_r.
    * destruct V4 as (_ & -> & ->). split; [exact S2|]. now apply set_bytes_none.
  - split; [repeat split; reflexivity|]. split; [reflexivity|]. split; [reflexivity|]. split; [reflexivity|]. split; [reflexivity|]. split; [reflexivity|]. cbn - [Z.land]. apply odd_flag.
Qed.
(** every file whose beginning spells a legal tree *)
Lemma whole_runs al be used rest m ss fs : bytes (used ++ rest) -> zlen (used ++ rest) < 2 ^ 63 -> spell_module used m -> legal_module m ss fs ->
  exists x s', runs al be CostModel.code_read (start None (used ++ rest)) x s' (al * work m + be * written m).
Proof.
  intros B L (h & s1 & s2 & s3 & s4 & s5 & -> & Hh & F1 & F2 & S1 & S2 & S3 & S4 & (t1 & t2 & t3 & t4 & -> & M9 & M10 & M11 & M12)) (Rv & St & (Nf & Tf) & F8 & F9 & F10 & F11).
  assert (V5 : rm_version m < 5 -> rm_bytes m = [] /\ rm_bytes_pos m = []).
  { destruct Hh as (b0 & b1 & b2 & b3 & b4 & b5 & b6 & b7 & b8 & b9 & b10 & _ & _ & _ & _ & _ & V4 & _). intros Lv. replace (5 <=? rm_version m) with false in V4 by lia. apply V4. }
  destruct (front_of _ _ _ _ _ Hh F1 F2 S1 S2 Rv St) as (c6 & Fr & (K1 & K2 & K3 & K4 & K5 & K6 & K7) & K8 & K9 & K10 & K11 & K12 & Od). destruct St as (N3 & T3).
  pose proof (cuts_len _ _ _ _ _ T3) as Ls. rewrite Z2Nat.id in Ls by auto. pose proof @zlen_nonneg as P.
  set (bf := h ++ flat_map (enc_le 4) (rm_ints m) ++ flat_map (enc_le 8) (rm_floats m) ++ s1 ++ s2) in *.
  assert (Eb : (h ++ flat_map (enc_le 4) (rm_ints m) ++ flat_map (enc_le 8) (rm_floats m) ++ s1 ++ s2 ++ s3 ++ s4 ++ t1 ++ t2 ++ t3 ++ t4) ++ rest = bf ++ (s3 ++ s4 ++ t1 ++ t2 ++ t3 ++ t4) ++ rest) by (unfold bf; rewrite <- !app_assoc; reflexivity).
  rewrite Eb in *. clear Eb. clearbody bf.
  assert (C : clean (start None (bf ++ (s3 ++ s4 ++ t1 ++ t2 ++ t3 ++ t4) ++ rest))) by (split; auto).
  pose proof (clean_fin _ bf _ code_new C eq_refl) as C1. assert (Bb : bytes bf) by (now apply Forall_app in B). destruct (front_ready _ _ Bb Fr) as (Rd & E1).
  destruct (back_runs al be c6 Rd E1 _ rest s3 s4 t1 t2 t3 t4 (rs_count (rm_debugfiles m)) (rm_debugfiles m) fs (rm_types m) (rm_globals m) (rm_natives m) (rm_functions m) (rm_constants m) C1 eq_refl eq_refl) as (x & s' & Rb).
  { unfold debug_part. rewrite Od. unfold spell_debugfiles in S3. destruct (rm_debug m); [destruct S3 as (k1 & d2 & -> & V & S); exists k1, d2; split; [auto|]; split; [auto|]; split; auto|].
    destruct S3 as (-> & E3). rewrite E3 in *. split; [auto|]. split; [auto|]. split; [auto|]. cbn in Tf. destruct fs; [auto|destruct Tf]. }
  { rewrite K8, K4. split; [reflexivity|]. split; [exact S4|exact F8]. }
  { rewrite K9, K8. split; [rewrite Z.max_r by apply P; reflexivity|]. split; [exact M9|exact F9]. }
  { rewrite K10, K8, K4, K3. split; [rewrite Z.max_r by apply P; reflexivity|]. split; [exact M10|]. eapply Forall_impl; [|exact F10]. intros [[[a b] c] d]. unfold natR. lia. }
  { rewrite Od, K11, K8, K5. split; [rewrite Z.max_r by apply P; reflexivity|]. split; [exact M11|exact F11]. }
  { rewrite K12. split; [rewrite Z.max_r by apply P; reflexivity|exact M12]. }
  exists x, s'. pose proof (front_runs al be _ back_part _ _ _ _ _ _ _ Fr C eq_refl Rb) as R.
  assert (W : front_cost al be c6 + back_cost al be c6 fs (rm_types m) (rm_functions m) (rm_constants m) = al * work m + be * written m); [|rewrite W in R; exact R].
  clear R Rb. unfold front_cost, back_cost. rewrite Od, K1, K2, K3, K4, K5, K6, K7, K8, K9, K10, K12.
  rewrite (cuts_sizes _ _ _ _ _ T3), (cuts_sizes _ _ _ _ _ Tf). rewrite !Z.max_r by (apply P || exact N3). unfold work, written.
  assert (E5 : (if 5 <=? rm_version m then al * zlen (rm_bytes_pos m) + be * zlen (rm_bytes m) else 0) = al * zlen (rm_bytes_pos m) + be * zlen (rm_bytes m)).
  { destruct (Z.leb_spec 5 (rm_version m)); [reflexivity|]. destruct V5 as (-> & ->); [lia|]. change (zlen (@nil Z)) with 0. lia. }
  rewrite E5. lia.
Qed.

(** * C87 *)
Theorem C87_work used rest m ss fs : bytes (used ++ rest) -> zlen (used ++ rest) < 2 ^ 63 -> spell_module used m -> legal_module m ss fs ->
  exists s' t, CostModel.code_read (start None (used ++ rest)) = ((Ok (mean_module m ss fs), s'), t) /\ turns t = work m /\ filled t = written m.
Proof.
  intros B L S G. destruct (C66_position _ _ _ _ _ B L S G) as (s' & R & _). pose proof (same_code_read (start None (used ++ rest))) as X. rewrite R in X.
  destruct (CostModel.code_read (start None (used ++ rest))) as [r t] eqn:E. cbn [fst] in X. subst r. exists s', t. split; [reflexivity|].
  destruct (whole_runs 1 0 _ _ _ _ _ B L S G) as (x1 & s1 & t1 & E1 & W1). destruct (whole_runs 0 1 _ _ _ _ _ B L S G) as (x2 & s2 & t2 & E2 & W2). rewrite E in E1, E2.
  assert (t1 = t) by congruence. assert (t2 = t) by congruence. subst t1 t2. unfold meter in W1, W2. lia.
Qed.
(** Every accepted file has such a tree. *)
Corollary C87_accepted file c s t : bytes file -> zlen file < 2 ^ 63 -> CostModel.code_read (start None file) = ((Ok c, s), t) ->
  exists used rest m ss fs, file = used ++ rest /\ spell_module used m /\ legal_module m ss fs /\ c = mean_module m ss fs /\ turns t = work m /\ filled t = written m.
Proof.
  intros B L E. pose proof (same_code_read (start None file)) as X. rewrite E in X. cbn [fst] in X.
  assert (D : denotes file c). { apply C66_exact; auto. apply accepted_run. exists s. now symmetry. }
  destruct D as (used & rest & m & ss & fs & -> & S & G & ->). exists used, rest, m, ss, fs. repeat (split; [first [reflexivity|assumption]|]).
  destruct (C87_work _ _ _ _ _ B L S G) as (s' & t' & E' & W). rewrite E in E'. assert (t' = t) by congruence. now subst t'.
Qed.
(** Two spellings of one tree, whatever follows them, are the same work. *)
Corollary C87_spellings used used' rest rest' m ss fs : bytes (used ++ rest) -> bytes (used' ++ rest') -> zlen (used ++ rest) < 2 ^ 63 -> zlen (used' ++ rest') < 2 ^ 63 ->
  spell_module used m -> spell_module used' m -> legal_module m ss fs ->
  exists s s' t t', CostModel.code_read (start None (used ++ rest)) = ((Ok (mean_module m ss fs), s), t) /\ CostModel.code_read (start None (used' ++ rest')) = ((Ok (mean_module m ss fs), s'), t') /\
    turns t = turns t' /\ filled t = filled t'.
Proof.
  intros B B' L L' S S' G. destruct (C87_work _ _ _ _ _ B L S G) as (s & t & E & W1 & W2). destruct (C87_work _ _ _ _ _ B' L' S' G) as (s' & t' & E' & W1' & W2'). exists s, s', t, t'. rewrite W1, W2, W1', W2'. auto.
Qed.
Example C87_ex : exists used rest m ss fs, enc_module ex_mod ++ [7] = used ++ rest /\ spell_module used m /\ legal_module m ss fs /\ work m = 39 /\ written m = 21.
Proof.
  destruct ex_bytes as (B & L). assert (B7 : bytes (enc_module ex_mod ++ [7])) by (apply Forall_app; split; [exact B|repeat constructor; cbn; lia]).
  destruct (CostModel.code_read (start None (enc_module ex_mod ++ [7]))) as [[r s] t] eqn:E. pose proof E as E0. vm_compute in E0.
  destruct r as [c|e|q]; try discriminate E0. destruct (C87_accepted _ _ _ _ B7 ltac:(vm_compute; reflexivity) E) as (used & rest & m & ss & fs & E1 & S & G & Ec & W1 & W2).
  exists used, rest, m, ss, fs. split; [exact E1|]. split; [exact S|]. split; [exact G|].
  assert (turns t = 39 /\ filled t = 21) as (T1 & T2) by (injection E0 as _ _ <-; split; reflexivity). split; congruence.
Qed.
