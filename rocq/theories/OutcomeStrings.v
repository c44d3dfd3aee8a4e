(** The shapes of OutcomeSpec.v: string tables and blocks (C84). *)
From Verif Require Import Prelude StdModel BrassTypes DecoderModel CodeModel FormatSpec ReaderSpec ErrSpec GrammarSpec OutcomeSpec.
From Verif Require Import CodeGenericProofs FormatProofs StringsProofs ReaderPost ReaderTables ErrProofs ErrExact ErrReturn GrammarDen OutcomeLay OutcomeParts OutcomeFuns.
From Verif Require Utf8Proofs GrammarTypes GrammarStrings CutPieces.
From Coq Require Import Lia ZifyBool.
Ltac Zify.zify_post_hook ::= Z.div_mod_to_equations.

Lemma le4_split b : okb b -> 4 <= zlen b -> exists v rest, b = enc_le 4 v ++ rest /\ i32_range v.
Proof.
  intros (B & _) L. set (x := firstn 4 b). assert (Hx : length x = 4%nat) by (unfold x, zlen in *; rewrite firstn_length; lia).
  assert (Bx : bytes x) by (unfold bytes in B; rewrite <- (firstn_skipn 4 b) in B; apply Forall_app in B; apply B). pose proof (from_le_bound _ Bx) as R. rewrite Hx in R. change (256 ^ Z.of_nat 4) with 4294967296 in R.
  exists (if from_le x <? 2147483648 then from_le x else from_le x - 4294967296), (skipn 4 b). unfold enc_le, i32_range. change (256 ^ Z.of_nat 4) with 4294967296. split; [|destruct (Z.ltb_spec (from_le x) 2147483648); lia].
  replace ((if from_le x <? 2147483648 then from_le x else from_le x - 4294967296) mod 4294967296) with (from_le x) by (destruct (Z.ltb_spec (from_le x) 2147483648); lia).
  rewrite <- Hx at 1. rewrite GrammarTypes.le_bytes_from by auto. unfold x. now rewrite firstn_skipn.
Qed.
Lemma i32_S v rest p c lg : i32_range v -> decode_i32 (S_ (enc_le 4 v ++ rest) p c lg) = (Ok v, S_ rest (p + 4) c lg).
Proof.
  intros R. pose proof (eats_i32 c v R p rest) as E. revert E. unfold decode_i32, decode_signed, bind, read_bytes, mk, S_, ret. cbn [d_buf d_pos d_code errs d_log].
  destruct (_ <? _); [discriminate|]. intros E. remember (to_signed (8 * 4) (from_le (firstn (Z.to_nat 4) (enc_le 4 v ++ rest)))) as x eqn:X. clear X. remember (skipn (Z.to_nat 4) (enc_le 4 v ++ rest)) as y eqn:Y. clear Y.
  assert (E1 : x = v) by congruence. assert (E2 : y = rest) by congruence. now rewrite E1, E2.
Qed.
Lemma i32_short b p c lg : zlen b < 4 -> decode_i32 (S_ b p c lg) = (Err (err NoMoreData p), S_ b p c lg).
Proof. intros L. now rewrite CutPieces.i32_dry. Qed.

Definition text_block : M (list Z) := size0 <- unwrap decode_i32 ;; CutPieces.take (i32_as_usize size0).
Lemma take_S v rest p c lg : CutPieces.take (zlen v) (S_ (v ++ rest) p c lg) = (Ok v, S_ rest (p + zlen v) c lg).
Proof.
  unfold CutPieces.take, bind, advance. cbn [d_buf S_]. assert (L : zlen (v ++ rest) <? zlen v = false) by (rewrite zlen_app; pose proof (zlen_nonneg rest); lia). rewrite L. cbn [d_buf d_pos d_code errs d_log S_].
  rewrite L. unfold ret, S_. replace (Z.to_nat (zlen v)) with (length v) by (unfold zlen; lia). rewrite firstn_app, skipn_app, Nat.sub_diag, firstn_all, skipn_all. cbn. now rewrite app_nil_r.
Qed.
Definition text_item (text : list Z) : shape := fun l => l = [(None, enc_le 4 (zlen text)); (None, text)] /\ zlen text < 2 ^ 31.
Lemma lays_text_block (I : code -> Prop) : lays I text_block (shv text_item) (fun a x c => a = x /\ bytes x /\ I c).
Proof.
  assert (Rng : forall v, i32_range v <-> - 2147483648 <= v < 2147483648) by (intros; unfold i32_range; change (2 ^ 31) with 2147483648; reflexivity).
  split.
  - intros b p c lg r s' B0 Ic E. unfold text_block, bind, unwrap in E. destruct (Z.lt_ge_cases (zlen b) 4) as [L|L].
    + rewrite i32_short in E by auto. injection E as <- <-. exact Logic.I.
    + destruct (le4_split b B0 L) as (v & rest & -> & R). rewrite i32_S in E by auto. pose proof (proj1 (Rng v) R) as R'. destruct (Z.lt_ge_cases (zlen rest) (i32_as_usize v)) as [S0|S0].
      * unfold CutPieces.take, bind in E. cbn [d_buf S_] in E. replace (zlen rest <? i32_as_usize v) with true in E by lia. injection E as <- <-. exact Logic.I.
      * assert (V : 0 <= v /\ i32_as_usize v = v). { revert S0. unfold i32_as_usize. destruct (okb_r _ _ B0) as (_ & Q). change (2 ^ 63) with 9223372036854775808 in Q. change (2 ^ 64) with 18446744073709551616. destruct (Z.ltb_spec v 0); lia. } destruct V as (V0 & V). rewrite V in *.
        set (text := firstn (Z.to_nat v) rest). assert (Lt : zlen text = v) by (unfold text, zlen in *; rewrite firstn_length; lia). rewrite <- (firstn_skipn (Z.to_nat v) rest) in *. fold text in E, B0 |- *. set (rest' := skipn (Z.to_nat v) rest) in *.
        rewrite <- Lt in E. rewrite take_S in E. injection E as <- <-. exists [(None, enc_le 4 (zlen text)); (None, text)], text, rest', c.
        cbn [flat flat_map snd found app]. rewrite !app_nil_r, <- !app_assoc, zlen_app, CutPieces.zlen_enc. change (Z.of_nat 4) with 4. rewrite Z.add_assoc, Lt. split; [reflexivity|]. split; [unfold shv, text_item; rewrite Lt; split; [reflexivity|lia]|]. split; [reflexivity|].
        split; [reflexivity|]. split; [|exact Ic]. apply okb_r in B0. destruct B0 as (B0 & _). unfold bytes in *. apply Forall_app in B0. apply B0.
  - intros l text rest p c lg B0 Ic (-> & L). cbn [flat flat_map snd found app] in *. rewrite app_nil_r, <- !app_assoc in *. unfold text_block, bind, unwrap. pose proof (zlen_nonneg text).
    rewrite i32_S by (apply (proj2 (Rng _)); change (2 ^ 31) with 2147483648 in L; lia). unfold i32_as_usize. destruct (Z.ltb_spec (zlen text) 0); [lia|]. rewrite take_S. exists text, c. rewrite app_nil_r, zlen_app, CutPieces.zlen_enc, Z.add_assoc. split; [reflexivity|]. split; [reflexivity|]. split; [|exact Ic].
    apply okb_r in B0. destruct B0 as (B0 & _). unfold bytes in *. apply Forall_app in B0. apply B0.
Qed.
Lemma lays_strings_loop (I : code -> Prop) text n : forall cur ss lens,
  lays I (strings_loop n text cur ss lens) (shv (fun x l => exists sizes ss', counts sizes l /\ GrammarStrings.slices text n cur sizes ss' /\ x = zlen ss + zlen ss')) (fun a x c => zlen (fst a) = x /\ I c).
Proof.
  induction n as [|n IH]; intros cur ss lens; cbn [strings_loop].
  - eapply lays_iff; [apply (lays_ret _ _ _ _ (zlen ss)); intros c Ic; auto|]. intros d l x. unfold shv. cbn [GrammarStrings.slices]. split.
    + intros (-> & ->). exists [], []. split; [reflexivity|]. split; [exact Logic.I|]. change (zlen (@nil str)) with 0. lia.
    + intros (sizes & ss' & H1 & H2 & ->). destruct sizes, ss'; try contradiction. split; [exact H1|]. change (zlen (@nil str)) with 0. lia.
  - eapply lays_iff.
    + eapply (lays_bindv _ _ _ Z Z _ _ a_count _ (fun k x l => exists s, GrammarStrings.sliced text cur k s /\
        if zlen text <=? cur + k then l = [] /\ x = zlen ss + 1 else exists sizes ss', counts sizes l /\ GrammarStrings.slices text n (cur + k + 1) sizes ss' /\ x = zlen ss + 1 + zlen ss')); [apply lays_unwrap, lays_UINDEX|].
      intros a k. apply lays_pure. intros ->. apply lays_pure. intros Hk.
      assert (No : (forall s, ~ GrammarStrings.sliced text cur k s) -> forall A q (m : A -> M (list str * list Z)), lays I (bind (crash q) m) (shv (fun x l => exists s, GrammarStrings.sliced text cur k s /\
        if zlen text <=? cur + k then l = [] /\ x = zlen ss + 1 else exists sizes ss', counts sizes l /\ GrammarStrings.slices text n (cur + k + 1) sizes ss' /\ x = zlen ss + 1 + zlen ss')) (fun a x c => zlen (fst a) = x /\ I c)).
      { intros N A q m. eapply lays_iff; [apply lays_bind_crash|]. intros d l x. unfold shv. split; [contradiction|]. intros (s & X & _). exact (N s X). }
      destruct (str_from text cur) as [tail|] eqn:E1; [|apply No; intros s (tl & X & _); congruence].
      apply lays_val with (a := tail); [reflexivity|].
      destruct (str_to tail k) as [s|] eqn:E2; [|apply No; intros s (tl & X & Y); congruence].
      apply lays_val with (a := s); [reflexivity|]. cbv zeta.
      assert (Sl : GrammarStrings.sliced text cur k s) by (exists tail; auto).
      destruct (Z.leb_spec (zlen text) (cur + k)) as [Q|Q].
      * eapply lays_iff; [apply (lays_ret _ _ _ _ (zlen ss + 1)); intros c Ic; cbn [fst]; rewrite zlen_app; auto|]. intros d l x. unfold shv. split; [intros X; exists s; auto|intros (_ & _ & X); exact X].
      * eapply lays_iff; [apply IH|]. intros d l x. unfold shv. rewrite zlen_app. change (zlen [s]) with 1. split; [intros X; exists s; auto|intros (_ & _ & X); exact X].
    + intros d l x. unfold shv. split.
      * intros (k & l1 & l2 & -> & H1 & s & H2 & H3). destruct (zlen text <=? cur + k) eqn:Q.
        -- destruct H3 as (-> & ->). exists [k], [s]. rewrite app_nil_r. split; [exists l1, []; rewrite app_nil_r; repeat split; auto|]. cbn [GrammarStrings.slices]. rewrite Q. auto.
        -- destruct H3 as (sizes & ss' & H3 & H4 & ->). exists (k :: sizes), (s :: ss'). split; [exists l1, l2; auto|]. cbn [GrammarStrings.slices]. rewrite Q, zlen_cons. split; [auto|lia].
      * intros (sizes & ss' & H1 & H2 & ->). cbn [GrammarStrings.slices] in H2. destruct sizes as [|k sizes], ss' as [|s ss']; try contradiction. destruct H1 as (l1 & l2 & -> & H1 & H3). destruct H2 as (H2 & H4).
        exists k, l1, l2. split; [reflexivity|]. split; [exact H1|]. exists s. split; [exact H2|]. destruct (zlen text <=? cur + k).
        -- destruct H4 as (-> & ->). split; [exact H3|reflexivity].
        -- exists sizes, ss'. rewrite zlen_cons. split; [auto|]. split; [auto|lia].
Qed.
Lemma counts_nonneg sizes : forall l, counts sizes l -> Forall (fun k => 0 <= k) sizes.
Proof.
  induction sizes as [|k sizes IH]; intros l H; [constructor|]. destruct H as (a & b & _ & (x & y & _ & _ & ->) & H). constructor; [lia|eauto].
Qed.
Lemma lays_iffb (I : code -> Prop) A X (m : M A) L L' (R : A -> X -> code -> Prop) : lays I m L R -> (forall d l x, bytes (flat l) -> (L d l x <-> L' d l x)) -> lays I m L' R.
Proof.
  intros [To F] E. split.
  - intros b p c lg r s' B Ic H. pose proof (To b p c lg r s' B Ic H) as Y. destruct r; auto. destruct Y as (l & x & rest & c' & Y1 & Y2 & Y3 & Y4).
    exists l, x, rest, c'. rewrite <- E; [auto 6|]. destruct B as (B & _). rewrite Y1 in B. unfold bytes in *. apply Forall_app in B. apply B.
  - intros l x rest p c lg B Ic H. apply (F l x rest p c lg B Ic). apply E; [|exact H]. destruct B as (B & _). unfold bytes in *. apply Forall_app in B. apply B.
Qed.
Lemma lays_strings (I : code -> Prop) n lens : lays I (read_strings n lens) (shv (strings_part n)) (fun a x c => zlen (fst a) = x /\ I c).
Proof.
  eapply lays_eq; [intros s; rewrite CutPieces.read_strings_take; instantiate (1 := bind text_block (fun sl => strings_loop (Z.to_nat n) (from_utf8_lossy sl) 0 [] lens)); unfold text_block, bind; destruct (unwrap decode_i32 s) as [[?|?|?] ?]; reflexivity|].
  eapply lays_iffb.
  - eapply (lays_bindv _ _ _ (list Z) Z _ _ text_item _ (fun text x l => bytes text /\ exists sizes ss', counts sizes l /\ GrammarStrings.slices (from_utf8_lossy text) (Z.to_nat n) 0 sizes ss' /\ x = 0 + zlen ss')); [apply lays_text_block|].
    intros a text. apply lays_pure. intros ->. apply lays_pure. intros Bt. eapply lays_iff; [apply lays_strings_loop|]. intros d l x. unfold shv. change (zlen (@nil str)) with 0. tauto.
  - intros d l x Bl. unfold shv, strings_part, text_item. split.
    + intros (text & l1 & l2 & -> & (-> & L) & Bt & sizes & ss & H1 & H2 & ->). exists text, sizes, ss, l2. split; [reflexivity|]. split; [auto|]. split; [auto|]. split; [|lia].
      apply GrammarStrings.slices_cuts in H2; auto; [now apply Utf8Proofs.lossy_utf8|lia|eapply counts_nonneg; eauto].
    + intros (text & sizes & ss & r & -> & L & H1 & H2 & ->). cbn [flat flat_map snd] in Bl. unfold bytes in Bl. apply Forall_app in Bl as (_ & Bl). apply Forall_app in Bl as (Bl & _).
      exists text, [(None, enc_le 4 (zlen text)); (None, text)], r. split; [reflexivity|]. split; [auto|]. split; [exact Bl|]. exists sizes, ss. split; [exact H1|]. split; [|lia].
      apply GrammarStrings.slices_cuts; auto; [now apply Utf8Proofs.lossy_utf8|lia|eapply counts_nonneg; eauto].
Qed.
