(** What each phase of the reader costs, exactly (for C87). *)
From Verif Require Import Prelude StdModel BrassTypes DecoderModel CodeModel FormatSpec ReaderSpec ErrSpec GrammarSpec.
From Verif Require Import CodeGenericProofs FormatProofs StringsProofs ReaderPost CostProofs PropsGrammar GrammarDen GrammarFuns GrammarTypes GrammarPhases GrammarPhases2 CostWork.
From Verif Require CostModel.
Import CostModel(cost, turns, copied, filled, none, plus).
From Coq Require Import Lia ZifyBool.
Local Open Scope Z_scope.


Section Meter.
Variables al be : Z.
Notation meter := (meter al be). Notation zero := (zero al be). Notation costs := (costs al be).
Ltac z := repeat first [apply z_free|apply z_copy|apply z_put|apply z_get|apply z_get_type|apply z_read_string|apply z_read_ustring|apply z_on|apply z_bind; [|intros ?]|match goal with |- CostWork.zero _ _ (match ?x with _ => _ end) => destruct x end].

Definition at_ (s : st) (c : code) : st := {| d_buf := d_buf s; d_pos := d_pos s; d_code := c; errs := errs s; d_log := d_log s |}.
Lemma put_out c s a s' t : CostModel.put_clone c s = ((Ok a, s'), t) -> s' = at_ s c.
Proof. intros E. pose proof (same_put c s) as X. rewrite E in X. cbn [fst] in X. unfold put_code in X. unfold at_. now injection X as _ <-. Qed.
Lemma putc_out c s a s' t : CostModel.put_code c s = ((Ok a, s'), t) -> s' = at_ s c /\ meter t = 0.
Proof. intros E. pose proof (z_free al be _ _ _ _ _ _ E). unfold CostModel.put_code, CostModel.free, put_code in E. unfold at_. split; [now injection E as _ <- _|assumption]. Qed.
Lemma get_out s a s' t : CostModel.get_clone s = ((Ok a, s'), t) -> s' = s /\ a = d_code s.
Proof. intros E. pose proof (same_get s) as X. rewrite E in X. cbn [fst] in X. unfold get_code in X. split; congruence. Qed.
Lemma getc_out s a s' t : CostModel.get_code s = ((Ok a, s'), t) -> s' = s /\ a = d_code s /\ meter t = 0.
Proof. intros E. pose proof (z_free al be _ _ _ _ _ _ E). unfold CostModel.get_code, CostModel.free, get_code in E. repeat split; congruence. Qed.
Lemma ret_out A (x : A) s a s' t : CostModel.ret x s = ((Ok a, s'), t) -> s' = s /\ a = x /\ meter t = 0.
Proof. intros E. pose proof (z_free al be _ _ _ _ _ _ E). unfold CostModel.ret, CostModel.free, ret in E. repeat split; congruence. Qed.

Lemma co_ints c : costs (CostModel.read_ints c) (fun _ v => v = al * Z.max 0 (c_nints c)).
Proof. unfold CostModel.read_ints, CostModel.read_table. eapply c_bind; [apply c_plain; intros; z|]. intros l v ->. apply c_zero; [z|intros; lia]. Qed.
Lemma co_floats c : costs (CostModel.read_floats c) (fun _ v => v = al * Z.max 0 (c_nfloats c)).
Proof. unfold CostModel.read_floats, CostModel.read_table. eapply c_bind; [apply c_plain; intros; z|]. intros l v ->. apply c_zero; [z|intros; lia]. Qed.
Lemma co_globals c : costs (CostModel.read_globals c) (fun _ v => v = (al + be) * Z.max 0 (c_nglobals c)).
Proof. unfold CostModel.read_globals. apply c_fill. eapply c_bind; [apply c_plain; intros; z|]. intros l v ->. apply c_zero; [z|intros; lia]. Qed.
Lemma co_natives c : costs (CostModel.read_natives c) (fun _ v => v = al * Z.max 0 (c_nnatives c)).
Proof. unfold CostModel.read_natives. eapply c_bind; [apply c_plain; intros; cbv zeta; z|]. intros l v ->. apply c_zero; [z|intros; lia]. Qed.
Lemma co_skip : costs CostModel.skip_assigns (fun _ v => exists n, v = al * Z.max 0 n).
Proof. unfold CostModel.skip_assigns. apply c_then; [apply z_on, z_free|intros n]. eapply c_conseq; [apply c_plain; intros; z|]. intros u v ->. eauto. Qed.
Lemma co_constants c : costs (CostModel.read_constants c) (fun c' v => v = al * Z.max 0 (c_nconstants c) + al * (total (fun k => Z.max 0 (k_nfields k)) (c_constants c') - total (fun k => Z.max 0 (k_nfields k)) (c_constants c))).
Proof.
  unfold CostModel.read_constants. eapply c_conseq; [apply (c_range al be _ (fun c => zlen (c_constants c)) (fun c => al * total (fun k => Z.max 0 (k_nfields k)) (c_constants c)))|].
  - intros j d. do 2 (apply c_then; [apply z_on, z_free|intros ?]). eapply c_bind; [apply c_plain; intros; z|]. intros l v ->. apply c_then; [apply z_free|intros ?]. eapply c_bind; [apply c_insert with (Q := fun l' v => v = 0 /\ zinsert (c_constants d) j {| k_global := a; k_nfields := a0; k_fields := l |} = Some l'); auto|].
    intros ks v (-> & I). cbv zeta. apply c_then; [apply z_put|intros ?]. apply c_ret. change (c_constants (set_constants ks d)) with ks. split; [now apply zinsert_len in I|]. rewrite (total_insert _ _ _ _ _ _ I). cbn [k_nfields]. lia.
  - intros c' v (_ & ->). lia.
Qed.
Lemma co_types c : costs (CostModel.read_types c) (fun c' v => v = (al + be) * Z.max 0 (c_ntypes c) + al * total type_turns (c_types c')).
Proof.
  unfold CostModel.read_types. apply c_fill. eapply c_conseq; [apply (c_range al be _ (fun c => zlen (c_types c)) (fun c => al * total type_turns (c_types c)))|].
  - intros j d s a s' t E. apply (b_out al be) in E. destruct E as (u1 & s1 & t1 & r1 & E1 & E & Et). pose proof (z_put al be _ _ _ _ _ E1) as Z1. assert (D1 : d_code s1 = d) by (rewrite (put_out _ _ _ _ _ E1); reflexivity).
    apply (b_out al be) in E. destruct E as (ty & s2 & t2 & r2 & E2 & E & Et2). pose proof (c_read_type al be _ _ _ _ E2) as Z2. cbv beta in Z2.
    pose proof (same_read_type s1) as X2. rewrite E2 in X2. cbn [fst] in X2. symmetry in X2. destruct (rc_read_type _ _ _ X2) as (us & D2). rewrite D1 in D2.
    apply (b_out al be) in E. destruct E as (dc & s3 & t3 & r3 & E3 & E & Et3). assert (dc = set_ustrings us d /\ meter t3 = 0) as (-> & Z3) by (destruct (getc_out _ _ _ _ E3) as (_ & -> & Z3); split; [exact D2|exact Z3]).
    change (c_types (set_ustrings us d)) with (c_types d) in E. apply (b_out al be) in E. destruct E as (ts & s4 & t4 & r4 & E4 & E & Et4).
    assert (W : zinsert (c_types d) j ty = Some ts /\ meter t4 = 0) by (refine (c_insert al be _ _ _ _ (fun l v => zinsert (c_types d) j ty = Some l /\ v = 0) _ _ _ _ _ E4); auto). destruct W as (I & Z4).
    apply (b_out al be) in E. destruct E as (u & s5 & t5 & r5 & E5 & E & Et5). assert (D5 : d_code s5 = set_types ts (set_ustrings us d) /\ meter t5 = 0) by (destruct (putc_out _ _ _ _ _ E5) as (-> & Z5); split; [reflexivity|exact Z5]). destruct D5 as (D5 & Z5).
    pose proof (z_get al be _ _ _ _ E) as Z6. destruct (get_out _ _ _ _ E) as (_ & ->). rewrite D5.
    change (c_types (set_types ts (set_ustrings us d))) with ts. split; [now apply zinsert_len in I|]. rewrite (total_insert _ _ _ _ _ _ I). lia.
  - intros c' v (_ & ->). change (c_types (set_types (zrepeat vt_default (c_ntypes c)) c)) with (zrepeat vt_default (c_ntypes c)). rewrite (total_zero _ type_turns) by reflexivity. lia.
Qed.
Lemma mapped_out A (x : CostModel.M A) Q s o s' t : costs x Q -> CostModel.ok_mapped x s = ((Ok o, s'), t) -> errs s' = None -> exists a, o = Some a /\ Q a (meter t).
Proof.
  intros H E N. unfold CostModel.ok_mapped, CostModel.on in E. destruct (x s) as [[r1 s1] t1] eqn:E1. injection E as E <-. unfold ok_mapped in E. destruct r1 as [a|e|q]; [|exfalso|discriminate].
  - injection E as <- <-. exists a. split; [reflexivity|]. eapply H, E1.
  - injection E as _ <-. cbn in N. destruct (errs s1); discriminate.
Qed.
Lemma check_out A (y : CostModel.M A) s a s' t : CostModel.bind CostModel.check_error (fun _ => y) s = ((Ok a, s'), t) -> errs s = None /\ exists t2, y s = ((Ok a, s'), t2) /\ meter t = meter t2.
Proof.
  intros E. apply (b_out al be) in E. destruct E as (u & s1 & t1 & t2 & E1 & E2 & ->). unfold CostModel.check_error, CostModel.free, check_error in E1. destruct (errs s) eqn:N; [discriminate|]. inversion E1; subst. split; [reflexivity|]. exists t2. rewrite meter_none. split; [exact E2|lia].
Qed.
Lemma co_table c : costs (CostModel.read_string_table c) (fun c' v => v = al * zlen (c_strings c') + be * Z.max 0 (c_nstrings c)).
Proof.
  intros s a s' t E. unfold CostModel.read_string_table in E. apply (b_out al be) in E. destruct E as (o & s1 & t1 & t2 & E1 & E & ->). cbv zeta in E. apply check_out in E. destruct E as (N & t3 & E & ->).
  destruct (mapped_out _ _ _ _ _ _ _ (c_read_strings al be _ _) E1 N) as ((ss & ls) & -> & ->). cbn [fst].
  apply (c_fill al be _ (c_nstrings c) _ (fun x v => c_strings x = ss /\ v = be * Z.max 0 (c_nstrings c))) in E; [destruct E as (-> & ->); lia|]. apply c_ret. split; [reflexivity|lia].
Qed.
Lemma co_bytes c : costs (CostModel.read_bytes_section c) (fun c' v => v = if 5 <=? c_version c then al * Z.max 0 (c_nbytes c) + be * zlen (c_bytes c') else 0).
Proof.
  unfold CostModel.read_bytes_section. destruct (5 <=? c_version c); [|now apply c_ret]. apply c_then; [apply z_free|intros size].
  destruct (Z.ltb_spec size 0) as [L|L]. { intros s a s' t E. discriminate. }
  apply c_then; [apply z_free|intros _]. apply c_fill. eapply c_bind with (Q := fun bs v => zlen bs = size /\ v = 0).
  - apply c_unwrap_mapped. intros s bs s' t E. unfold CostModel.read_bytes, CostModel.free, read_bytes in E. destruct (Z.ltb_spec (zlen (d_buf s)) size) as [L2|L2]; [discriminate|]. inversion E; subst. rewrite meter_none. split; [|reflexivity].
    unfold zlen in *. rewrite firstn_length. lia.
  - intros bs v (Lb & ->). eapply c_bind; [apply c_plain; intros; z|]. intros ps v ->. apply c_then; [apply z_free|intros _]. apply c_ret. change (c_bytes (set_bytes_pos ps (set_bytes bs c))) with bs. rewrite <- Lb in *. rewrite Z.max_r by apply zlen_nonneg. change (c_nbytes (set_bytes bs c)) with (c_nbytes c). lia.
Qed.
Lemma co_debugfiles c : costs (CostModel.read_debugfiles c) (fun c' v => v = if negb (c_hasdebug c =? 0) then al * zlen (c_debugfiles c') else 0).
Proof.
  unfold CostModel.read_debugfiles. destruct (negb (c_hasdebug c =? 0)); [|now apply c_ret]. apply c_then; [apply z_free|intros c1]. apply c_then; [apply z_put|intros _].
  intros s a s' t E. apply (b_out al be) in E. destruct E as (o & s1 & t1 & t2 & E1 & E & ->). apply (b_out al be) in E. destruct E as (dc & s2 & t3 & t4 & E2 & E & ->). apply (b_out al be) in E. destruct E as (u & s3 & t5 & t6 & E3 & E & ->).
  apply (b_out al be) in E. destruct E as (c2 & s4 & t7 & t8 & E4 & E & ->). apply check_out in E. destruct E as (N & t9 & E & ->).
  pose proof (z_free al be _ _ _ _ _ _ E2) as Z2. pose proof (z_get al be _ _ _ _ E4) as Z4. assert (Ea : a = c2 /\ s' = s4 /\ meter t9 = 0) by (destruct (ret_out _ _ _ _ _ _ E) as (-> & -> & ?); auto). destruct Ea as (-> & -> & Z9).
  destruct (getc_out _ _ _ _ E2) as (-> & -> & _).
  destruct (get_out _ _ _ _ E4) as (-> & ->).
  assert (N1 : errs s1 = None) by (destruct o as [(ss & ls)|]; [destruct (putc_out _ _ _ _ _ E3) as (-> & _)|destruct (ret_out _ _ _ _ _ _ E3) as (-> & _)]; exact N).
  destruct (mapped_out _ _ _ _ _ _ _ (c_read_strings al be _ _) E1 N1) as ((ss & ls) & -> & X). cbn [fst] in X. destruct (putc_out _ _ _ _ _ E3) as (-> & Z3).
  cbn [at_ DecoderModel.d_code]. change (c_debugfiles (set_debugfiles ss (d_code s1))) with ss. lia.
Qed.
End Meter.
