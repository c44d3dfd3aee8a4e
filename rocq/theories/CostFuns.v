(** What reading the functions costs, exactly (for C87). *)
From Verif Require Import Prelude StdModel BrassTypes DecoderModel CodeModel FormatSpec ReaderSpec ErrSpec GrammarSpec.
From Verif Require Import CodeGenericProofs FormatProofs StringsProofs ReaderPost CostProofs PropsGrammar GrammarDen GrammarFuns GrammarTypes GrammarPhases GrammarPhases2 CostWork CostPhases ReaderTables WorkSpec.
From Verif Require CostModel.
Import CostModel(cost, turns, copied, filled, none, plus).
From Coq Require Import Lia ZifyBool.
Local Open Scope Z_scope.


Lemma op_entries_list bs i : spell_op bs i -> op_entries (read_op i) = op_list i.
Proof.
  assert (D : forall l : list Z, zlen (l ++ zrepeat 0 (zlen l)) / 2 = zlen l).
  { intros l. rewrite zlen_app, zlen_repeat by apply zlen_nonneg. replace (zlen l + zlen l) with (zlen l * 2) by lia. apply Z.div_mul. lia. }
  destruct i as [op args|op p1 p2 xs|r offs e]; cbn [spell_op]; intros H; unfold read_op, op_entries.
  - cbn [padded op_list]. destruct (Z.ltb_spec 4 (zlen args)) as [L|L]; cbn [o_extra].
    + rewrite D. clear - L. destruct args as [|a [|b [|c args]]]; try (unfold zlen in L; cbn in L; lia). cbn [view_op o_extra skipn]. rewrite !zlen_cons. lia.
    + clear - L. destruct args as [|a [|b [|c args]]]; cbn; try reflexivity. rewrite !zlen_cons in L. pose proof (zlen_nonneg args). apply Z.div_small. lia.
  - cbn [padded op_list o_extra]. rewrite D. reflexivity.
  - cbn [padded op_list o_extra]. rewrite D. reflexivity.
Qed.
Lemma ops_list bs is : many spell_op bs is -> total op_entries (map read_op is) = total op_list is.
Proof.
  intros M. rewrite total_map. induction M as [|b bs i is H M IH]; [reflexivity|]. change (op_entries (read_op i) + total (fun x => op_entries (read_op x)) is = op_list i + total op_list is). now rewrite IH, (op_entries_list _ _ H).
Qed.

Section Meter.
Variables al be : Z.
Notation meter := (meter al be). Notation zero := (zero al be). Notation costs := (costs al be).

(** a run that ends well, and what it costs *)
Definition runs {A} (x : CostModel.M A) (s : st) (a : A) (s1 : st) (v : Z) : Prop := exists t, x s = ((Ok a, s1), t) /\ meter t = v.
Lemma r_bind A B (x : CostModel.M A) (y : A -> CostModel.M B) s a s1 v b s2 w : runs x s a s1 v -> runs (y a) s1 b s2 w -> runs (CostModel.bind x y) s b s2 (v + w).
Proof. intros (t1 & E1 & <-) (t2 & E2 & <-). exists (plus t1 t2). unfold CostModel.bind. rewrite E1, E2. split; [reflexivity|apply meter_plus]. Qed.
(** after a part that costs nothing *)
Lemma r_then A B (x : CostModel.M A) (y : A -> CostModel.M B) s a s1 b s2 w : runs x s a s1 0 -> runs (y a) s1 b s2 w -> runs (CostModel.bind x y) s b s2 w.
Proof. intros H1 H2. rewrite <- (Z.add_0_l w). eapply r_bind; eauto. Qed.
Lemma r_same A (x : CostModel.M A) m s a s1 Q v : same x m -> costs x Q -> m s = (Ok a, s1) -> (forall w, Q a w -> w = v) -> runs x s a s1 v.
Proof. intros S C E H. pose proof (S s) as X. rewrite E in X. destruct (x s) as [r t] eqn:Ex. cbn [fst] in X. subst r. exists t. split; [exact Ex|]. apply H. eapply C, Ex. Qed.
Lemma r_den (I : code -> Prop) A (x : CostModel.M A) m G s bs rest a c' Q v : same x m -> den I m G -> costs x Q -> clean s -> I (d_code s) -> d_buf s = bs ++ rest -> G (d_code s) bs a c' -> (forall w, Q a w -> w = v) ->
  runs x s a (fin s rest (zlen bs) c') v.
Proof. intros S D C K Ic B H W. eapply r_same; eauto. eapply den_from; eauto. Qed.
Lemma r_put c s : runs (CostModel.put_clone c) s tt (at_ s c) 0.
Proof. eapply r_same with (Q := fun _ v => v = 0); [apply same_put|apply c_zero; [apply z_put|auto]|reflexivity|auto]. Qed.
Lemma r_putc c s : runs (CostModel.put_code c) s tt (at_ s c) 0.
Proof. eapply r_same with (Q := fun _ v => v = 0); [apply same_free|apply c_zero; [apply z_free|auto]|reflexivity|auto]. Qed.
Lemma r_get s : runs CostModel.get_clone s (d_code s) s 0.
Proof. eapply r_same with (Q := fun _ v => v = 0); [apply same_get|apply c_zero; [apply z_get|auto]|reflexivity|auto]. Qed.
Lemma r_getc s : runs CostModel.get_code s (d_code s) s 0.
Proof. eapply r_same with (Q := fun _ v => v = 0); [apply same_free|apply c_zero; [apply z_free|auto]|reflexivity|auto]. Qed.
Lemma r_ret A (a : A) s : runs (CostModel.ret a) s a s 0.
Proof. eapply r_same with (Q := fun _ v => v = 0); [apply same_free|apply c_zero; [apply z_free|auto]|reflexivity|auto]. Qed.
Lemma r_check s : errs s = None -> runs CostModel.check_error s tt s 0.
Proof. intros N. eapply r_same with (Q := fun _ v => v = 0); [apply same_free|apply c_zero; [apply z_free|auto]| |auto]. unfold check_error. now rewrite N. Qed.
Lemma r_expect A p (o : option A) a s : o = Some a -> runs (CostModel.expect p o) s a s 0.
Proof. intros ->. eapply r_same with (Q := fun _ v => v = 0); [apply same_free|apply c_zero; [apply z_free|auto]|reflexivity|auto]. Qed.
Lemma at_fin s c : errs s = None -> at_ s c = fin s (d_buf s) 0 c.
Proof. intros N. unfold at_, fin. rewrite N. f_equal. lia. Qed.

Lemma r_debug nf nops s bs rest rs l : nf <= I32_MAX -> 0 <= nops -> clean s -> c_ndebugfiles (d_code s) = nf -> d_buf s = bs ++ rest -> many spell_rrec bs rs -> run_debug nf nops 0 (-1) 0 rs = Some l ->
  runs (CostModel.ok_mapped (CostModel.debug_infos nops)) s (Some (pairs l)) (fin s rest (zlen bs) (d_code s)) (al * zlen rs + be * (2 * nops)).
Proof.
  intros Hf Hn C F B M R.
  assert (E : debug_infos nops s = (Ok (pairs l), fin s rest (zlen bs) (d_code s))). { eapply (den_from (den_debug_infos nf nops Hf Hn)); eauto. split; [|reflexivity]. exists rs, l. auto. }
  pose proof (same_debug_infos nops s) as X. rewrite E in X. destruct (CostModel.debug_infos nops s) as [r t] eqn:Ex. cbn [fst] in X. subst r.
  exists t. split; [|rewrite (c_debug al be _ _ _ _ _ _ _ _ _ _ B M R Ex), Z.max_r by lia; reflexivity]. unfold CostModel.ok_mapped, CostModel.on. rewrite Ex. reflexivity.
Qed.
Lemma r_assigns s bs rest (l : list (Z * Z)) : clean s -> d_buf s = bs ++ rest -> (exists b1 b2, bs = b1 ++ b2 /\ uix b1 (zlen l) /\ many (both uix ix) b2 l) ->
  runs CostModel.skip_assigns s tt (fin s rest (zlen bs) (d_code s)) (al * zlen l).
Proof.
  intros C B (b1 & b2 & -> & V & M).
  assert (E : skip_assigns s = (Ok tt, fin s rest (zlen (b1 ++ b2)) (d_code s))). { eapply (den_from (den_skip_assigns (fun _ => True))); eauto. split; [|reflexivity]. exists b1, b2, l. auto. }
  pose proof (same_skip_assigns s) as X. rewrite E in X. destruct (CostModel.skip_assigns s) as [r t] eqn:Ex. cbn [fst] in X. subst r. exists t. split; [exact Ex|].
  unfold CostModel.skip_assigns in Ex. apply (b_out al be) in Ex. destruct Ex as (n & s1 & t1 & t2 & E1 & E2 & ->).
  rewrite <- app_assoc in B. pose proof (den_from (den_unwrap_mapped _ _ _ _ (den_UINDEX (fun _ => True))) s b1 (b2 ++ rest) (zlen l) (d_code s) C Logic.I B (conj V eq_refl)) as R.
  assert (Y : fst (CostModel.unwrap_mapped CostModel.UINDEX s) = unwrap_mapped UINDEX s) by apply same_unwrap_mapped, same_free. rewrite E1, R in Y. cbn [fst] in Y. assert (n = zlen l) by congruence. subst n.
  rewrite (z_on al be _ _ _ _ (z_free al be _ _) _ _ _ _ E1). pose proof (c_plain al be _ _ _ _ (fun j a => z_bind al be _ _ _ _ (z_on al be _ _ ok _ (z_free al be _ UINDEX)) (fun _ => z_bind al be _ _ _ _ (z_on al be _ _ ok _ (z_free al be _ INDEX)) (fun _ => z_free al be _ (ret a)))) _ _ _ _ E2) as W. cbv beta in W. rewrite W, Z.max_r by apply zlen_nonneg. lia.
Qed.

Lemma r_entry ts nt ns nf i c s bs rest f : nt <= zlen ts -> nt <= I32_MAX -> nf <= I32_MAX -> base ts nt ns c -> c_ndebugfiles c = nf -> zlen (c_functions c) = i ->
  let dbg := negb (c_hasdebug c =? 0) in clean s -> d_buf s = bs ++ rest -> spell_fun (c_version c) dbg bs f -> legal_fun nt nf dbg f ->
  let c2 := set_functions (c_functions c ++ [mean_fun nf dbg ts f]) c in
  runs (CostModel.read_function_entry i c) s c2 (fin s rest (zlen bs) c2) (al * fun_turns f + be * fun_written dbg f).
Proof.
  intros Hts Hnt Hnf Bc Hf Hi dbg C B Sp Lg c2. pose proof C as (_ & _ & N).
  destruct Sp as (x1 & x2 & x3 & x4 & x5 & x6 & x7 & -> & V1 & V2 & V3 & V4 & M5 & M6 & H). destruct Lg as (R1 & R2 & R3).
  replace (x1 ++ x2 ++ x3 ++ x4 ++ x5 ++ x6 ++ x7) with ((x1 ++ x2 ++ x3 ++ x4 ++ x5 ++ x6) ++ x7) in * by (rewrite <- !app_assoc; reflexivity).
  set (bh := x1 ++ x2 ++ x3 ++ x4 ++ x5 ++ x6) in *. rewrite <- app_assoc in B.
  set (f0 := {| rf_type := rf_type f; rf_findex := rf_findex f; rf_regs := rf_regs f; rf_ops := rf_ops f; rf_debug := []; rf_assigns := [] |}).
  set (h := fun_body ts f []). set (c1 := set_functions (c_functions c ++ [h]) c).
  assert (C1 : clean (at_ s c)) by (destruct C as (Y1 & Y2 & Y3); split; [exact Y1|split; [exact Y2|exact Y3]]).
  assert (RF : runs (CostModel.unwrap_mapped CostModel.read_function) (at_ s c) h (fin (at_ s c) (x7 ++ rest) (zlen bh) c) (al * (zlen (rf_regs f) + zlen (rf_ops f)) + (al + be) * total op_list (rf_ops f))).
  { eapply r_den with (I := base ts nt ns); [apply same_unwrap_mapped, same_read_function|apply den_unwrap_mapped, den_read_function; auto|apply c_unwrap_mapped, c_read_function|exact C1|exact Bc|exact B| |].
    - split; [|reflexivity]. exists f0. split; [exists x1, x2, x3, x4, x5, x6; split; [reflexivity|]; auto 10|]. split; [split; auto|]. auto.
    - cbv beta. intros w ->. unfold h, fun_body. cbn [hf_nregs hf_ops]. rewrite (ops_list _ _ M6), Z.max_r by apply zlen_nonneg. unfold zlen at 2. rewrite map_length. reflexivity. }
  assert (C2 : clean (fin (at_ s c) (x7 ++ rest) (zlen bh) c)) by (apply clean_fin; [exact C1|exact B]). set (s1 := fin (at_ s c) (x7 ++ rest) (zlen bh) c) in *.
  unfold CostModel.read_function_entry. eapply r_then; [apply r_put|].
  replace (al * fun_turns f + be * fun_written dbg f) with (al * (zlen (rf_regs f) + zlen (rf_ops f)) + (al + be) * total op_list (rf_ops f) + (al * (zlen (rf_debug f) + zlen (rf_assigns f)) + be * (if dbg then 2 * zlen (rf_ops f) else 0))) by (unfold fun_turns, fun_written; lia).
  eapply r_bind; [exact RF|]. eapply r_then; [apply r_getc|]. change (d_code s1) with c. fold c1. eapply r_then; [apply r_putc|].
  eapply r_then; [apply r_getc|]. change (d_code (at_ s1 c1)) with c1. change (c_hasdebug c1) with (c_hasdebug c). fold dbg. change (c_version c1) with (c_version c).
  assert (C3 : clean (at_ s1 c1)) by (destruct C2 as (Y1 & Y2 & Y3); split; [exact Y1|split; [exact Y2|exact Y3]]).
  destruct dbg eqn:Ed.
  - destruct H as (k1 & k2 & -> & Mr & As). specialize (R3 eq_refl). destruct (run_debug nf (zlen (rf_ops f)) 0 (-1) 0 (rf_debug f)) as [l|] eqn:El; [|contradiction].
    assert (Ec2 : c2 = set_functions (c_functions c ++ [hf_set_debug h (pairs l)]) c) by (unfold c2, mean_fun; rewrite El; reflexivity).
    set (s2 := fin (at_ s1 c1) (k2 ++ rest) (zlen k1) c1).
    assert (C4 : clean s2) by (apply clean_fin; [exact C3|cbn [d_buf at_ fin s1]; now rewrite app_assoc]).
    assert (C5 : clean (at_ s2 c2)) by (destruct C4 as (Y1 & Y2 & Y3); split; [exact Y1|split; [exact Y2|exact Y3]]).
    assert (F : fin s rest (zlen (bh ++ k1 ++ k2)) c2 = fin (at_ s2 c2) rest (zlen k2) c2). { unfold s2, s1, at_, fin. cbn [d_buf d_pos d_code d_log]. rewrite !zlen_app. f_equal. lia. }
    rewrite F. rewrite <- (Z.add_0_r (_ + be * _)). eapply r_bind; [|eapply eq_ind_r with (x := c2) (P := fun z => runs CostModel.get_clone (fin (at_ s2 c2) rest (zlen k2) c2) z (fin (at_ s2 c2) rest (zlen k2) c2) 0); [apply r_get|reflexivity]].
    eapply r_then; [apply (r_expect _ _ _ h), znth_last, Hi|].
    replace (al * (zlen (rf_debug f) + zlen (rf_assigns f)) + be * (2 * zlen (rf_ops f))) with ((al * zlen (rf_debug f) + be * (2 * zlen (rf_ops f))) + al * zlen (rf_assigns f)) by lia.
    eapply r_bind. { change (hf_nops h) with (zlen (rf_ops f)). eapply (r_debug nf) with (rest := k2 ++ rest); [exact Hnf|apply zlen_nonneg|exact C3|exact Hf| |exact Mr|exact El]. cbn [d_buf at_ fin s1]. now rewrite app_assoc. }
    change (d_code (at_ s1 c1)) with c1. fold s2. cbn beta iota. eapply r_then with (a := tt) (s1 := at_ s2 c2).
    + eapply r_then; [apply r_getc|]. change (d_code s2) with c1. eapply r_then; [apply (r_expect _ _ _ h), znth_last, Hi|].
      eapply r_then; [apply (r_expect _ _ _ (c_functions c ++ [hf_set_debug h (pairs l)])); unfold c1; cbn [c_functions set_functions]; rewrite <- Hi; apply zset_last|]. rewrite Ec2. apply r_putc.
    + destruct (3 <=? c_version c).
      * eapply (r_assigns (at_ s2 c2)); [exact C5|reflexivity|exact As].
      * destruct As as (-> & ->). change (zlen (@nil (Z * Z))) with 0. rewrite Z.mul_0_r. rewrite fin_nil; [apply r_ret|exact C5|reflexivity|reflexivity].
  - destruct H as (-> & -> & ->). change (zlen (@nil (Z * Z))) with 0. change (zlen (@nil rrec)) with 0. replace (al * (0 + 0) + be * 0) with 0 by lia. eapply r_then; [apply r_ret|].
    replace (fin s rest (zlen (bh ++ [])) c2) with (at_ s1 c1). { change c2 with (d_code (at_ s1 c1)) at 1. apply r_get. }
    unfold s1, at_, fin. cbn [d_buf d_pos d_code d_log]. rewrite app_nil_r. reflexivity.
Qed.
Lemma r_turn A (y : CostModel.M A) s a s1 v : runs y s a s1 v -> runs (CostModel.bind CostModel.turn (fun _ => y)) s a s1 (al + v).
Proof. intros H. eapply r_bind; [|exact H]. eexists. split; [reflexivity|]. unfold CostWork.meter. cbn. lia. Qed.
Lemma r_entries ts nt ns nf c : nt <= zlen ts -> nt <= I32_MAX -> nf <= I32_MAX -> base ts nt ns c -> c_ndebugfiles c = nf -> let dbg := negb (c_hasdebug c =? 0) in
  forall fns pre s bs rest, clean s -> d_buf s = bs ++ rest -> many (spell_fun (c_version c) dbg) bs fns -> Forall (legal_fun nt nf dbg) fns ->
  exists s', clean s' /\ runs (CostModel.for_loop (length fns) (zlen pre) CostModel.read_function_entry (set_functions pre c)) s (set_functions (pre ++ map (mean_fun nf dbg ts) fns) c) s'
    (al * (zlen fns + total fun_turns fns) + be * total (fun_written dbg) fns).
Proof.
  intros Hts Hnt Hnf Bc Hf dbg. induction fns as [|f fns IH]; intros pre s bs rest C B M F; cbn [length CostModel.for_loop map].
  - exists s. split; [exact C|]. rewrite app_nil_r. change (zlen (@nil rfun)) with 0. cbn [total fold_right]. replace (al * (0 + 0) + be * 0) with 0 by lia. apply r_ret.
  - inversion M as [|b1 b2 f' fns' Sp M' Eb El]; subst. inversion F as [|f' fns' Lg F']; subst. rewrite <- app_assoc in B.
    pose proof (r_entry ts nt ns (c_ndebugfiles c) (zlen pre) (set_functions pre c) s b1 (b2 ++ rest) f Hts Hnt Hnf Bc eq_refl eq_refl C B Sp Lg) as R1. cbv zeta in R1. change (negb (c_hasdebug (set_functions pre c) =? 0)) with dbg in R1.
    change (set_functions (c_functions (set_functions pre c) ++ [mean_fun (c_ndebugfiles c) dbg ts f]) (set_functions pre c)) with (set_functions (pre ++ [mean_fun (c_ndebugfiles c) dbg ts f]) c) in R1.
    set (g := mean_fun (c_ndebugfiles c) dbg ts f) in *. pose proof (clean_fin _ _ _ (set_functions (pre ++ [g]) c) C B) as C1.
    destruct (IH (pre ++ [g]) _ b2 rest C1 eq_refl M' F') as (s' & C' & R2). exists s'. split; [exact C'|].
    rewrite zlen_cons. change (total fun_turns (f :: fns)) with (fun_turns f + total fun_turns fns). change (total (fun_written dbg) (f :: fns)) with (fun_written dbg f + total (fun_written dbg) fns).
    replace (al * (zlen fns + 1 + (fun_turns f + total fun_turns fns)) + be * (fun_written dbg f + total (fun_written dbg) fns)) with (al + ((al * fun_turns f + be * fun_written dbg f) + (al * (zlen fns + total fun_turns fns) + be * total (fun_written dbg) fns))) by lia.
    replace (al * (1 + zlen fns + (fun_turns f + total fun_turns fns)) + be * (fun_written dbg f + total (fun_written dbg) fns)) with (al + ((al * fun_turns f + be * fun_written dbg f) + (al * (zlen fns + total fun_turns fns) + be * total (fun_written dbg) fns))) by lia.
    apply r_turn. eapply r_bind; [exact R1|]. rewrite zlen_app in R2. change (zlen [g]) with 1 in R2. rewrite <- app_assoc in R2. exact R2.
Qed.
Lemma r_functions ts nt ns nf c s bs rest fns : nt <= zlen ts -> nt <= I32_MAX -> nf <= I32_MAX -> base ts nt ns c -> c_ndebugfiles c = nf -> c_functions c = [] -> let dbg := negb (c_hasdebug c =? 0) in
  clean s -> d_buf s = bs ++ rest -> many (spell_fun (c_version c) dbg) bs fns -> Forall (legal_fun nt nf dbg) fns -> zlen fns = Z.max 0 (c_nfunctions c) ->
  exists c' s', runs (CostModel.read_functions c) s c' s' (al * (zlen fns + total fun_turns fns) + be * total (fun_written dbg) fns).
Proof.
  intros Hts Hnt Hnf Bc Hf H0 dbg C B M F L. destruct (r_entries ts nt ns nf c Hts Hnt Hnf Bc Hf fns [] s bs rest C B M F) as (s' & (_ & _ & N) & R).
  eexists. exists s'. unfold CostModel.read_functions. rewrite <- (Z.add_0_r (_ + _)). eapply r_bind.
  - unfold CostModel.for_range. replace (Z.to_nat (c_nfunctions c)) with (length fns) by (unfold zlen in L; lia). assert (Ec : set_functions [] c = c) by (rewrite <- H0; destruct c; reflexivity). rewrite Ec in R. exact R.
  - eapply r_then; [now apply r_check|]. apply r_ret.
Qed.
(** the run the grammar tells, at the cost found otherwise *)
Lemma r_known (I : code -> Prop) A (x : CostModel.M A) m G s bs rest a c' v : same x m -> den I m G -> clean s -> I (d_code s) -> d_buf s = bs ++ rest -> G (d_code s) bs a c' -> (exists a' s', runs x s a' s' v) ->
  runs x s a (fin s rest (zlen bs) c') v.
Proof.
  intros S D C Ic B H (a' & s' & t & E & W). exists t. split; [|exact W]. pose proof (S s) as X. rewrite (den_from D _ _ _ _ _ C Ic B H), E in X. cbn [fst] in X. rewrite E. now rewrite X.
Qed.
End Meter.
