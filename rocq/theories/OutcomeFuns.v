(** The shapes of OutcomeSpec.v: functions, and the loops over types, globals, natives (C84). *)
From Verif Require Import Prelude StdModel BrassTypes DecoderModel CodeModel FormatSpec ReaderSpec ErrSpec GrammarSpec OutcomeSpec.
From Verif Require Import CodeGenericProofs FormatProofs StringsProofs ReaderPost ReaderTables ErrProofs ErrExact ErrReturn GrammarDen OutcomeLay OutcomeParts OutcomeCode.
From Verif Require BadProofs GrammarTypes GrammarNames GrammarFuns.
From Coq Require Import Lia ZifyBool.

Lemma kept_dirty lg : kept None lg = None <-> dirty lg = false.
Proof.
  split; [|intros H; destruct lg; [reflexivity|discriminate H]]. destruct lg as [|e lg _] using rev_ind; [reflexivity|]. rewrite kept_app. intros H. exfalso. destruct (kept None lg), (never_replaces (e_kind e)); discriminate H.
Qed.
Lemma lays_dirty (I : code -> Prop) : lays I (ok check_error) (fun d l x => l = [] /\ x = d) (fun o x c => o = (if x then None else Some tt) /\ I c).
Proof.
  assert (E : forall b p c lg, ok check_error (S_ b p c lg) = (Ok (if dirty lg then None else Some tt), S_ b p c lg)).
  { intros b p c lg. unfold ok, check_error. cbn [errs S_]. destruct (kept None lg) as [e|] eqn:K.
    - destruct (dirty lg) eqn:Dl; [reflexivity|]. apply kept_dirty in Dl. congruence.
    - apply kept_dirty in K. now rewrite K. }
  split.
  - intros b p c lg r s' B Ic R. rewrite E in R. injection R as <- <-. exists [], (dirty lg), b, c. cbn [flat flat_map found app]. rewrite app_nil_r. change (zlen (@nil Z)) with 0. rewrite Z.add_0_r. auto 8.
  - intros l x rest p c lg B Ic (-> & ->). rewrite E. exists (if dirty lg then None else Some tt), c. cbn [flat flat_map found app]. rewrite app_nil_r. change (zlen (@nil Z)) with 0. rewrite Z.add_0_r. auto.
Qed.
Lemma lays_bindv (I : code -> Prop) A B X Y (m : M A) (k : A -> M B) (P : X -> shape) (R1 : A -> X -> code -> Prop) (Q : X -> Y -> shape) R2 :
  lays I m (shv P) R1 -> (forall a x, lays (R1 a x) (k a) (shv (Q x)) R2) ->
  lays I (bind m k) (shv (fun y l => exists x l1 l2, l = l1 ++ l2 /\ P x l1 /\ Q x y l2)) R2.
Proof. intros Dm Dk. exact (lays_bind I A B X Y m k (shv P) R1 (fun x => shv (Q x)) R2 Dm Dk). Qed.
Lemma lays_retv (I : code -> Prop) A X (a : A) (x0 : X) (R : A -> X -> code -> Prop) : (forall c, I c -> R a x0 c) -> lays I (ret a) (shv (fun x l => l = [] /\ x = x0)) R.
Proof. exact (lays_ret I A X a x0 R). Qed.

Section funs.
Variables ns nt h T v nf : Z.
Variable debug : bool.
Hypothesis Hns : 0 <= ns <= I32_MAX.
Hypothesis Hnt : 0 <= nt <= I32_MAX.
Hypothesis HT : 0 < nt \/ T = 0.
Hypothesis Hnf : nf <= I32_MAX.

Definition head : M (vtype * Z * Z * Z * list vtype) :=
  t <- unwrap get_type ;; findex <- unwrap UINDEX ;; nregs <- unwrap UINDEX ;; nops <- unwrap UINDEX ;;
  regs <- for_range nregs (fun i regs => t <- unwrap_mapped get_type ;; vec_insert regs i t) [] ;; ret (t, findex, nregs, nops, regs).
Lemma lays_head c0 : okc ns nt h T c0 -> lays (fun c => c = c0) head (shv (fun x l => fun_head nt (fst x) (snd x) l))
  (fun a x c => exists t f regs, a = (t, f, fst x, snd x, regs) /\ 0 <= snd x /\ c = c0).
Proof.
  intros K. unfold head.
  assert (Dt : lays (fun c => c = c0) (unwrap get_type) (sh (typeref nt)) (fun _ _ c => c = c0)) by (apply lays_unwrap, (lays_typeref ns nt h T); [auto|auto|intros c ->; auto]).
  assert (Dt' : lays (fun c => c = c0) (unwrap_mapped get_type) (sh (typeref nt)) (fun _ _ c => c = c0)) by (apply lays_unwrap_mapped, (lays_typeref ns nt h T); [auto|auto|intros c ->; auto]).
  eapply lays_iff.
  - eapply (lays_bindv _ _ _ unit (Z * Z) _ _ (fun _ => typeref nt)); [exact Dt|]. intros t x1.
    eapply (lays_bindv _ _ _ unit (Z * Z) _ _ (fun _ => count)); [apply lays_unwrap, lays_count|]. intros f x2.
    eapply (lays_bindv _ _ _ Z (Z * Z) _ _ a_count); [apply lays_unwrap, lays_UINDEX|]. intros nregs x3. 
    eapply (lays_bindv _ _ _ Z (Z * Z) _ _ a_count); [apply lays_unwrap, lays_UINDEX|]. intros nops x4. cbv beta.
    apply lays_pure. intros ->. apply lays_pure. intros H4. apply lays_pure. intros ->. apply lays_pure. intros H3.
    eapply (lays_bindv _ _ _ unit (Z * Z) _ _ (fun _ => rep x3 (typeref nt))); [apply lays_table; [lia|exact Dt']|]. intros regs x5. cbv beta.
    apply (lays_retv _ _ _ _ (x3, x4)). intros c ->. cbn [fst snd]. eexists _, _, _. split; [reflexivity|]. split; [lia|reflexivity].
  - intros d l (nregs, nops). unfold shv, fun_head, cat. cbn [fst snd]. split.
    + intros (_ & l1 & r1 & -> & H1 & _ & l2 & r2 & -> & H2 & x3 & l3 & r3 & -> & H3 & x4 & l4 & r4 & -> & H4 & _ & l5 & r5 & -> & H5 & -> & E). injection E as <- <-. rewrite app_nil_r.
      exists l1, (l2 ++ l3 ++ l4 ++ l5). split; [reflexivity|]. split; [auto|]. exists l2, (l3 ++ l4 ++ l5). split; [reflexivity|]. split; [auto|]. exists l3, (l4 ++ l5). split; [reflexivity|]. split; [auto|]. exists l4, l5. auto.
    + intros (l1 & r1 & -> & H1 & l2 & r2 & -> & H2 & l3 & r3 & -> & H3 & l4 & l5 & -> & H4 & H5).
      exists tt, l1, (l2 ++ l3 ++ l4 ++ l5). split; [reflexivity|]. split; [auto|]. exists tt, l2, (l3 ++ l4 ++ l5). split; [reflexivity|]. split; [auto|]. exists nregs, l3, (l4 ++ l5). split; [reflexivity|]. split; [auto|].
      exists nops, l4, l5. split; [reflexivity|]. split; [auto|]. exists tt, l5, []. rewrite app_nil_r. auto 8.
Qed.
Definition fun_part (d : bool) (l : list item) (nops : Z) : Prop :=
  exists nregs a b, l = a ++ b /\ fun_head nt nregs nops a /\ (if d || faulty a then nothing else rep nops instruction) b.
Lemma lays_function c0 : okc ns nt h T c0 -> lays (fun c => c = c0) read_function fun_part (fun f nops c => hf_nops f = nops /\ 0 <= nops /\ c = c0).
Proof.
  intros K. apply lays_eq with (m' := bind head (fun '(t, findex, nregs, nops, regs) => e <- ok check_error ;;
    match e with
    | None => ret (mkFun t findex nregs nops 0 regs [] [] None None)
    | Some _ => ops <- for_range nops (fun i ops => o <- unwrap read_opcode ;; vec_insert ops i o) [] ;; ret (mkFun t findex nregs nops 0 regs ops [] None None)
    end)).
  { intros s. unfold read_function, head, bind. destruct (unwrap get_type s) as [[?|?|?] s1]; try reflexivity. destruct (unwrap UINDEX s1) as [[?|?|?] s2]; try reflexivity. destruct (unwrap UINDEX s2) as [[nr|?|?] s3]; try reflexivity.
    destruct (unwrap UINDEX s3) as [[?|?|?] s4]; try reflexivity. destruct (for_range nr _ [] s4) as [[?|?|?] s5]; reflexivity. }
  eapply lays_iff.
  - eapply (lays_bind _ _ _ (Z * Z) Z); [apply (lays_head c0 K)|]. intros a (nregs, nops). cbn [fst snd].
    instantiate (1 := fun x d l y => (if d then nothing else rep (snd x) instruction) l /\ y = snd x). cbn [snd].
    destruct a as ((((t, f), nr), no), regs). cbv beta iota.
    apply lays_pre with (I := fun c => (nr = nregs /\ no = nops /\ 0 <= nops) /\ c = c0).
    2:{ intros c (t' & f' & regs' & E & Hn & Hc). injection E as -> -> -> -> ->. auto. }
    apply lays_pure. intros (-> & -> & Hn).
    eapply lays_iff.
    + eapply (lays_bind _ _ _ bool Z); [apply lays_dirty|]. intros o x. cbv beta. instantiate (1 := fun x d l y => (if x then nothing else rep nops instruction) l /\ y = nops). cbv beta.
      apply lays_pure. intros ->. destruct x.
      * eapply lays_iff; [apply (lays_ret _ _ _ _ nops)|reflexivity]. intros c ->. auto.
      * eapply lays_iff; [eapply (lays_bind _ _ _ unit Z); [apply lays_table; [exact Hn|apply lays_unwrap, lays_opcode]|]; intros ops x; apply (lays_ret _ _ _ _ nops); intros c ->; cbn; auto|].
        intros d l y. unfold sh. split.
        -- intros (_ & l1 & l2 & -> & H & -> & ->). now rewrite app_nil_r.
        -- intros (H & ->). exists tt, l, []. rewrite app_nil_r. auto.
    + intros d l y. cbv beta. split.
      * intros (x & l1 & l2 & -> & (-> & ->) & H & ->). auto.
      * intros (H & ->). exists d, [], l. auto.
  - intros d l nops. unfold fun_part, shv. split.
    + intros ((nregs, no) & a & b & -> & H1 & H2 & ->). cbn [fst snd] in *. exists nregs, a, b. auto.
    + intros (nregs & a & b & -> & H1 & H2). exists (nregs, nops), a, b. auto.
Qed.
Lemma lays_assigns (I : code -> Prop) : lays I skip_assigns (sh (along a_count (fun n => rep n (cat count index)))) (fun _ _ c => I c).
Proof.
  unfold skip_assigns. eapply lays_along; [apply lays_unwrap_mapped, lays_UINDEX|]. intros a n. apply lays_pure. intros ->. apply lays_pure. intros Hn.
  eapply lays_post; [apply (lays_range _ I _ (cat count index) (fun _ _ c => I c)); [lia| |auto]|auto].
  intros i u. eapply lays_cat; [apply lays_ok, lays_count|]. apply (lays_inOk (fun _ _ c => I c) (fun _ => ok INDEX ;;; ret u) tt). intros a0. eapply lays_last; [apply lays_ok, lays_index|]. apply (lays_inOk (fun _ _ c => I c) (fun _ => ret u) tt). intros a1. apply lays_done. auto.
Qed.

(** the local variable of [Code::read] in the function section *)
Definition locf (i : Z) (c : code) : Prop := okc ns nt h T c /\ zlen (c_functions c) = i /\ (c_hasdebug c =? 0) = negb debug /\ c_version c = v /\ c_ndebugfiles c = nf.
Definition functionL (d : bool) (l : list item) (_ : unit) : Prop := func nt v nf debug d l.
Lemma znth_snoc (fs : list hl_function) f i : zlen fs = i -> znth (fs ++ [f]) i = Some f.
Proof. intros <-. rewrite znth_app_r by lia. rewrite Z.sub_diag. reflexivity. Qed.
Lemma zset_some {A} (l : list A) : forall i x, 0 <= i < zlen l -> exists l', zset l i x = Some l' /\ zlen l' = zlen l.
Proof.
  induction l as [|y l IH]; intros i x Hi; [change (zlen (@nil A)) with 0 in Hi; lia|]. cbn [zset]. destruct (Z.eqb_spec i 0); [eexists; split; [reflexivity|rewrite !zlen_cons; lia]|].
  rewrite zlen_cons in Hi. destruct (IH (i - 1) x ltac:(lia)) as (l' & -> & L). eexists. split; [reflexivity|]. rewrite !zlen_cons. lia.
Qed.
Lemma lays_getval c0 : lays (fun c => c = c0) get_code (sh nothing) (fun a _ c => a = c0 /\ c = c0).
Proof. eapply lays_eq; [|apply (lays_get _ _ unit (fun c => ret c))]. - intros s. reflexivity. - intros c1. apply lays_done. intros c (E1 & E2). split; congruence. Qed.
Lemma lays_at c0 A B X (m : M A) (k : A -> M B) L (R : B -> X -> code -> Prop) a : (forall b p lg, m (S_ b p c0 lg) = (Ok a, S_ b p c0 lg)) -> lays (fun c => c = c0) (k a) L R -> lays (fun c => c = c0) (bind m k) L R.
Proof.
  intros E D. split.
  - intros b p c lg r s' B0 -> H. unfold bind in H. rewrite E in H. exact (l_to D b p c0 lg r s' B0 eq_refl H).
  - intros l x rest p c lg B0 -> H. unfold bind. rewrite E. exact (l_from D l x rest p c0 lg B0 eq_refl H).
Qed.
Lemma lays_function_entry i c0 : locf i c0 -> lays (fun _ => True) (read_function_entry i c0) functionL (fun c _ d => locf (i + 1) c /\ exists fs, c = set_functions fs c0).
Proof.
  intros (K & Lf & Hd & Hv & Hn). unfold read_function_entry.
  eapply lays_iff.
  - eapply (lays_bind _ _ _ unit unit); [apply (lays_put (fun _ => True) c0 (fun _ => True) Logic.I)|]. intros a0 x0. instantiate (1 := fun _ d l _ => exists nops l1 l2, l = l1 ++ l2 /\ fun_part d l1 nops /\ fun_debug v nf nops debug l2). cbv beta.
    apply lays_pre with (I := fun c => c = c0); [|now intros c (? & _)].
    eapply (lays_bind _ _ _ Z unit _ _ fun_part _ (fun nops (_ : bool) l (_ : unit) => fun_debug v nf nops debug l)); [apply lays_unwrap_mapped, (lays_function c0 K)|]. intros f nops. cbv beta.
    apply lays_pure. intros Hf. apply lays_pure. intros Hnops. apply lays_at with (a := c0); [reflexivity|].
    set (c2 := set_functions (c_functions c0 ++ [f]) c0).
    assert (L2 : zlen (c_functions c2) = i + 1) by (cbn; rewrite zlen_app; change (zlen [f]) with 1; lia).
    assert (Z2 : znth (c_functions c2) i = Some f) by (cbn; now apply znth_snoc).
    change (fun (_ : bool) (l : list item) (_ : unit) => fun_debug v nf nops debug l) with (sh (fun_debug v nf nops debug)).
    eapply lays_first; [apply (lays_put _ c2 (fun _ => True) Logic.I)|]. intros a1. apply lays_pre with (I := fun c => c = c2); [|now intros c (? & _)].
    apply lays_at with (a := c2); [reflexivity|].
    set (W := fun c => exists fs, c = set_functions fs c0 /\ zlen fs = i + 1).
    assert (W2 : W c2) by (exists (c_functions c0 ++ [f]); split; [reflexivity|exact L2]).
    eapply (lays_last _ _ _ _ _ _ (fun _ _ c => W c)).
    2:{ intros u. eapply lays_eq; [|apply (lays_get _ _ unit (fun c => ret c))]; [reflexivity|]. intros c1. apply lays_done. intros c (<- & fs & -> & Lfs). split; [|eauto]. unfold locf. cbn. auto. }
    change (c_hasdebug c2) with (c_hasdebug c0). rewrite Hd. change (c_version c2) with (c_version c0). rewrite Hv. unfold fun_debug.
    assert (Hn2 : c_ndebugfiles c2 = nf) by exact Hn. clear Hd. destruct debug; cbn [negb]; [|apply lays_done; intros c ->; auto].
    apply lays_at with (a := f); [intros; rewrite Z2; reflexivity|]. rewrite Hf.
    eapply lays_cat; [apply lays_ok_mapped, (lays_debug nf nops Hnf c2 Hn2 Hnops)|].
    match goal with |- forall o, lays _ (?k o) _ _ => apply (lays_inOk (fun _ _ c => c = c2) (fun o => k o) tt) end || idtac.
    apply lays_inOk. intros dbg. cbv beta iota.
    apply lays_first with (R1 := fun _ _ c => W c).
    2:{ intros u. destruct (3 <=? v); [apply lays_assigns|apply lays_done; auto]. }
    apply lays_at with (a := c2); [reflexivity|]. apply lays_at with (a := f); [intros; rewrite Z2; reflexivity|].
    destruct (zset_some (c_functions c2) i (hf_set_debug f dbg) ltac:(rewrite L2; pose proof (zlen_nonneg (c_functions c0)); lia)) as (fs & Zs & Ls). apply lays_at with (a := fs); [intros; rewrite Zs; reflexivity|].
    eapply lays_post; [apply (lays_put _ (set_functions fs c2) (fun _ => True) Logic.I)|]. intros a x c (-> & _). exists fs. split; [reflexivity|lia].
  - intros d l []. unfold functionL, func, sh, nothing, fun_part. split.
    + intros ([] & l1 & l2 & -> & -> & nops & a & b & -> & (nregs & a1 & b1 & -> & H1 & H2) & H3). cbn [app faulty existsb] in *. rewrite Bool.orb_false_r in *. exists nregs, nops, a1, b1, b. rewrite <- app_assoc. auto.
    + intros (nregs & nops & a & b & c & -> & H1 & H2 & H3). exists tt, [], (a ++ b ++ c). split; [reflexivity|]. split; [reflexivity|]. cbn [faulty existsb]. rewrite Bool.orb_false_r. exists nops, (a ++ b), c. rewrite <- app_assoc. split; [reflexivity|]. split; [|auto]. exists nregs, a, b. auto.
Qed.
End funs.
