(** The shapes of OutcomeSpec.v: instructions, debug records, functions (C84). *)
From Verif Require Import Prelude StdModel BrassTypes DecoderModel CodeModel FormatSpec ReaderSpec ErrSpec GrammarSpec OutcomeSpec.
From Verif Require Import CodeGenericProofs FormatProofs StringsProofs ReaderPost ReaderTables ErrProofs ErrExact ErrReturn GrammarDen OutcomeLay OutcomeParts.
From Verif Require BadProofs GrammarTypes GrammarNames GrammarFuns.
From Coq Require Import Lia ZifyBool.

(** * Instructions *)
Lemma lays_extra_index (I : code -> Prop) n : 0 <= n -> lays I (read_extra INDEX n) (sh (rep n index)) (fun _ _ c => I c).
Proof. intros Hn. unfold read_extra. apply lays_table; [auto|]. apply lays_unwrap, lays_index. Qed.
Lemma lays_extra_count (I : code -> Prop) n : 0 <= n -> lays I (read_extra UINDEX n) (sh (rep n count)) (fun _ _ c => I c).
Proof. intros Hn. unfold read_extra. apply lays_table; [auto|]. apply lays_unwrap, lays_count. Qed.
Lemma arity_over v : 99 <= v -> arity v = None.
Proof. intros H. unfold arity. apply GrammarNames.znth_none. exact H. Qed.
Ltac idx := eapply lays_cat; [apply lays_unwrap, lays_index|intros ?].
Lemma lays_opcode (I : code -> Prop) : lays I read_opcode (sh instruction) (fun _ _ c => I c).
Proof.
  unfold read_opcode, instruction. apply lays_code.
  - intros. now rewrite record_S.
  - intros v Hv. unfold operands. now rewrite arity_over.
  - auto.
  - intros v Hv Hl. destruct (nargs_cases v ltac:(lia)) as (a & Ha & Ra & _). destruct (arity_nargs v a ltac:(lia) Ha) as (Ar & _ & Vc). unfold operands. rewrite Ar.
    apply lays_val with (a := a); [intros s; now rewrite Ha|].
    destruct (Z.eqb_spec a (-1)) as [E|E].
    + subst a. cbn [Z.eqb]. destruct (Vc eq_refl) as [->|Hin].
      * match goal with |- lays _ ?m _ _ => change m with (p1 <- unwrap UINDEX ;; p2 <- unwrap UINDEX ;; extra <- read_extra UINDEX p2 ;; p3 <- unwrap UINDEX ;; ret (mkop 70 (Some p1) (Some p2) (Some p3) extra)) end.
        change (70 =? 70) with true. eapply lays_cat; [apply lays_unwrap, lays_count|intros p1]. eapply lays_along; [apply lays_unwrap, lays_UINDEX|]. intros p2 n. apply lays_pure. intros ->. apply lays_pure. intros Hn.
        eapply lays_cat; [apply lays_extra_count; lia|intros ?]. eapply lays_last; [apply lays_unwrap, lays_count|intros ?]. apply lays_done; auto.
      * assert (N : (v =? 70) = false /\ (v =? OCallN) || (v =? OCallClosure) || (v =? OCallMethod) || (v =? OCallThis) || (v =? OMakeEnum) = true).
        { unfold variadic_calls in Hin. cbn in Hin. destruct Hin as [<-|[<-|[<-|[<-|[<-|[]]]]]]; auto. }
        destruct N as (-> & ->). idx. idx. eapply lays_along; [apply lays_u8|]. intros p3 n. apply lays_pure. intros ->. apply lays_pure. intros Hn. eapply lays_last; [apply lays_extra_index; lia|intros ?]. apply lays_done; auto.
    + assert (a = 0 \/ a = 1 \/ a = 2 \/ a = 3 \/ a = 4 \/ a = 5 \/ a = 6) as Q by lia.
      destruct Q as [->|[->|[->|[->|[->|[->| ->]]]]]]; cbn [Z.eqb Pos.eqb Z.sub Z.add Z.opp Z.pos_sub Pos.pred_double Z.ltb Z.compare].
      * apply lays_done; auto.
      * change (rep 1 index) with (cat index nothing). idx. apply lays_done; auto.
      * change (rep 2 index) with (cat index (cat index nothing)). idx. idx. apply lays_done; auto.
      * change (rep 3 index) with (cat index (cat index (cat index nothing))). idx. idx. idx. apply lays_done; auto.
      * change (rep 4 index) with (cat index (cat index (cat index (cat index nothing)))). idx. idx. idx. idx. apply lays_done; auto.
      * change (rep 5 index) with (cat index (cat index (cat index (rep 2 index)))). idx. idx. idx. eapply lays_val; [reflexivity|]. eapply lays_last; [apply lays_extra_index; lia|intros ?]. apply lays_done; auto.
      * change (rep 6 index) with (cat index (cat index (cat index (rep 3 index)))). idx. idx. idx. eapply lays_val; [reflexivity|]. eapply lays_last; [apply lays_extra_index; lia|intros ?]. apply lays_done; auto.
Qed.

(** * Debug records *)
Ltac dlia := Z.div_mod_to_equations; lia.
Section debug.
Variables nf nops : Z.
Hypothesis Hnf : nf <= I32_MAX.
Variable c : code.
Hypothesis Hc : c_ndebugfiles c = nf.
Lemma u8_run {B} (k : Z -> M B) v rest p lg : bind (unwrap decode_u8) k (S_ (v :: rest) p c lg) = k v (S_ rest (p + 1) c lg).
Proof. unfold bind, unwrap. now rewrite u8_S. Qed.
Lemma u8_none {B} (k : Z -> M B) p lg : exists q s, bind (unwrap decode_u8) k (S_ [] p c lg) = (Panic q, s).
Proof. destruct (u8_empty p c lg) as (e & E). unfold bind, unwrap. rewrite E. eauto. Qed.
Lemma maybe_record (b : bool) k p {B} (m : M B) buf q lg : never_replaces k = false ->
  bind (if b then record_error (with_info k p) else ret tt) (fun _ => m) (S_ buf q c lg) = m (S_ buf q c (lg ++ if b then [err k p] else [])).
Proof. intros H. unfold bind. destruct b; [|now rewrite app_nil_r]. unfold with_info. fold (err k p). now rewrite record_S. Qed.
Lemma store_or d i f l s : (exists d', debug_store d i f l s = (Ok d', s)) \/ exists q s', debug_store d i f l s = (Panic q, s').
Proof.
  unfold debug_store, bind. destruct (zset d (2 * i) f) as [d1|]; cbn [expect]; [|right; eexists _, _; reflexivity]. unfold ret. destruct (zset d1 (2 * i + 1) l); cbn [expect]; [left|right]; [eexists|eexists _, _]; reflexivity.
Qed.
Lemma debug_to fuel : forall i cf line d b p lg r s', okb b ->
  debug_loop fuel nops i cf line d (S_ b p c lg) = (r, s') ->
  match r with
  | Err _ => False
  | Panic _ => True
  | Ok _ => exists l rest, b = flat l ++ rest /\ records nf nops i line l /\ s' = S_ rest (p + zlen (flat l)) c (lg ++ found p l)
  end.
Proof.
  induction fuel as [|fuel IH]; intros i cf line d b p lg r s' B0 E; cbn [debug_loop] in E; [inversion E; subst; exact Logic.I|].
  destruct (Z.ltb_spec i nops) as [Hi|Hi].
  2:{ inversion E; subst. exists [], b. split; [reflexivity|]. split; [now constructor|]. cbn [flat flat_map found]. change (zlen (@nil Z)) with 0. now rewrite Z.add_0_r, app_nil_r. }
  destruct b as [|cb b].
  { match type of E with bind _ ?k _ = _ => destruct (u8_none k p lg) as (q & s & E') end. rewrite E' in E. inversion E; subst. exact Logic.I. }
  rewrite u8_run in E. pose proof (proj1 B0) as Bv. pose proof (Forall_inv Bv) as Hcb; pose proof (Forall_inv_tail Bv) as Bb. unfold is_byte in Hcb. clear Bv.
  pose proof (okb_r [cb] b B0) as B1.
  destruct (GrammarFuns.byte_split cb ltac:(lia)) as (L1 & L2 & L4 & S1 & S6 & S2 & S3). rewrite L1, L2, L4, S1, S6, S2, S3 in E. clear L1 L2 L4 S1 S6 S2 S3.
  destruct (Z.eqb_spec (cb mod 2) 0) as [M2|M2]; cbn [negb] in E.
  2:{ (* file *)
    destruct b as [|x b].
    { match type of E with bind _ ?k _ = _ => destruct (u8_none k (p + 1) lg) as (q & s & E') end. rewrite E' in E. inversion E; subst. exact Logic.I. }
    rewrite u8_run in E. pose proof (Forall_inv Bb) as Hx. unfold is_byte in Hx. cbv zeta in E. rewrite (Z.lor_comm (Z.shiftl (cb / 2) 8) x), lor_shift, Z.add_comm in E by lia.
    set (f := 256 * (cb / 2) + x) in *. unfold bind at 1, get_code in E. cbn [d_code S_] in E. unfold bind at 1 in E. rewrite Hc, to_i32_ok in E by auto. unfold bind at 1, get_pos in E. cbn [d_pos S_] in E.
    rewrite maybe_record in E by reflexivity. pose proof (IH _ _ _ _ _ _ _ _ _ (okb_r [x] _ B1) E) as Y. destruct r; auto. destruct Y as (l & rest & -> & Y2 & ->).
    assert (F1 : f / 256 = cb / 2) by (unfold f; symmetry; apply Z.div_unique with x; lia). assert (F2 : f mod 256 = x) by (unfold f; symmetry; apply Z.mod_unique with (cb / 2); lia).
    exists ((if f <? nf then None else Some InvalidDebugFile, [2 * (f / 256) + 1; f mod 256]) :: l), rest. rewrite F1, F2.
    replace (2 * (cb / 2) + 1) with cb by dlia. change (flat ((if f <? nf then None else Some InvalidDebugFile, [cb; x]) :: l)) with ([cb; x] ++ flat l). split; [reflexivity|]. split.
    { pattern cb at 1. replace cb with (2 * (f / 256) + 1) by dlia. rewrite <- F2. apply rec_file; auto. unfold f. dlia. }
    cbn [found]. rewrite zlen_app. change (zlen [cb; x]) with 2. f_equal; [lia|]. rewrite <- app_assoc. do 2 f_equal; [|f_equal; lia].
    replace (p + 1 + 1) with (p + 2) by lia. unfold err. destruct (Z.ltb_spec f nf), (Z.leb_spec nf f); try lia; reflexivity. }
  destruct (Z.eqb_spec (cb / 2 mod 2) 0) as [M4|M4]; cbn [negb] in E.
  2:{ (* repeat *)
    unfold bind at 1, get_pos in E. cbn [d_pos S_] in E. rewrite maybe_record in E by reflexivity. unfold bind at 1, i32_add in E.
    destruct (Z.ltb_spec I32_MAX (line + cb / 64)) as [Ho|Ho]; [inversion E; subst; exact Logic.I|]. cbn [ret] in E.
    pose proof (IH _ _ _ _ _ _ _ _ _ B1 E) as Y. destruct r; auto. destruct Y as (l & rest & -> & Y2 & ->).
    assert (F : 64 * (cb / 64) + 4 * (cb / 4 mod 16) + 2 = cb) by dlia.
    exists ((if i + cb / 4 mod 16 <=? nops then None else Some OutsideRange, [cb]) :: l), rest. change (flat ((if i + cb / 4 mod 16 <=? nops then None else Some OutsideRange, [cb]) :: l)) with ([cb] ++ flat l).
    split; [reflexivity|]. split.
    { rewrite <- F at 2. apply rec_repeat; auto; try dlia. unfold I32_MAX in Ho. change (2 ^ 31) with 2147483648. lia. }
    cbn [found]. rewrite zlen_app. change (zlen [cb]) with 1. f_equal; [lia|]. rewrite <- app_assoc. do 2 f_equal. unfold err. destruct (Z.leb_spec (i + cb / 4 mod 16) nops), (Z.ltb_spec nops (i + cb / 4 mod 16)); try lia; reflexivity. }
  destruct (Z.eqb_spec (cb / 4 mod 2) 0) as [M8|M8]; cbn [negb] in E.
  2:{ (* delta *)
    unfold bind at 1, i32_add in E. destruct (Z.ltb_spec I32_MAX (line + cb / 8)) as [Ho|Ho]; [inversion E; subst; exact Logic.I|]. cbn [ret] in E.
    unfold bind at 1 in E. destruct (store_or d i cf (line + cb / 8) (S_ b (p + 1) c lg)) as [(d' & Ds)|(q & s1 & Ds)]; rewrite Ds in E; [|inversion E; subst; exact Logic.I].
    pose proof (IH _ _ _ _ _ _ _ _ _ B1 E) as Y. destruct r; auto. destruct Y as (l & rest & -> & Y2 & ->).
    assert (F : 8 * (cb / 8) + 4 = cb) by dlia. exists ((None, [cb]) :: l), rest. change (flat ((None, [cb]) :: l)) with ([cb] ++ flat l). split; [reflexivity|]. split.
    { rewrite <- F. apply rec_delta; auto; try dlia. unfold I32_MAX in Ho. change (2 ^ 31) with 2147483648. lia. }
    cbn [found]. rewrite zlen_app. change (zlen [cb]) with 1. f_equal. lia. }
  (* absolute *)
  destruct b as [|x b].
  { match type of E with bind _ ?k _ = _ => destruct (u8_none k (p + 1) lg) as (q & s & E') end. rewrite E' in E. inversion E; subst. exact Logic.I. }
  rewrite u8_run in E. pose proof (Forall_inv Bb) as Hx; pose proof (Forall_inv_tail Bb) as Bb2. unfold is_byte in Hx. destruct b as [|y b].
  { match type of E with bind _ ?k _ = _ => destruct (u8_none k (p + 1 + 1) lg) as (q & s & E') end. rewrite E' in E. inversion E; subst. exact Logic.I. }
  rewrite u8_run in E. pose proof (Forall_inv Bb2) as Hy. unfold is_byte in Hy. cbv zeta in E.
  replace (Z.lor (Z.lor (cb / 8) (Z.shiftl x 5 mod 256)) y) with (abs_line (cb / 8) x y) in E by (unfold abs_line; rewrite Z.shiftl_mul_pow2, (Z.mul_comm x) by lia; reflexivity).
  unfold bind at 1 in E. destruct (store_or d i cf (abs_line (cb / 8) x y) (S_ b (p + 1 + 1 + 1) c lg)) as [(d' & Ds)|(q & s1 & Ds)]; rewrite Ds in E; [|inversion E; subst; exact Logic.I].
    pose proof (IH _ _ _ _ _ _ _ _ _ (okb_r [x; y] _ B1) E) as Y. destruct r; auto. destruct Y as (l & rest & -> & Y2 & ->).
  assert (F : 8 * (cb / 8) = cb) by dlia. exists ((None, [cb; x; y]) :: l), rest. change (flat ((None, [cb; x; y]) :: l)) with ([cb; x; y] ++ flat l). split; [reflexivity|]. split.
  { rewrite <- F. apply rec_abs; auto; dlia. }
  cbn [found]. rewrite zlen_app. change (zlen [cb; x; y]) with 3. f_equal; [lia|]. cbn [app]. do 2 f_equal. lia.
Qed.
Lemma store_ok d i f l b p lg {B} (k : list Z -> M B) : 0 <= i < nops -> zlen d = 2 * nops -> exists d', zlen d' = 2 * nops /\ bind (debug_store d i f l) k (S_ b p c lg) = k d' (S_ b p c lg).
Proof.
  intros Hi Hd.
  assert (Zs : forall (l : list Z) i x, 0 <= i < zlen l -> exists l', zset l i x = Some l' /\ zlen l' = zlen l).
  { clear. induction l as [|y l IH]; intros i x Hi; [change (zlen (@nil Z)) with 0 in Hi; lia|]. cbn [zset]. destruct (Z.eqb_spec i 0); [eexists; split; [reflexivity|rewrite !zlen_cons; lia]|].
    rewrite zlen_cons in Hi. destruct (IH (i - 1) x ltac:(lia)) as (l' & -> & L). eexists. split; [reflexivity|]. rewrite !zlen_cons. lia. }
  destruct (Zs d (2 * i) f ltac:(lia)) as (d1 & E1 & L1). destruct (Zs d1 (2 * i + 1) l ltac:(lia)) as (d2 & E2 & L2). exists d2. split; [lia|]. unfold bind, debug_store, bind. rewrite E1. cbn [expect]. unfold ret. rewrite E2. reflexivity.
Qed.
Lemma debug_from i line l : records nf nops i line l -> forall fuel cf d rest p lg, 0 <= i -> zlen d = 2 * nops -> (length (flat l ++ rest) < fuel)%nat -> okb (flat l ++ rest) ->
  exists a, debug_loop fuel nops i cf line d (S_ (flat l ++ rest) p c lg) = (Ok a, S_ rest (p + zlen (flat l)) c (lg ++ found p l)).
Proof.
  induction 1 as [i line Hi|i line f l Hi Hf H IH|i line dl n l Hi Hd Hn Ho H IH|i line dl l Hi Hd Ho H IH|i line a b2 c2 l Hi Ha Hb Hc2 H IH];
    intros fuel cf d rest p lg Hi0 Ld Hfu B0; (destruct fuel as [|fuel]; [lia|]); cbn [debug_loop].
  - destruct (Z.ltb_spec i nops); [lia|]. cbn [flat flat_map found app]. change (zlen (@nil Z)) with 0. rewrite Z.add_0_r, app_nil_r. eexists. reflexivity.
  - destruct (Z.ltb_spec i nops); [|lia]. set (k := if f <? nf then None else Some InvalidDebugFile) in *. set (cb := 2 * (f / 256) + 1) in *. set (x := f mod 256) in *.
    change (flat ((k, [cb; x]) :: l)) with (cb :: x :: flat l) in *. cbn [app] in *. rewrite u8_run. assert (Hcb : 0 <= cb < 256) by (unfold cb; dlia).
    destruct (GrammarFuns.byte_split cb ltac:(lia)) as (L1 & L2 & L4 & S1 & S6 & S2 & S3). rewrite L1, S1. clear L1 L2 L4 S1 S6 S2 S3.
    destruct (Z.eqb_spec (cb mod 2) 0) as [M2|M2]; [unfold cb in M2; dlia|]. cbn [negb]. rewrite u8_run. cbv zeta. rewrite (Z.lor_comm (Z.shiftl (cb / 2) 8) x), lor_shift, Z.add_comm by (unfold x; dlia).
    replace (256 * (cb / 2) + x) with f by (unfold cb, x; dlia). unfold bind at 1, get_code. cbn [d_code S_]. unfold bind at 1. rewrite Hc, to_i32_ok by auto. unfold bind at 1, get_pos. cbn [d_pos S_].
    rewrite maybe_record by reflexivity. cbn [length] in Hfu. destruct (IH fuel f d rest (p + 1 + 1) (lg ++ (if nf <=? f then [err InvalidDebugFile (p + 1 + 1)] else [])) Hi0 Ld ltac:(lia) (okb_r [cb; x] _ B0)) as (a & E).
    exists a. rewrite E. cbn [found]. change (zlen [cb; x]) with 2. rewrite !zlen_cons. f_equal. f_equal; [lia|]. rewrite <- app_assoc. do 2 f_equal; [|f_equal; lia].
    replace (p + 1 + 1) with (p + 2) by lia. unfold k, err. destruct (Z.ltb_spec f nf), (Z.leb_spec nf f); try lia; reflexivity.
  - destruct (Z.ltb_spec i nops); [|lia]. set (k := if i + n <=? nops then None else Some OutsideRange) in *. set (cb := 64 * dl + 4 * n + 2) in *.
    change (flat ((k, [cb]) :: l)) with (cb :: flat l) in *. cbn [app] in *. rewrite u8_run. assert (Hcb : 0 <= cb < 256) by (unfold cb; dlia).
    destruct (GrammarFuns.byte_split cb ltac:(lia)) as (L1 & L2 & L4 & S1 & S6 & S2 & S3). rewrite L1, L2, S6, S2. clear L1 L2 L4 S1 S6 S2 S3.
    replace (cb mod 2) with 0 by (unfold cb; dlia). replace (cb / 2 mod 2) with 1 by (unfold cb; dlia). cbn [negb Z.eqb]. replace (cb / 64) with dl by (unfold cb; dlia). replace (cb / 4 mod 16) with n by (unfold cb; dlia).
    unfold bind at 1, get_pos. cbn [d_pos S_]. rewrite maybe_record by reflexivity. unfold bind at 1, i32_add. destruct (Z.ltb_spec I32_MAX (line + dl)) as [Ho2|_]; [unfold I32_MAX in Ho2; change (2 ^ 31) with 2147483648 in Ho; lia|]. unfold ret at 1.
    cbn [length] in Hfu. destruct (IH fuel cf d rest (p + 1) (lg ++ (if nops <? i + n then [err OutsideRange (p + 1)] else [])) Hi0 Ld ltac:(lia) (okb_r [cb] _ B0)) as (a & E).
    exists a. rewrite E. cbn [found]. change (zlen [cb]) with 1. rewrite !zlen_cons. f_equal. f_equal; [lia|]. rewrite <- app_assoc. do 2 f_equal.
    unfold k, err. destruct (Z.leb_spec (i + n) nops), (Z.ltb_spec nops (i + n)); try lia; reflexivity.
  - destruct (Z.ltb_spec i nops); [|lia]. set (cb := 8 * dl + 4) in *.
    change (flat ((None, [cb]) :: l)) with (cb :: flat l) in *. cbn [app] in *. rewrite u8_run. assert (Hcb : 0 <= cb < 256) by (unfold cb; dlia).
    destruct (GrammarFuns.byte_split cb ltac:(lia)) as (L1 & L2 & L4 & S1 & S6 & S2 & S3). rewrite L1, L2, L4, S3. clear L1 L2 L4 S1 S6 S2 S3.
    replace (cb mod 2) with 0 by (unfold cb; dlia). replace (cb / 2 mod 2) with 0 by (unfold cb; dlia). replace (cb / 4 mod 2) with 1 by (unfold cb; dlia). cbn [negb Z.eqb]. replace (cb / 8) with dl by (unfold cb; dlia).
    unfold bind at 1, i32_add. destruct (Z.ltb_spec I32_MAX (line + dl)) as [Ho2|_]; [unfold I32_MAX in Ho2; change (2 ^ 31) with 2147483648 in Ho; lia|]. unfold ret at 1.
    match goal with |- context [bind (debug_store d i cf (line + dl)) ?k] => destruct (store_ok d i cf (line + dl) (flat l ++ rest) (p + 1) lg k) as (d' & Ld' & E'); [lia|auto|] end. rewrite E'. clear E'.
    cbn [length] in Hfu. destruct (IH fuel cf d' rest (p + 1) lg ltac:(lia) Ld' ltac:(lia) (okb_r [cb] _ B0)) as (a & E).
    exists a. rewrite E. cbn [found app]. change (zlen [cb]) with 1. rewrite !zlen_cons. f_equal. f_equal. lia.
  - destruct (Z.ltb_spec i nops); [|lia]. set (cb := 8 * a) in *.
    change (flat ((None, [cb; b2; c2]) :: l)) with (cb :: b2 :: c2 :: flat l) in *. cbn [app] in *. rewrite u8_run. assert (Hcb : 0 <= cb < 256) by (unfold cb; dlia).
    destruct (GrammarFuns.byte_split cb ltac:(lia)) as (L1 & L2 & L4 & S1 & S6 & S2 & S3). rewrite L1, L2, L4, S3. clear L1 L2 L4 S1 S6 S2 S3.
    replace (cb mod 2) with 0 by (unfold cb; dlia). replace (cb / 2 mod 2) with 0 by (unfold cb; dlia). replace (cb / 4 mod 2) with 0 by (unfold cb; dlia). cbn [negb Z.eqb]. replace (cb / 8) with a by (unfold cb; dlia).
    rewrite !u8_run. cbv zeta.
    replace (Z.lor (Z.lor a (Z.shiftl b2 5 mod 256)) c2) with (abs_line a b2 c2) by (unfold abs_line; rewrite Z.shiftl_mul_pow2, (Z.mul_comm b2) by lia; reflexivity).
    match goal with |- context [bind (debug_store d i cf (abs_line a b2 c2)) ?k] => destruct (store_ok d i cf (abs_line a b2 c2) (flat l ++ rest) (p + 1 + 1 + 1) lg k) as (d' & Ld' & E'); [lia|auto|] end. rewrite E'. clear E'.
    cbn [length] in Hfu. destruct (IH fuel cf d' rest (p + 1 + 1 + 1) lg ltac:(lia) Ld' ltac:(lia) (okb_r [cb; b2; c2] _ B0)) as (a' & E).
    exists a'. rewrite E. cbn [found app]. change (zlen [cb; b2; c2]) with 3. rewrite !zlen_cons. f_equal. f_equal; [lia|]. do 2 f_equal. lia.
Qed.
Lemma lays_debug : 0 <= nops -> lays (fun x => x = c) (debug_infos nops) (sh (records nf nops 0 0)) (fun _ _ x => x = c).
Proof.
  intros Hn. split.
  - intros b p c' lg r s' B0 -> E. unfold debug_infos in E. pose proof (debug_to _ _ _ _ _ _ _ _ _ _ B0 E) as Y. destruct r; auto. destruct Y as (l & rest & Y1 & Y2 & Y3). exists l, tt, rest, c. auto.
  - intros l [] rest p c' lg B0 -> H. unfold debug_infos. cbn [d_buf S_]. destruct (debug_from 0 0 l H (S (length (flat l ++ rest))) (-1) (zrepeat 0 (2 * nops)) rest p lg) as (a & E); [lia| |lia|auto|eauto].
    unfold zrepeat, zlen. rewrite repeat_length. lia.
Qed.
End debug.
