(** The shapes of OutcomeSpec.v, part by part (C84). *)
From Verif Require Import Prelude StdModel BrassTypes DecoderModel CodeModel FormatSpec ReaderSpec ErrSpec GrammarSpec OutcomeSpec.
From Verif Require Import CodeGenericProofs FormatProofs StringsProofs ReaderPost ReaderTables ErrProofs ErrExact ErrReturn GrammarDen OutcomeLay.
From Verif Require BadProofs GrammarTypes GrammarNames.
From Coq Require Import Lia ZifyBool.

Notation okc := BadProofs.okc.

(** * Items *)
Lemma index_or b : bytes b -> (exists enc v rest, b = enc ++ rest /\ index_value enc = Some v) \/
  (forall p c lg, exists s, INDEX (S_ b p c lg) = (Panic PUnwrap, s)).
Proof.
  intros B. destruct (read_index_exact (S_ b 0 code_new []) B) as [(enc & v & rest & E & V & _)|(L & N & _)]; [left; eauto|].
  right. intros p c lg. unfold INDEX, unwrap. destruct (read_index_exact (S_ b p c lg) B) as [(enc & v & rest & E & V & _)|(_ & _ & n & _ & [(e & R)|R])].
  - destruct (N enc rest v E V).
  - rewrite R. eauto.
  - rewrite R. eauto.
Qed.
Lemma okb_bytes b : okb b -> bytes b. Proof. now intros (B & _). Qed.
Lemma iv_range enc v r : okb (enc ++ r) -> index_value enc = Some v -> - 2 ^ 31 <= v < 2 ^ 31.
Proof. intros (B & _) V. apply Forall_app in B as (B & _). exact (index_value_range enc v B V). Qed.
Lemma lays_INDEX (I : code -> Prop) : lays I INDEX (shv an_index) (fun a v c => a = v /\ - 2 ^ 31 <= v < 2 ^ 31 /\ I c).
Proof.
  split.
  - intros b p c lg r s' B Ic E. destruct (index_or b (okb_bytes _ B)) as [(enc & v & rest & -> & V)|N].
    + rewrite (INDEX_S enc rest v) in E by (auto using okb_bytes). injection E as <- <-. exists [(None, enc)], v, rest, c.
      rewrite flat_one, found_one, app_nil_r. split; [reflexivity|]. split; [exists enc; auto|]. split; [reflexivity|]. split; [reflexivity|]. split; [eapply iv_range; eauto|auto].
    + destruct (N p c lg) as (s & E'). rewrite E' in E. injection E as <- <-. exact Logic.I.
  - intros l x rest p c lg B Ic (b & -> & V). exists x, c. rewrite flat_one, found_one, app_nil_r in *. rewrite (INDEX_S b rest x) by (auto using okb_bytes). split; [reflexivity|].
    split; [reflexivity|]. split; [eapply iv_range; eauto|auto].
Qed.
Lemma lays_index (I : code -> Prop) : lays I INDEX (sh index) (fun _ _ c => I c).
Proof. eapply lays_some; [apply lays_INDEX|]. now intros a v c (_ & _ & H). Qed.
Lemma lays_UINDEX (I : code -> Prop) : lays I UINDEX (shv a_count) (fun a v c => a = v /\ 0 <= v <= I32_MAX /\ I c).
Proof.
  split.
  - intros b p c lg r s' B Ic E. destruct (index_or b (okb_bytes _ B)) as [(enc & v & rest & -> & V)|N].
    + rewrite (UINDEX_S enc rest v) in E by (auto using okb_bytes). injection E as <- <-. exists [(if v <? 0 then Some NegativeIndex else None, enc)], (Z.max 0 v), rest, c.
      rewrite flat_one, found_one. split; [reflexivity|]. split; [exists enc, v; auto|]. split; [now destruct (v <? 0)|]. split; [reflexivity|]. pose proof (iv_range _ _ _ B V). split; [unfold I32_MAX; lia|auto].
    + destruct (N p c lg) as (s & E'). unfold UINDEX, bind, unwrap_mapped in E. rewrite E' in E. injection E as <- <-. exact Logic.I.
  - intros l x rest p c lg B Ic (b & v & -> & V & ->). exists (Z.max 0 v), c. rewrite flat_one, found_one in *. rewrite (UINDEX_S b rest v) by (auto using okb_bytes). split; [now destruct (v <? 0)|].
    split; [reflexivity|]. pose proof (iv_range _ _ _ B V). split; [unfold I32_MAX; lia|auto].
Qed.
Lemma lays_count (I : code -> Prop) : lays I UINDEX (sh count) (fun _ _ c => I c).
Proof. eapply lays_some; [apply lays_UINDEX|]. now intros a v c (_ & _ & H). Qed.
Lemma u8_empty p c lg : exists e, decode_u8 (S_ [] p c lg) = (Err e, S_ [] p c lg).
Proof. eexists. unfold decode_u8, decode_unsigned, bind, read_bytes. cbn [d_buf S_]. reflexivity. Qed.
Lemma lays_u8 (I : code -> Prop) : lays I (unwrap decode_u8) (shv a_byte) (fun a v c => a = v /\ 0 <= v < 256 /\ I c).
Proof.
  split.
  - intros b p c lg r s' B Ic E. destruct b as [|v rest].
    + destruct (u8_empty p c lg) as (e & E'). unfold unwrap in E. rewrite E' in E. injection E as <- <-. exact Logic.I.
    + unfold unwrap in E. rewrite u8_S in E. injection E as <- <-. exists [(None, [v])], v, rest, c. destruct B as (B & _). inversion B as [|? ? Hv _]; subst. unfold is_byte in Hv.
      rewrite flat_one, found_one, app_nil_r. split; [reflexivity|]. split; [split; [reflexivity|lia]|]. split; [reflexivity|]. auto.
  - intros l x rest p c lg B Ic (-> & Hx). exists x, c. rewrite flat_one, found_one, app_nil_r in *. unfold unwrap. cbn [app]. rewrite u8_S. auto.
Qed.
(** a code byte, checked *)
Lemma lays_code (I : code -> Prop) B (rec : derr -> M unit) k n (m : Z -> M B) (d : B) (body : Z -> shape) (R : B -> unit -> code -> Prop) :
  (forall p b q c l, rec (err k p) (S_ b q c l) = (Ok tt, S_ b q c (l ++ [err k p]))) ->
  (forall v, n <= v -> body v = nothing) -> (forall c, I c -> R d tt c) ->
  (forall v, 0 <= v < 256 -> v < n -> lays I (m v) (sh (body v)) R) ->
  lays I (v <- unwrap decode_u8 ;; if n <=? v then p <- get_pos ;; rec (with_info k p) ;;; ret d else m v) (sh (along (a_code k n) body)) R.
Proof.
  intros Hr Hb Hd Dm. split.
  - intros b p c lg r s' B0 Ic E. destruct b as [|v rest].
    + destruct (u8_empty p c lg) as (e & E'). unfold bind at 1, unwrap in E. rewrite E' in E. injection E as <- <-. exact Logic.I.
    + unfold bind at 1, unwrap in E. rewrite u8_S in E. pose proof (proj1 B0) as Bv. inversion Bv as [|? ? Hv _]; subst. unfold is_byte in Hv. destruct (Z.leb_spec n v) as [Hn|Hn].
      * unfold bind, get_pos, with_info in E. cbn [d_pos S_] in E. fold (err k (p + 1)) in E. rewrite Hr in E. injection E as <- <-. exists [(Some k, [v])], tt, rest, c.
        rewrite flat_one, found_one. split; [reflexivity|]. split; [|split; [reflexivity|auto]]. exists v, [(Some k, [v])], []. rewrite Hb by lia. split; [reflexivity|]. split; [split; [|lia]|reflexivity]. destruct (Z.ltb_spec v n); [lia|reflexivity].
      * pose proof (l_to (Dm v ltac:(lia) Hn) rest (p + 1) c lg r s' (okb_r [v] _ B0) Ic E) as Y. destruct r; auto. destruct Y as (l & x & rest2 & c' & -> & Y2 & -> & Y4).
        exists ((None, [v]) :: l), x, rest2, c'. change (flat ((None, [v]) :: l)) with (v :: flat l). cbn [found app]. change (zlen [v]) with 1. rewrite zlen_cons, Z.add_assoc. split; [reflexivity|]. split; [|auto].
        exists v, [(None, [v])], l. split; [reflexivity|]. split; [split; [|lia]|exact Y2]. destruct (Z.ltb_spec v n); [reflexivity|lia].
  - intros l x rest p c lg B0 Ic (v & a & b & -> & (-> & Hv) & Hb2). rewrite flat_app, flat_one, <- app_assoc in *. cbn [app] in *. unfold bind at 1, unwrap. rewrite u8_S. destruct (Z.leb_spec n v) as [Hn|Hn].
    + rewrite Hb in Hb2 by lia. unfold nothing in Hb2. subst b. unfold bind, get_pos, with_info. cbn [d_pos S_]. fold (err k (p + 1)). rewrite Hr. exists d, c. destruct (Z.ltb_spec v n); [lia|]. split; [reflexivity|]. destruct x. auto.
    + destruct (l_from (Dm v Hv Hn) b x rest (p + 1) c lg (okb_r [v] _ B0) Ic Hb2) as (a & c' & E & Q). exists a, c'. rewrite E. split; [|exact Q]. destruct (Z.ltb_spec v n); [|lia].
      cbn [found app]. change (zlen [v]) with 1. rewrite zlen_cons, Z.add_assoc. reflexivity.
Qed.

(** * Tables *)
Lemma lays_table (I : code -> Prop) A (body : M A) P n l0 : 0 <= n -> lays I body (sh P) (fun _ _ c => I c) ->
  lays I (for_range n (fun i l => x <- body ;; vec_insert l i x) l0) (sh (rep n P)) (fun _ _ c => I c).
Proof.
  intros Hn D. eapply lays_post; [apply (lays_range _ I _ P (fun i l c => (0 <= i <= zlen l) /\ I c) n l0 Hn)|].
  - intros i l. apply lays_pure. intros Hi. eapply lays_last; [apply D|]. intros x. apply lays_insert; [lia|]. intros l' c L Ic. split; [lia|auto].
  - intros c Ic. pose proof (zlen_nonneg l0). split; [lia|auto].
  - cbv beta. tauto.
Qed.
Lemma lays_ext (I : code -> Prop) A (f g : Z -> A -> M A) n a X L (R : A -> X -> code -> Prop) : (forall i a s, f i a s = g i a s) -> lays I (for_range n g a) L R -> lays I (for_range n f a) L R.
Proof.
  intros E D. eapply lays_eq; [|exact D]. intros s. clear D. unfold for_range. revert a s. generalize 0. induction (Z.to_nat n) as [|k IH]; intros i a s; cbn [for_loop]; [reflexivity|]. unfold bind. rewrite E. destruct (g i a s) as [[?|?|?] ?]; auto.
Qed.
Lemma lays_when (I : code -> Prop) (P : Prop) A (m : M A) Q (R : A -> unit -> code -> Prop) : P -> lays I m (sh Q) R -> lays I m (sh (fun l => P /\ Q l)) R.
Proof. intros H D. eapply lays_iff; [exact D|]. intros d l x. unfold sh. tauto. Qed.

Section parts.
Variables ns nt h T : Z.
Hypothesis Hns : 0 <= ns <= I32_MAX.
Hypothesis Hnt : 0 <= nt <= I32_MAX.
Hypothesis HT : 0 < nt \/ T = 0.
Variable I : code -> Prop.
Hypothesis HI : forall c, I c -> okc ns nt h T c.
Hypothesis HU : forall c u, I c -> ns <= zlen u -> I (set_ustrings u c).

Lemma index_of b v rest p c lg {B} (k : Z -> M B) : okb (b ++ rest) -> index_value b = Some v -> bind (unwrap INDEX) k (S_ (b ++ rest) p c lg) = k v (S_ rest (p + zlen b) c lg).
Proof. intros B0 V. unfold bind, unwrap. now rewrite (INDEX_S b rest v) by (auto using okb_bytes). Qed.
Lemma no_index b p c lg {B} (k : Z -> M B) s : INDEX (S_ b p c lg) = (Panic PUnwrap, s) -> bind (unwrap INDEX) k (S_ b p c lg) = (Panic PUnwrap, s).
Proof. intros E. unfold bind, unwrap. now rewrite E. Qed.

(** a reference: [m] reads an index and checks it *)
Lemma lays_reference A (k : Z -> M A) kind n (ok : Z -> Prop) :
  (forall v rest p c lg, I c -> (v < 0 \/ n <= v) ->
     (exists a, k v (S_ rest p c lg) = (Ok a, S_ rest p c (lg ++ [err kind p])) /\ ok v) \/ ((exists q s, k v (S_ rest p c lg) = (Panic q, s)) /\ ~ ok v)) ->
  (forall v rest p c lg, I c -> 0 <= v < n ->
     (exists a c', k v (S_ rest p c lg) = (Ok a, S_ rest p c' lg) /\ I c' /\ ok v) \/ ((exists q s, k v (S_ rest p c lg) = (Panic q, s)) /\ ~ ok v)) ->
  lays I (bind (unwrap INDEX) k) (sh (fun l => exists b v, l = [(if (0 <=? v) && (v <? n) then None else Some kind, b)] /\ index_value b = Some v /\ ok v)) (fun _ _ c => I c).
Proof.
  intros Bad Good. split.
  - intros b p c lg r s' B0 Ic E. destruct (index_or b (okb_bytes _ B0)) as [(enc & v & rest & -> & V)|N].
    2:{ destruct (N p c lg) as (s & E'). rewrite (no_index _ _ _ _ _ _ E') in E. injection E as <- <-. exact Logic.I. }
    rewrite (index_of enc v) in E by auto. destruct ((0 <=? v) && (v <? n)) eqn:Q.
    + destruct (Good v rest (p + zlen enc) c lg Ic ltac:(lia)) as [(a & c' & E' & I' & O)|((q & s & E') & _)]; rewrite E' in E; injection E as <- <-; [|exact Logic.I].
      exists [(None, enc)], tt, rest, c'. rewrite flat_one, found_one, app_nil_r. split; [reflexivity|]. split; [exists enc, v; rewrite Q; auto|auto].
    + destruct (Bad v rest (p + zlen enc) c lg Ic ltac:(lia)) as [(a & E' & O)|((q & s & E') & _)]; rewrite E' in E; injection E as <- <-; [|exact Logic.I].
      exists [(Some kind, enc)], tt, rest, c. rewrite flat_one, found_one. split; [reflexivity|]. split; [exists enc, v; rewrite Q; auto|auto].
  - intros l [] rest p c lg B0 Ic (b & v & -> & V & O). rewrite flat_one, found_one in *. rewrite (index_of b v) by auto. destruct ((0 <=? v) && (v <? n)) eqn:Q.
    + destruct (Good v rest (p + zlen b) c lg Ic ltac:(lia)) as [(a & c' & E' & I' & _)|(_ & X)]; [|contradiction]. exists a, c'. rewrite E', app_nil_r. auto.
    + destruct (Bad v rest (p + zlen b) c lg Ic ltac:(lia)) as [(a & E' & _)|(_ & X)]; [|contradiction]. exists a, c. rewrite E'. auto.
Qed.
Lemma reference_ok kind n d l (x : unit) : sh (fun l => exists b v, l = [(if (0 <=? v) && (v <? n) then None else Some kind, b)] /\ index_value b = Some v /\ True) d l x <-> sh (reference kind n) d l x.
Proof. unfold sh, reference. split; [intros (b & v & E1 & E2 & _); eauto|intros (b & v & E1 & E2); eauto]. Qed.
Lemma lays_name : lays I read_ustring (sh (name ns)) (fun _ _ c => I c).
Proof.
  eapply lays_iff; [apply (lays_reference str _ InvalidStringIndex ns (fun _ => True))|intros d l x; apply reference_ok].
  - intros v rest p c lg Ic Hv. left. destruct (HI c Ic) as (K1 & K2 & K3 & K4 & K5 & K6). unfold bind at 1, get_code. cbn [d_code S_]. unfold bind at 1. rewrite K1, to_i32_ok by lia.
    replace ((v <? 0) || (ns <=? v)) with true by lia. unfold bind at 1, get_pos. unfold bind, with_info. cbn [d_pos S_]. fold (err InvalidStringIndex p). rewrite record_S by reflexivity. eexists. split; [reflexivity|exact Logic.I].
  - intros v rest p c lg Ic Hv. left. destruct (HI c Ic) as (K1 & K2 & K3 & K4 & K5 & K6). unfold bind at 1, get_code. cbn [d_code S_]. unfold bind at 1. rewrite K1, to_i32_ok by lia.
    replace ((v <? 0) || (ns <=? v)) with false by lia. destruct (BadProofs.get_ustring_some c v ltac:(lia)) as (a & u & G & L). unfold bind at 1, lift. rewrite G. exists a, (set_ustrings u c). split; [reflexivity|]. split; [apply HU; [auto|lia]|exact Logic.I].
Qed.
Lemma lays_typeref : lays I get_type (sh (typeref nt)) (fun _ _ c => I c).
Proof.
  eapply lays_iff; [apply (lays_reference vtype _ InvalidTypeIndex nt (fun _ => 0 < nt))|].
  - intros v rest p c lg Ic Hv. destruct (HI c Ic) as (K1 & K2 & K3 & K4 & K5 & K6). 
    destruct (Z.eq_dec nt 0) as [E0|E0]; [right|left]; unfold bind at 1, get_code; cbn [d_code S_]; unfold bind at 1; rewrite K2, to_i32_ok by lia;
      replace ((v <? 0) || (nt <=? v)) with true by lia; unfold bind at 1, get_pos; unfold bind, with_info; cbn [d_pos S_]; fold (err InvalidTypeIndex p); rewrite record_S by reflexivity.
    + assert (T = 0) by lia. destruct (c_types c) as [|t ts] eqn:Et; [cbn [znth]; split; [eexists _, _; reflexivity|lia]|]. rewrite zlen_cons in K3. pose proof (zlen_nonneg ts). lia.
    + rewrite (znth_nth _ _ vt_default) by lia. eexists. split; [reflexivity|lia].
  - intros v rest p c lg Ic Hv. destruct (HI c Ic) as (K1 & K2 & K3 & K4 & K5 & K6). left. unfold bind at 1, get_code. cbn [d_code S_]. unfold bind at 1. rewrite K2, to_i32_ok by lia.
    replace ((v <? 0) || (nt <=? v)) with false by lia. rewrite (znth_nth _ _ vt_default) by lia. eexists _, c. split; [reflexivity|]. split; [auto|lia].
  - intros d l x. unfold sh, typeref, reference. split; [intros (b & v & E1 & E2 & H); eauto|intros (H & b & v & E1 & E2); eauto].
Qed.
Lemma lays_string_name : lays I read_string (sh (string_name ns h)) (fun _ _ c => I c).
Proof.
  apply lays_eq with (m' := bind (unwrap INDEX) (fun index => c <- get_code ;; n <- to_i32 (c_nstrings c) ;;
    if (index <? 0) || (n <=? index) then p <- get_pos ;; record_error (with_info InvalidStringIndex p) ;;; ret [] else expect PUnwrap (znth (c_strings c) index))).
  { intros s. unfold read_string. set (k := fun index => bind get_code _). unfold bind, unwrap_mapped, unwrap, INDEX, unwrap. destruct (read_index s) as [[?|?|?] ?]; reflexivity. }
  eapply lays_iff; [apply (lays_reference str _ InvalidStringIndex ns (fun v => ~ h <= v < ns))|reflexivity].
  - intros v rest p c lg Ic Hv. left. destruct (HI c Ic) as (K1 & K2 & K3 & K4 & K5 & K6). unfold bind at 1, get_code. cbn [d_code S_]. unfold bind at 1. rewrite K1, to_i32_ok by lia.
    replace ((v <? 0) || (ns <=? v)) with true by lia. unfold bind at 1, get_pos. unfold bind, with_info. cbn [d_pos S_]. fold (err InvalidStringIndex p). rewrite record_S by reflexivity. eexists. split; [reflexivity|pose proof (zlen_nonneg (c_strings c)); lia].
  - intros v rest p c lg Ic Hv. destruct (HI c Ic) as (K1 & K2 & K3 & K4 & K5 & K6). 
    destruct (Z.leb_spec h v) as [L|L]; [right|left]; unfold bind at 1, get_code; cbn [d_code S_]; unfold bind at 1; rewrite K1, to_i32_ok by lia;
      replace ((v <? 0) || (ns <=? v)) with false by lia.
    + split; [|lia]. assert (N : znth (c_strings c) v = None) by (apply GrammarNames.znth_none; lia). rewrite N. eexists _, _. reflexivity.
    + rewrite (znth_nth (A := str) _ _ []) by lia. eexists _, c. split; [reflexivity|]. split; [auto|lia].
Qed.

(** * Tables of items *)
Ltac leaf := first [apply lays_unwrap, lays_name | apply lays_unwrap, lays_typeref | apply lays_unwrap, lays_count | apply lays_unwrap, lays_index | apply lays_name | apply lays_typeref].
Ltac body_eq := intros i a s; unfold bind; repeat match goal with |- context [match ?m ?s with _ => _ end] => is_var s; destruct (m s) as [[?|?|?] ?] end; try reflexivity.
Lemma lays_fields n : 0 <= n -> lays I (read_fields n) (sh (rep n (cat (name ns) (typeref nt)))) (fun _ _ c => I c).
Proof.
  intros Hn. unfold read_fields. eapply lays_ext; [|apply (lays_table I _ (name <- unwrap read_ustring ;; t <- unwrap get_type ;; ret (mkField name (crc32 name) t)) _ n [] Hn)].
  - intros i a s. unfold bind. destruct (unwrap read_ustring s) as [[?|?|?] s1]; try reflexivity. destruct (unwrap get_type s1) as [[?|?|?] ?]; reflexivity.
  - eapply lays_cat; [leaf|intros a]. eapply lays_last; [leaf|intros b]. apply lays_done. auto.
Qed.
Lemma lays_protos n : 0 <= n -> lays I (read_protos n) (sh (rep n (cat (name ns) (cat count index)))) (fun _ _ c => I c).
Proof.
  intros Hn. unfold read_protos. eapply lays_ext; [|apply (lays_table I _ (name <- unwrap read_ustring ;; findex <- unwrap UINDEX ;; pindex <- unwrap INDEX ;; ret (mkProto name (crc32 name) findex pindex)) _ n [] Hn)].
  - intros i a s. unfold bind. destruct (unwrap read_ustring s) as [[?|?|?] s1]; try reflexivity. destruct (unwrap UINDEX s1) as [[?|?|?] s2]; try reflexivity. destruct (unwrap INDEX s2) as [[?|?|?] ?]; reflexivity.
  - eapply lays_cat; [leaf|intros a]. eapply lays_cat; [leaf|intros b]. eapply lays_last; [leaf|intros ?]. apply lays_done. auto.
Qed.
Lemma lays_bindings n : 0 <= n -> lays I (read_bindings n) (sh (rep n (cat count count))) (fun _ _ c => I c).
Proof.
  intros Hn. unfold read_bindings. eapply lays_post; [apply (lays_range _ I _ (cat count count) (fun i l c => (0 <= i /\ zlen l = 2 * i) /\ I c) n [] Hn)|].
  - intros i l. apply lays_pure. intros Hi. eapply lays_cat; [leaf|intros a]. eapply lays_first; [apply (lays_insert I _ _ _ _ (fun l' _ c => zlen l' = zlen l + 1 /\ I c)); [lia|auto]|]. intros l1. apply lays_pure. intros L1.
    eapply lays_last; [leaf|intros b]. apply lays_insert; [lia|]. intros l' c L Ic. split; [lia|auto].
  - intros c Ic. split; [change (zlen (@nil Z)) with 0; lia|auto].
  - cbv beta. tauto.
Qed.
Lemma lays_type_refs n : 0 <= n -> lays I (read_type_refs n) (sh (rep n (typeref nt))) (fun _ _ c => I c).
Proof. intros Hn. unfold read_type_refs. apply lays_table; [auto|]. leaf. Qed.
Lemma lays_constructs n : 0 <= n -> lays I (read_constructs n) (sh (rep n (cat (name ns) (along a_count (fun np => rep np (typeref nt)))))) (fun _ _ c => I c).
Proof.
  intros Hn. unfold read_constructs. eapply lays_ext; [|apply (lays_table I _ (name <- unwrap read_ustring ;; nparams <- unwrap UINDEX ;; params <- read_type_refs nparams ;; ret (mkCon name nparams params 0 false [])) _ n [] Hn)].
  - intros i a s. unfold bind. destruct (unwrap read_ustring s) as [[?|?|?] s1]; try reflexivity. destruct (unwrap UINDEX s1) as [[np|?|?] s2]; try reflexivity. destruct (read_type_refs np s2) as [[?|?|?] ?]; reflexivity.
  - eapply lays_cat; [leaf|intros a]. eapply lays_along; [apply lays_unwrap, lays_UINDEX|]. intros b v. apply lays_pure. intros ->. apply lays_pure. intros Hv. eapply lays_last; [apply lays_type_refs; lia|intros ?]. apply lays_done. auto.
Qed.

(** * Type entries *)
Ltac counts1 := eapply lays_along; [apply lays_unwrap, lays_UINDEX|]; intros ? ?; apply lays_pure; intros ->; apply lays_pure; intros ?.
Lemma lays_type i : T = nt + i -> lays I read_type (sh (entry ns nt i)) (fun _ _ c => I c).
Proof.
  intros ET. unfold read_type, entry. apply lays_code.
  - intros. now rewrite map_S.
  - intros v Hv. unfold entry_body. now replace (23 <=? v) with true by lia.
  - auto.
  - intros v Hv Hl. unfold entry_body. change HLAST with 23 in *. replace (23 <=? v) with false by lia.
    destruct ((v =? HFUN) || (v =? HMETHOD)).
    { eapply lays_along; [apply lays_u8|]. intros a n. apply lays_pure. intros ->. apply lays_pure. intros Hn. eapply lays_cat; [apply lays_type_refs; lia|intros args]. eapply lays_last; [leaf|intros r]. apply lays_done; auto. }
    destruct ((v =? HOBJ) || (v =? HSTRUCT)).
    { eapply lays_cat; [leaf|intros nm]. eapply lays_along; [apply lays_unwrap, lays_INDEX|]. intros a sup. apply lays_pure. intros ->. apply lays_pure. intros Hs. apply lays_get. intros c0.
      assert (Body : sup < nt + i -> lays I (g <- unwrap UINDEX ;; nfields <- unwrap UINDEX ;; nproto <- unwrap UINDEX ;; nbindings <- unwrap UINDEX ;;
         fields <- read_fields nfields ;; proto <- read_protos nproto ;; bindings <- read_bindings nbindings ;;
         ret (VT (ObjType nm (match (if sup <? 0 then Some vt_default else znth (c_types c0) sup) with Some t => t | None => vt_default end) fields nfields nproto nbindings proto bindings [g] None) None None v))
         (sh (fun l => sup < nt + i /\ cat count (along a_count (fun nf => along a_count (fun np => along a_count (fun nb =>
            cat (rep nf (cat (name ns) (typeref nt))) (cat (rep np (cat (name ns) (cat count index))) (rep nb (cat count count))))))) l)) (fun _ _ c => I c)).
      { intros Hsup. apply lays_when; [auto|]. eapply lays_cat; [leaf|intros g]. counts1. counts1. counts1.
        eapply lays_cat; [apply lays_fields; lia|intros ?]. eapply lays_cat; [apply lays_protos; lia|intros ?]. eapply lays_last; [apply lays_bindings; lia|intros ?]. apply lays_done; auto. }
      split.
      - intros b p c lg r s' B0 (-> & Ic) E. destruct (HI _ Ic) as (K1 & K2 & K3 & K4 & K5 & K6). destruct (Z.ltb_spec sup 0) as [S0|S0].
        + refine (l_to (Body ltac:(lia)) _ _ _ _ _ _ B0 Ic _). exact E.
        + destruct (Z.ltb_spec sup (nt + i)) as [S1|S1].
          * assert (Zn : exists t, znth (c_types c0) sup = Some t) by (rewrite (znth_nth _ _ vt_default) by lia; eauto). destruct Zn as (t & Zn). unfold bind at 1 in E. rewrite Zn in E. cbn [expect] in E. rewrite Zn in Body.
            refine (l_to (Body S1) _ _ _ _ _ _ B0 Ic _). exact E.
          * unfold bind at 1 in E. rewrite GrammarNames.znth_none in E by lia. inversion E; subst. exact Logic.I.
      - intros l x rest p c lg B0 (-> & Ic) H. assert (Hsup : sup < nt + i) by apply H. destruct (HI _ Ic) as (K1 & K2 & K3 & K4 & K5 & K6). destruct (l_from (Body Hsup) l x rest p c0 lg B0 Ic H) as (a & c' & E & Q). exists a, c'. split; [|exact Q]. rewrite <- E.
        destruct (Z.ltb_spec sup 0) as [S0|S0]; [reflexivity|].
        assert (Zn : exists t, znth (c_types c0) sup = Some t) by (rewrite (znth_nth _ _ vt_default) by lia; eauto). destruct Zn as (t & Zn). rewrite Zn. reflexivity. }
    destruct (Z.eqb_spec v HREF) as [->|NR].
    { replace (HREF =? HVIRTUAL) with false by reflexivity. replace (HREF =? HABSTRACT) with false by reflexivity. replace (HREF =? HENUM) with false by reflexivity. eapply lays_last; [leaf|intros ?]. apply lays_done; auto. }
    destruct (v =? HVIRTUAL).
    { counts1. eapply lays_last; [apply lays_fields; lia|intros ?]. apply lays_done; auto. }
    destruct (v =? HABSTRACT).
    { eapply lays_last; [leaf|intros ?]. apply lays_done; auto. }
    destruct (v =? HENUM).
    { eapply lays_cat; [leaf|intros ?]. eapply lays_cat; [leaf|intros ?]. counts1. eapply lays_last; [apply lays_constructs; lia|intros ?]. apply lays_done; auto. }
    cbn [orb]. destruct ((v =? HNULL) || (v =? HPACKED)).
    { eapply lays_last; [leaf|intros ?]. apply lays_done; auto. }
    apply lays_done; auto.
Qed.
End parts.
