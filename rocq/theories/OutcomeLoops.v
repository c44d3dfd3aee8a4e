(** The shapes of OutcomeSpec.v: the sections for types, globals, natives and functions (C84). *)
From Verif Require Import Prelude StdModel BrassTypes DecoderModel CodeModel FormatSpec ReaderSpec ErrSpec GrammarSpec OutcomeSpec.
From Verif Require Import CodeGenericProofs FormatProofs StringsProofs ReaderPost ReaderTables ErrProofs ErrExact ErrReturn GrammarDen OutcomeLay OutcomeParts OutcomeCode OutcomeFuns.
From Verif Require BadProofs GrammarTypes GrammarNames GrammarFuns.
From Coq Require Import Lia ZifyBool.

Section loops.
Variables ns nt h v nf : Z.
Variable H : header.
Hypothesis Hns : 0 <= ns <= I32_MAX.
Hypothesis Hnt : 0 <= nt <= I32_MAX.
Hypothesis Hnf : nf <= I32_MAX.
Let debug := Z.odd (h_flags H).
Let T := nt + nt.

(** the local variable of [Code::read], from the types on *)
Definition frame (c : code) : Prop :=
  c_version c = v /\ (c_hasdebug c =? 0) = negb debug /\ c_nglobals c = h_globals H /\ c_nnatives c = h_natives H /\ c_nfunctions c = h_functions H /\
  c_nconstants c = h_constants H /\ c_ndebugfiles c = nf /\ c_functions c = [] /\ c_constants c = [].
(** the module in the decoder *)
Definition D (d : code) : Prop := okc ns nt h T d \/ (nt = 0 /\ okc 0 0 0 0 d).

Lemma lays_forgets (I : code -> Prop) A (m : M A) P (R : A -> unit -> code -> Prop) : lays I m (fun d l (_ : unit) => P l) R -> lays I m (sh P) R.
Proof. exact (fun x => x). Qed.
Lemma reps_entries n : forall i d l, reps (fun i _ => entry ns nt i) n i d l <-> entries ns nt n i l.
Proof. induction n as [|n IH]; intros i d l; cbn [reps entries]; [reflexivity|]. unfold cat. split; intros (a & b & -> & H1 & H2); exists a, b; (split; [auto|]; split; [auto|]); eapply IH; eauto. Qed.
Lemma lays_types c0 : c_ntypes c0 = nt -> c_nstrings c0 = ns -> ns <= zlen (c_ustrings c0) -> zlen (c_strings c0) = h -> frame c0 ->
  lays (fun d => nt = 0 -> D d) (read_types c0) (sh (entries ns nt (Z.to_nat nt) 0)) (fun c _ d => okc ns nt h T c /\ frame c /\ D d).
Proof.
  intros En Es Eu Eh F. unfold read_types, for_range. rewrite En.
  destruct (Z.eq_dec nt 0) as [E0|E0].
  { rewrite E0. cbn [Z.to_nat for_loop entries]. apply lays_done. intros d Dd. split; [|split; [exact F|auto]]. unfold BadProofs.okc, T. cbn. rewrite E0 in *. unfold zrepeat. cbn. change (zlen (@nil vtype)) with 0. repeat split; auto; lia. }
  set (J := fun i c (d : code) => (0 <= i /\ okc ns nt h (nt + i) c /\ frame c) /\ (0 < i -> d = c)).
  eapply lays_conseq; [apply (lays_for _ _ (fun i _ => entry ns nt i) J)| | |].
  - intros i c. apply lays_pure. intros (Hi & K & Fc).
    set (I := fun d => okc ns nt h (nt + i) d /\ frame d). change (fun (_ : bool) (l : list item) (_ : unit) => entry ns nt i l) with (sh (entry ns nt i)).
    eapply lays_first; [apply (lays_put _ c I); split; auto|]. intros a. apply lays_pre with (I := I); [|now intros d (_ & X)].
    eapply lays_last.
    { apply (lays_type ns nt h (nt + i) Hns Hnt ltac:(lia) I); [now intros d (X & _)| |reflexivity]. intros d u (X & Y) L. split; [now apply BadProofs.okc_u|exact Y]. }
    intros t. apply lays_get. intros dc. apply lays_pre with (I := fun d => I dc /\ d = dc); [|intros d (-> & X); auto]. apply lays_pure. intros (Kd & Fd). destruct Kd as (K1 & K2 & K3 & K4 & K5 & K6).
    eapply lays_first; [apply (lays_insert _ _ (c_types dc) i t (fun ts _ d => zlen ts = zlen (c_types dc) + 1 /\ d = dc)); [lia|auto]|]. intros ts. apply lays_pure. intros Lt.
    eapply lays_first; [apply (lays_put _ (set_types ts dc) (fun _ => True) Logic.I)|]. intros u. apply lays_pre with (I := fun d => d = set_types ts dc); [|now intros d (X & _)].
    eapply lays_post; [apply lays_getval|]. intros c' x d (-> & ->). unfold J. split; [|auto]. split; [lia|]. split; [|exact Fd]. unfold BadProofs.okc. cbn. repeat split; auto; lia.
  - intros d _. unfold J. split; [|lia]. split; [lia|]. split; [|exact F]. unfold BadProofs.okc. cbn. unfold zrepeat, zlen. rewrite repeat_length. repeat split; auto; lia.
  - intros d l []. apply reps_entries.
  - intros c x d. unfold J. rewrite Z2Nat.id by lia. intros ((_ & K & Fc) & X). split; [exact K|]. split; [exact Fc|]. rewrite X by lia. left. exact K.
Qed.
Lemma HTT : 0 < nt \/ T = 0. Proof. unfold T. lia. Qed.
Lemma lays_globals_loop c0 : okc ns nt h T c0 -> frame c0 -> 0 <= h_globals H ->
  lays D (for_range (c_nglobals c0) gbody (set_globals (zrepeat vt_default (c_nglobals c0)) c0)) (sh (rep (h_globals H) (typeref nt))) (fun c _ d => okc ns nt h T c /\ frame c /\ D d).
Proof.
  intros K F Hg. assert (E : c_nglobals c0 = h_globals H) by apply F. rewrite E.
  set (J := fun i c (d : code) => (0 <= i <= zlen (c_globals c) /\ okc ns nt h T c /\ frame c) /\ D d).
  eapply lays_post; [apply (lays_range _ _ _ (typeref nt) J); [auto| |]|].
  - intros i c. apply lays_pure. intros (Hi & Kc & Fc). unfold gbody.
    eapply lays_first; [apply (lays_put _ c (fun _ => True) Logic.I)|]. intros u. apply lays_pre with (I := fun d => d = c); [|now intros d (X & _)].
    eapply lays_last; [apply lays_ok_mapped, (lays_typeref ns nt h T Hnt HTT (fun d => d = c)); now intros d ->|]. apply lays_inOk. intros t. cbv beta iota.
    destruct (zinsert_some (c_globals c) i t Hi) as (gs & Eg). pose proof (zinsert_len _ _ _ _ Eg) as Lg.
    eapply lays_first with (R1 := fun _ _ d => d = set_globals gs c).
    { apply lays_at with (a := c); [reflexivity|]. apply lays_at with (a := gs); [intros; unfold vec_insert; now rewrite Eg|]. eapply lays_post; [apply (lays_put _ (set_globals gs c) (fun _ => True) Logic.I)|]. now intros a x d (X & _). }
    intros u2. eapply lays_post; [apply lays_getval|]. intros c' x d (-> & ->). unfold J. split; [|left; exact Kc]. split; [cbn; lia|]. split; [exact Kc|exact Fc].
  - intros d Dd. split; [|exact Dd]. split; [|split; [exact K|exact F]]. cbn. pose proof (zlen_nonneg (zrepeat vt_default (h_globals H))). lia.
  - intros c x d ((_ & X & Y) & Z0). auto.
Qed.
Lemma lays_native_body c : okc ns nt h T c -> frame c -> lays D (
    lib <- unwrap_mapped read_string ;;
    name <- unwrap_mapped read_string ;;
    t <- unwrap_mapped get_type ;;
    findex <- unwrap_mapped UINDEX ;;
    let c := set_natives (c_natives c ++ [{| n_lib := lib; n_name := name; n_t := t; n_findex := findex |}]) c in
    put_code c ;;; ret c) (sh (a_native ns nt h)) (fun c _ d => okc ns nt h T c /\ frame c /\ D d).
Proof.
  intros K F.
  assert (G : forall ns' nt' h' T', 0 <= ns' <= I32_MAX -> 0 <= nt' <= I32_MAX -> 0 < nt' \/ T' = 0 -> lays (okc ns' nt' h' T') (
    lib <- unwrap_mapped read_string ;;
    name <- unwrap_mapped read_string ;;
    t <- unwrap_mapped get_type ;;
    findex <- unwrap_mapped UINDEX ;;
    let c := set_natives (c_natives c ++ [{| n_lib := lib; n_name := name; n_t := t; n_findex := findex |}]) c in
    put_code c ;;; ret c) (sh (a_native ns' nt' h')) (fun c _ d => okc ns nt h T c /\ frame c /\ D d)).
  { intros ns' nt' h' T' A1 A2 A3. unfold a_native.
    assert (U : forall c u, okc ns' nt' h' T' c -> ns' <= zlen u -> okc ns' nt' h' T' (set_ustrings u c)) by (intros; now apply BadProofs.okc_u).
    eapply lays_cat; [apply lays_unwrap_mapped, (lays_string_name ns' nt' h' T' A1 (okc ns' nt' h' T')); auto|]. intros lib.
    eapply lays_cat; [apply lays_unwrap_mapped, (lays_string_name ns' nt' h' T' A1 (okc ns' nt' h' T')); auto|]. intros name.
    eapply lays_cat; [apply lays_unwrap_mapped, (lays_typeref ns' nt' h' T' A2 A3 (okc ns' nt' h' T')); auto|]. intros t.
    eapply lays_last; [apply lays_unwrap_mapped, lays_count|]. intros f. cbv zeta.
    set (c2 := set_natives _ c). eapply lays_first; [apply (lays_put _ c2 (fun _ => True) Logic.I)|]. intros u. apply lays_done. intros d (-> & _). split; [exact K|]. split; [exact F|]. left. exact K. }
  destruct (Z.eq_dec nt 0) as [E0|E0].
  - assert (G0 : forall I : code -> Prop, forall m : M code, forall ns' h', lays I m (sh (a_native ns' 0 h')) (fun c _ d => okc ns nt h T c /\ frame c /\ D d) -> lays I m (sh (a_native ns nt h)) (fun c _ d => okc ns nt h T c /\ frame c /\ D d)).
    { intros I m ns' h' X. eapply lays_iff; [exact X|]. intros d l x. unfold sh, a_native, cat, typeref. split; intros (a & b & _ & _ & a2 & b2 & _ & _ & a3 & b3 & _ & (X3 & _) & _); lia. }
    pose proof (G0 _ _ _ _ (G 0 0 0 0 ltac:(unfold I32_MAX; lia) ltac:(unfold I32_MAX; lia) ltac:(lia))) as X1.
    pose proof (G ns nt h T Hns Hnt HTT) as X2.
    split.
    + intros b p d lg r s' B0 [Kd|(_ & Kd)]; [now apply (l_to X2)|now apply (l_to X1)].
    + intros l x rest p d lg B0 [Kd|(_ & Kd)]; [now apply (l_from X2)|now apply (l_from X1)].
  - eapply lays_pre; [apply (G ns nt h T Hns Hnt HTT)|]. intros d [X|(X & _)]; [exact X|contradiction].
Qed.
Definition nbody (_ : Z) (c : code) : M code :=
    lib <- unwrap_mapped read_string ;;
    name <- unwrap_mapped read_string ;;
    t <- unwrap_mapped get_type ;;
    findex <- unwrap_mapped UINDEX ;;
    let c := set_natives (c_natives c ++ [{| n_lib := lib; n_name := name; n_t := t; n_findex := findex |}]) c in
    put_code c ;;; ret c.
Lemma lays_natives_loop c0 : okc ns nt h T c0 -> frame c0 -> 0 <= h_natives H ->
  lays D (for_range (c_nnatives c0) nbody (set_natives [] c0)) (sh (rep (h_natives H) (a_native ns nt h))) (fun c _ d => okc ns nt h T c /\ frame c).
Proof.
  intros K F Hg. assert (E : c_nnatives c0 = h_natives H) by apply F. rewrite E.
  set (J := fun (i : Z) c (d : code) => (okc ns nt h T c /\ frame c) /\ D d).
  eapply lays_post; [apply (lays_range _ _ _ (a_native ns nt h) J); [auto| |]|].
  - intros i c. apply lays_pure. intros (Kc & Fc). eapply lays_post; [apply (lays_native_body c Kc Fc)|]. intros a x d (X & Y & Z0). unfold J. auto.
  - intros d Dd. split; [split; [exact K|exact F]|exact Dd].
  - intros c x d (X & _). exact X.
Qed.
Lemma reps_funcs n : forall i d l, reps (fun _ d l => func nt v nf debug d l) n i d l <-> funcs nt v nf debug n d l.
Proof. induction n as [|n IH]; intros i d l; cbn [reps funcs]; [reflexivity|]. split; intros (a & b & -> & H1 & H2); exists a, b; (split; [auto|]; split; [auto|]); eapply IH; eauto. Qed.
(** the function section, from an empty log *)
Lemma lays_functions_loop c0 : okc ns nt h T c0 -> frame c0 -> 0 <= h_functions H ->
  lays (fun _ => True) (for_range (c_nfunctions c0) read_function_entry c0) (fun d l (_ : unit) => funcs nt v nf debug (Z.to_nat (h_functions H)) d l)
    (fun c _ d => c_nconstants c = h_constants H /\ zlen (c_constants c) = 0).
Proof.
  intros K F Hg. assert (E : c_nfunctions c0 = h_functions H) by apply F. rewrite E. unfold for_range.
  set (J := fun (i : Z) c (d : code) => (locf ns nt h T v nf debug i c /\ (c_nconstants c = h_constants H /\ zlen (c_constants c) = 0)) /\ True).
  eapply lays_conseq; [apply (lays_for _ _ (fun _ d l => func nt v nf debug d l) J)| | |].
  - intros i c. apply lays_pure. intros (Lc & Nc). eapply lays_post; [apply (lays_function_entry ns nt h T v nf debug Hns Hnt HTT Hnf i c Lc)|]. intros c' x d (X & fs & ->). unfold J. split; [|exact Logic.I]. split; [exact X|exact Nc].
  - intros d _. split; [|exact Logic.I]. destruct F as (F1 & F2 & F3 & F4 & F5 & F6 & F7 & F8 & F9). split; [|split; [exact F6|now rewrite F9]]. unfold locf. rewrite F8. auto.
  - intros d l []. apply reps_funcs.
  - intros c x d ((_ & X) & _). exact X.
Qed.
End loops.
