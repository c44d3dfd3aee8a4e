(** Files refused, phase by phase (C84). *)
From Verif Require Import Prelude StdModel BrassTypes DecoderModel CodeModel FormatSpec ReaderSpec ErrSpec GrammarSpec OutcomeSpec.
From Verif Require Import CodeGenericProofs FormatProofs StringsProofs ReaderPost ReaderTables ErrProofs ErrExact ErrReturn GrammarDen OutcomeLay OutcomeParts OutcomeCode OutcomeFuns OutcomeStrings OutcomeLoops.
From Verif Require BadProofs CutPieces PropsCost.
Import OutcomeSpec.
From Coq Require Import Lia ZifyBool.

Definition refuses (I : code -> Prop) {A} (m : M A) (V : verdict) : Prop :=
  forall b p d e cell, okb b -> I d -> ((exists s', m (S_ b p d []) = (Err e, s') /\ errs s' = cell) <-> V p b e cell).

Lemma refuses_eq I A (m m' : M A) V : (forall s, m s = m' s) -> refuses I m' V -> refuses I m V.
Proof. intros E D b p d e cell B Id. rewrite E. now apply D. Qed.
Lemma refuses_pre (I J : code -> Prop) A (m : M A) V : (forall d, J d -> I d) -> refuses I m V -> refuses J m V.
Proof. intros W D b p d e cell B Id. apply D; auto. Qed.
Lemma refuses_iff I A (m : M A) (V V' : verdict) : (forall p b e cell, V p b e cell <-> V' p b e cell) -> refuses I m V -> refuses I m V'.
Proof. intros E D b p d e cell B Id. rewrite <- E. now apply D. Qed.
Lemma refuses_pure (P : Prop) (I : code -> Prop) A (m : M A) V : (P -> refuses I m V) -> refuses (fun d => P /\ I d) m V.
Proof. intros D b p d e cell B (HP & Id). now apply D. Qed.
Lemma refuses_ret I A (a : A) : refuses I (ret a) never.
Proof. intros b p d e cell B Id. split; [intros (s' & E & _); discriminate|contradiction]. Qed.
Lemma refuses_get I : refuses I get_code never.
Proof. intros b p d e cell B Id. split; [intros (s' & E & _); discriminate|contradiction]. Qed.
Lemma kept_faulty p l : faulty l = true -> exists e, kept None (found p l) = Some e.
Proof. intros F. destruct (kept None (found p l)) as [e|] eqn:K; [eauto|]. apply kept_dirty in K. rewrite (found_faulty l p) in F. unfold dirty in K. destruct (found p l); discriminate. Qed.
Lemma refuses_check (I : code -> Prop) A B X (body : M A) (k : A -> M B) L (R : A -> X -> code -> Prop) (K : X -> verdict) :
  lays I body L R -> (forall a x, refuses (R a x) (k a) (K x)) ->
  refuses I (a <- body ;; check_error ;;; k a) (fun p b e cell => exists x, checked (fun l => L false l x) (K x) p b e cell).
Proof.
  intros D DK b p d e cell B0 Id. split.
  - intros (s' & E & C). unfold bind at 1 in E. destruct (body (S_ b p d [])) as [[a|e0|q] s1] eqn:E1; pose proof (l_to D _ _ _ _ _ _ B0 Id E1) as Y; cbn beta iota in Y; [|contradiction|discriminate].
    destruct Y as (l & x & rest & c' & Eb & H1 & Es & H2). exists x, l, rest. split; [exact Eb|]. split; [exact H1|]. subst s1. unfold bind, check_error in E. cbn [errs S_ app] in E.
    destruct (faulty l) eqn:F.
    + destruct (kept_faulty p l F) as (e1 & K1). rewrite K1 in E. injection E as <- <-. cbn [errs S_] in C. rewrite K1 in C. auto.
    + rewrite found_clean in E by auto. cbn [kept] in E. subst b. apply (DK a x rest _ c' e cell (okb_r _ _ B0) H2). exists s'. auto.
  - intros (x & l & rest & -> & H1 & H2). destruct (l_from D l x rest p d [] B0 Id H1) as (a & c' & E & Ra). unfold bind at 1. rewrite E. unfold bind, check_error. cbn [errs S_ app].
    destruct (faulty l) eqn:F.
    + destruct H2 as (K1 & ->). rewrite K1. eexists. split; [reflexivity|]. exact K1.
    + rewrite found_clean by auto. cbn [kept]. apply (DK a x rest _ c' e cell (okb_r _ _ B0) Ra) in H2. exact H2.
Qed.
Lemma refuses_check1 (I : code -> Prop) A B (body : M A) (k : A -> M B) P (R : A -> unit -> code -> Prop) (K : verdict) :
  lays I body (sh P) R -> (forall a, refuses (R a tt) (k a) K) -> refuses I (a <- body ;; check_error ;;; k a) (checked P K).
Proof.
  intros D DK. eapply refuses_iff; [|apply (refuses_check I A B unit body k (sh P) R (fun _ => K) D); intros a []; apply DK].
  intros p b e cell. split; [intros (x & X); exact X|intros X; exists tt; exact X].
Qed.
(** [let c = phase(...)?; rest] where the phase ends with the check *)
Lemma refuses_phase I A B C (body : M A) (f : A -> B) (k : B -> M C) V : refuses I (a <- body ;; check_error ;;; k (f a)) V -> refuses I (c <- (a <- body ;; check_error ;;; ret (f a)) ;; k c) V.
Proof. apply refuses_eq. intros s. unfold bind, ret. destruct (body s) as [[?|?|?] s1]; try reflexivity. unfold check_error. destruct (errs s1); reflexivity. Qed.

Lemma assoc3 {A B C} (m : M A) (g : A -> M B) (k : B -> M C) s : (a <- m ;; c <- (b <- g a ;; check_error ;;; ret b) ;; k c) s = (b <- (a <- m ;; g a) ;; check_error ;;; k b) s.
Proof. unfold bind. destruct (m s) as [[a|?|?] s1]; try reflexivity. destruct (g a s1) as [[b|?|?] s2]; try reflexivity. destruct (check_error s2) as [[?|?|?] s3]; reflexivity. Qed.
(** * Numbers *)
Lemma skipn_skipn {A} x : forall y (l : list A), skipn x (skipn y l) = skipn (x + y) l.
Proof. induction y as [|y IH]; intros l; [now rewrite Nat.add_0_r|]. rewrite Nat.add_succ_r. destruct l; [now rewrite !skipn_nil|]. cbn [skipn]. apply IH. Qed.
Lemma table_full w d n : PropsCost.takes w d -> forall b p c l acc, w * Z.of_nat n <= zlen b ->
  exists acc', for_loop n (zlen acc) (PropsCost.body d) acc (S_ b p c l) = (Ok acc', S_ (skipn (Z.to_nat (w * Z.of_nat n)) b) (p + w * Z.of_nat n) c l).
Proof.
  intros Tk. assert (W := proj1 Tk). induction n as [|n IH]; intros b p c l acc L; cbn [for_loop].
  - exists acc. rewrite Z.mul_0_r, Z.add_0_r. reflexivity.
  - destruct (PropsCost.body_step w d b p c l acc Tk ltac:(lia)) as (x & E & Ls). rewrite (bind_step _ _ _ _ _ E).
    replace (zlen acc + 1) with (zlen (acc ++ [x])) by (rewrite zlen_app; reflexivity).
    destruct (IH (skipn (Z.to_nat w) b) (p + w) c l (acc ++ [x]) ltac:(rewrite Ls; lia)) as (acc' & ->). exists acc'. rewrite skipn_skipn.
    f_equal. f_equal; [f_equal; lia|lia].
Qed.
Lemma refuses_numbers (I : code -> Prop) A w dec n (k : list Z -> M A) K : PropsCost.takes w dec -> 0 <= n -> (forall l, refuses I (k l) K) ->
  refuses I (l <- read_table dec n ;; check_error ;;; k l) (numbers w n K).
Proof.
  intros Tk Hn DK b p d e cell B0 Id. assert (W := proj1 Tk). unfold read_table, for_range, numbers. fold (PropsCost.body dec). change 0 with (zlen (@nil Z)) at 1.
  destruct (Z.leb_spec (w * n) (zlen b)) as [L|L].
  - destruct (table_full w dec (Z.to_nat n) Tk b p d [] [] ltac:(lia)) as (acc & E). rewrite Z2Nat.id in E by lia.
    unfold bind at 1. change (fun (i : Z) (l : list Z) => r <- ok_mapped dec ;; match r with Some x => vec_insert l i x | None => ret l end) with (PropsCost.body dec). change 0 with (zlen (@nil Z)). rewrite E.
    unfold bind, check_error. cbn [errs S_ kept]. refine (DK acc _ _ d e cell _ Id). split; [|destruct B0 as (_ & LB); unfold zlen in *; rewrite skipn_length; lia].
    destruct B0 as (B & _). unfold bytes in *. rewrite <- (firstn_skipn (Z.to_nat (w * n)) b) in B. apply Forall_app in B. apply B.
  - destruct (PropsCost.table_S w dec (Z.to_nat n) Tk b p d [] [] ltac:(lia)) as (acc & b' & E). cbv zeta in E.
    unfold bind at 1. change (fun (i : Z) (l : list Z) => r <- ok_mapped dec ;; match r with Some x => vec_insert l i x | None => ret l end) with (PropsCost.body dec). change 0 with (zlen (@nil Z)). rewrite E.
    assert (Hk : (0 < Z.to_nat n - Z.to_nat (zlen b / w))%nat). { assert (zlen b / w < n) by (apply Z.div_lt_upper_bound; lia). pose proof (zlen_nonneg b). pose proof (Z.div_pos (zlen b) w ltac:(lia) W). lia. }
    unfold bind, check_error. cbn [errs S_ app]. rewrite (PropsCost.kept_repeat _ _ Hk). split.
    + intros (s' & X & <-). injection X as <- <-. cbn [errs S_]. rewrite (PropsCost.kept_repeat _ _ Hk). auto.
    + intros (-> & ->). eexists. split; [reflexivity|]. cbn [errs S_]. now rewrite (PropsCost.kept_repeat _ _ Hk).
Qed.

(** * Constants *)
Definition kbody : M (Z * Z * list Z) :=
  global <- unwrap_mapped UINDEX ;; nfields <- unwrap_mapped UINDEX ;;
  fields <- for_range nfields (fun j l => x <- unwrap_mapped UINDEX ;; vec_insert l j x) [] ;; ret (global, nfields, fields).
Lemma lays_kbody (I : code -> Prop) : lays I kbody (sh a_constant) (fun _ _ c => I c).
Proof.
  unfold kbody, a_constant. eapply lays_cat; [apply lays_unwrap_mapped, lays_count|intros g]. eapply lays_along; [apply lays_unwrap_mapped, lays_UINDEX|]. intros a n. apply lays_pure. intros ->. apply lays_pure. intros Hn.
  eapply lays_last; [apply lays_table; [lia|apply lays_unwrap_mapped, lays_count]|intros fs]. apply lays_done. auto.
Qed.
Definition cstep (i : Z) (c : code) (a : Z * Z * list Z) : M code :=
  ks <- vec_insert (c_constants c) i {| k_global := fst (fst a); k_nfields := snd (fst a); k_fields := snd a |} ;;
  put_code (set_constants ks c) ;;; ret (set_constants ks c).
Lemma refuses_constants n : forall i c, 0 <= i <= zlen (c_constants c) ->
  refuses (fun _ => True) (c' <- for_loop n i (fun i c => a <- kbody ;; check_error ;;; cstep i c a) c ;; get_code) (constants n).
Proof.
  induction n as [|n IH]; intros i c Hi; cbn [for_loop constants].
  - eapply refuses_eq; [|apply refuses_get]. reflexivity.
  - eapply refuses_eq; [intros s; instantiate (1 := a <- kbody ;; check_error ;;; (c1 <- cstep i c a ;; c' <- for_loop n (i + 1) (fun i c => a <- kbody ;; check_error ;;; cstep i c a) c1 ;; get_code))|].
    + unfold bind. destruct (kbody s) as [[a|?|?] s1]; try reflexivity. destruct (check_error s1) as [[?|?|?] s2]; try reflexivity. destruct (cstep i c a s2) as [[?|?|?] s3]; reflexivity.
    + apply (refuses_check1 _ _ _ _ _ _ (fun _ _ _ => True)); [apply lays_kbody|]. intros a. destruct (zinsert_some (c_constants c) i {| k_global := fst (fst a); k_nfields := snd (fst a); k_fields := snd a |} Hi) as (ks & E). pose proof (zinsert_len _ _ _ _ E) as Lk.
      intros b p d e cell B0 _. unfold bind at 1, cstep, vec_insert. unfold bind at 1. rewrite E. cbn [expect]. unfold ret at 1. unfold bind at 1. rewrite put_S. unfold ret at 1. refine (IH (i + 1) (set_constants ks c) _ b p _ e cell B0 Logic.I). cbn. lia.
Qed.
Lemma for_ext {A} (f g : Z -> A -> M A) n : (forall i a s, f i a s = g i a s) -> forall i a s, for_loop n i f a s = for_loop n i g a s.
Proof. intros E. induction n as [|n IH]; intros i a s; cbn [for_loop]; [reflexivity|]. unfold bind. rewrite E. destruct (g i a s) as [[?|?|?] ?]; auto. Qed.
Lemma read_constants_eq c s : read_constants c s = for_range (c_nconstants c) (fun i c => a <- kbody ;; check_error ;;; cstep i c a) c s.
Proof.
  unfold read_constants. match goal with |- for_range ?n ?f ?a ?s = for_range ?n ?g ?a ?s => change (for_loop (Z.to_nat n) 0 f a s = for_loop (Z.to_nat n) 0 g a s) end. apply for_ext. clear. intros i c s.
  unfold bind, kbody, cstep, bind. destruct (unwrap_mapped UINDEX s) as [[?|?|?] s1]; try reflexivity. destruct (unwrap_mapped UINDEX s1) as [[nf|?|?] s2]; try reflexivity. destruct (for_range nf _ [] s2) as [[?|?|?] s3]; try reflexivity.
Qed.

(** * From the types on *)
Section rest.
Variables v nf h : Z.
Variable H : header.
Hypothesis Hs : 0 <= h_strings H <= I32_MAX.
Hypothesis Ht : 0 <= h_types H <= I32_MAX.
Hypothesis Hg : 0 <= h_globals H.
Hypothesis Hn : 0 <= h_natives H.
Hypothesis Hf : 0 <= h_functions H.
Hypothesis Hnf : nf <= I32_MAX.
Notation ns := (h_strings H). Notation nt := (h_types H).
Notation Frame := (frame v nf H). Notation Okc := (okc ns nt h (nt + nt)). Notation DD := (OutcomeLoops.D ns nt h).

Lemma ref_functions c0 : Okc c0 -> Frame c0 -> refuses (fun _ => True) (c <- read_functions c0 ;; c <- read_constants c ;; get_code)
  (checked (funcs nt v nf (Z.odd (h_flags H)) (Z.to_nat (h_functions H)) false) (constants (Z.to_nat (h_constants H)))).
Proof.
  intros K F. unfold read_functions. apply (refuses_phase _ _ _ _ _ (fun c => c)).
  eapply refuses_iff; [|apply (refuses_check _ _ _ unit _ _ _ _ (fun _ => constants (Z.to_nat (h_constants H))) (lays_functions_loop ns nt h v nf H Hs Ht Hnf c0 K F Hf))].
  - intros p b e cell. split; [intros (x & X); exact X|intros X; exists tt; exact X].
  - intros c x. apply refuses_pre with (I := fun d => (c_nconstants c = h_constants H /\ zlen (c_constants c) = 0) /\ True); [auto|]. apply refuses_pure. intros (E & L).
    eapply refuses_eq; [intros s; unfold bind at 1; rewrite read_constants_eq; rewrite E; reflexivity|]. apply (refuses_constants (Z.to_nat (h_constants H)) 0 c). lia.
Qed.
Lemma ref_natives c0 : Okc c0 -> Frame c0 -> refuses DD (c <- read_natives c0 ;; c <- read_functions c ;; c <- read_constants c ;; get_code)
  (checked (rep (h_natives H) (a_native ns nt h)) (checked (funcs nt v nf (Z.odd (h_flags H)) (Z.to_nat (h_functions H)) false) (constants (Z.to_nat (h_constants H))))).
Proof.
  intros K F. unfold read_natives. apply (refuses_phase _ _ _ _ _ (fun c => c)). fold (OutcomeLoops.nbody).
  eapply (refuses_check1 _ _ _ _ _ _ (fun c _ _ => Okc c /\ Frame c)); [exact (lays_natives_loop ns nt h v nf H Hs Ht c0 K F Hn)|].
  intros c. apply refuses_pre with (I := fun d => (Okc c /\ Frame c) /\ True); [auto|]. apply refuses_pure. intros (Kc & Fc). now apply ref_functions.
Qed.
Lemma ref_types c0 : c_ntypes c0 = nt -> c_nstrings c0 = ns -> ns <= zlen (c_ustrings c0) -> zlen (c_strings c0) = h -> Frame c0 ->
  refuses (fun d => nt = 0 -> DD d) (c <- read_types c0 ;; c <- read_globals c ;; c <- read_natives c ;; c <- read_functions c ;; c <- read_constants c ;; get_code)
    (after_debugfiles v H h nf).
Proof.
  intros E1 E2 E3 E4 F. unfold after_debugfiles.
  eapply refuses_eq with (m' := c <- (c <- read_types c0 ;; for_range (c_nglobals c) gbody (set_globals (zrepeat vt_default (c_nglobals c)) c)) ;; check_error ;;; c <- read_natives c ;; c <- read_functions c ;; c <- read_constants c ;; get_code).
  { intros s. apply (assoc3 (read_types c0) (fun c => for_range (c_nglobals c) gbody (set_globals (zrepeat vt_default (c_nglobals c)) c)) (fun c => c <- read_natives c ;; c <- read_functions c ;; c <- read_constants c ;; get_code) s). }
  eapply (refuses_check1 _ _ _ _ _ _ (fun c _ d => Okc c /\ Frame c /\ DD d)).
  - eapply lays_cat; [exact (lays_types ns nt h v nf H Hs Ht c0 E1 E2 E3 E4 F)|]. intros c. cbv beta. apply lays_pre with (I := fun d => (Okc c /\ Frame c) /\ DD d); [|tauto]. apply lays_pure. intros (Kc & Fc). exact (lays_globals_loop ns nt h v nf H Ht c Kc Fc Hg).
  - intros c. apply refuses_pre with (I := fun d => (Okc c /\ Frame c) /\ DD d); [tauto|]. apply refuses_pure. intros (Kc & Fc). now apply ref_natives.
Qed.
End rest.
