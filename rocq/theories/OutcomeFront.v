(** Files refused: the sections before the types, and the whole file (C84). *)
From Verif Require Import Prelude StdModel BrassTypes DecoderModel CodeModel FormatSpec ReaderSpec ErrSpec GrammarSpec.
From Verif Require Import CodeGenericProofs FormatProofs StringsProofs ReaderPost ReaderTables ErrProofs ErrExact ErrReturn GrammarDen OutcomeSpec OutcomeLay OutcomeParts OutcomeCode OutcomeFuns OutcomeStrings OutcomeLoops OutcomeModule.
From Verif Require BadProofs CutPieces PropsCost.
Import OutcomeSpec.
From Coq Require Import Lia ZifyBool.

Definition ranges (H : header) : Prop :=
  0 <= h_ints H <= I32_MAX /\ 0 <= h_floats H <= I32_MAX /\ 0 <= h_strings H <= I32_MAX /\ 0 <= h_types H <= I32_MAX /\ 0 <= h_globals H /\ 0 <= h_natives H /\ 0 <= h_functions H.
Section front.
Variable v : Z.
Variable H : header.
Hypothesis HR : ranges H.
Hypothesis HB : 5 <= v -> 0 <= h_bytes H.
(** the local variable of [Code::read] up to the debug files *)
Definition loc (c : code) : Prop :=
  c_version c = v /\ (c_hasdebug c =? 0) = negb (Z.odd (h_flags H)) /\ c_nglobals c = h_globals H /\ c_nnatives c = h_natives H /\ c_nfunctions c = h_functions H /\
  c_nconstants c = h_constants H /\ c_ndebugfiles c = 0 /\ c_functions c = [] /\ c_constants c = [] /\
  c_nints c = h_ints H /\ c_nfloats c = h_floats H /\ c_nstrings c = h_strings H /\ (5 <= v -> c_nbytes c = h_bytes H) /\ c_ntypes c = h_types H /\ c_types c = [].
Definition here : code -> Prop := fun d => d = code_new.
Definition tail (c : code) : M code := c <- read_types c ;; c <- read_globals c ;; c <- read_natives c ;; c <- read_functions c ;; c <- read_constants c ;; get_code.
Definition after_block (have : Z) : verdict := fun p buf e cell =>
  if Z.odd (h_flags H) then exists nfiles, checked (cat (a_count nfiles) (fun l => exists n, strings_part nfiles n l)) (after_debugfiles v H have nfiles) p buf e cell
  else after_debugfiles v H have 0 p buf e cell.

Definition dbody (c0 : code) : M code :=
  c <- read_count set_ndebugfiles c0 ;; put_code c ;;; r <- ok_mapped (read_strings (c_ndebugfiles c) (c_debugfiles_lens c)) ;;
  dc <- get_code ;; (match r with Some (ss, _) => put_code (set_debugfiles ss dc) | None => ret tt end) ;;; get_code.
Lemma lays_read_count (I : code -> Prop) set c : lays I (read_count set c) (shv a_count) (fun a x d => a = set x c /\ 0 <= x <= I32_MAX /\ I d).
Proof.
  unfold read_count. eapply lays_iff.
  - eapply (lays_bindv _ _ _ Z Z _ _ a_count _ (fun x y l => l = [] /\ y = x)); [apply lays_ok, lays_UINDEX|]. intros o x. apply (lays_inOk (fun a v c => a = v /\ 0 <= v <= I32_MAX /\ I c) (fun o => match o with Some x => ret (set x c) | None => ret c end)).
    intros a. apply lays_pure. intros ->. apply lays_retv. auto.
  - intros d l y. unfold shv. split; [intros (x & l1 & l2 & -> & X & -> & ->); now rewrite app_nil_r|intros X; exists y, l, []; rewrite app_nil_r; auto].
Qed.
Lemma lays_dbody c0 : lays here (dbody c0) (shv (fun nfiles => cat (a_count nfiles) (fun l => exists n, strings_part nfiles n l)))
  (fun a nfiles d => (exists ss, a = set_debugfiles ss (set_ndebugfiles nfiles c0) /\ 0 <= nfiles <= I32_MAX) /\ d = a).
Proof.
  unfold dbody. eapply lays_iff.
  - eapply (lays_bindv _ _ _ Z Z _ _ a_count _ (fun x y l => y = x /\ exists n, strings_part x n l)); [apply lays_read_count|]. intros x0 x. apply lays_pure. intros ->. apply lays_pure. intros Hx.
    eapply lays_iff.
    + eapply (lays_bindv _ _ _ unit Z _ _ (fun _ => nothing) _ (fun _ y l => y = x /\ exists n, strings_part x n l)); [apply (lays_put _ (set_ndebugfiles x c0) (fun _ => True) Logic.I)|]. intros u w.
      apply lays_pre with (I := fun d => d = set_ndebugfiles x c0); [|now intros d (E & _)].
      eapply lays_iff.
      * eapply (lays_bindv _ _ _ Z Z _ _ (strings_part x) _ (fun _ y l => y = x /\ l = [])); [apply lays_ok_mapped, lays_strings|]. intros o n.
        revert o. apply lays_inOk. intros (ss, lens). cbn [fst]. apply lays_pre with (I := fun d => d = set_ndebugfiles x c0); [|now intros d (_ & E)].
        apply lays_at with (a := set_ndebugfiles x c0); [reflexivity|].
        eapply lays_iff.
        -- eapply (lays_bindv _ _ _ unit Z _ _ (fun _ => nothing) _ (fun _ y l => l = [] /\ y = x)); [apply (lays_put _ (set_debugfiles ss (set_ndebugfiles x c0)) (fun _ => True) Logic.I)|]. intros u2 w2.
           apply lays_pre with (I := fun d => d = set_debugfiles ss (set_ndebugfiles x c0)); [|now intros d (E & _)].
           apply lays_eq with (m' := bind get_code (fun c => ret c)); [reflexivity|]. apply lays_at with (a := set_debugfiles ss (set_ndebugfiles x c0)); [reflexivity|]. apply lays_retv. intros d ->. split; [exists ss; auto|reflexivity].
        -- intros d l y. unfold shv, nothing. split; [intros (? & l1 & l2 & -> & -> & -> & ->); auto|intros (-> & ->); exists tt, [], []; auto].
      * intros d l y. unfold shv. split; [intros (n & l1 & l2 & -> & X & -> & ->); rewrite app_nil_r; eauto|intros (-> & n & X); exists n, l, []; rewrite app_nil_r; auto].
    + intros d l y. unfold shv, nothing. split; [intros (? & l1 & l2 & -> & -> & X); exact X|intros X; exists tt, [], l; auto].
  - intros d l y. unfold shv, cat. split; [intros (x & l1 & l2 & -> & X & -> & Y); eauto|intros (l1 & l2 & -> & X & Y); exists y, l1, l2; auto].
Qed.
Lemma read_debugfiles_eq c0 s : (c_hasdebug c0 =? 0) = false -> read_debugfiles c0 s = (a <- dbody c0 ;; check_error ;;; ret a) s.
Proof.
  intros E. unfold read_debugfiles. rewrite E. cbn [negb]. unfold dbody, bind. destruct (read_count set_ndebugfiles c0 s) as [[c1|?|?] s1]; try reflexivity. destruct (put_code c1 s1) as [[?|?|?] s2]; try reflexivity.
  destruct (ok_mapped (read_strings (c_ndebugfiles c1) (c_debugfiles_lens c1)) s2) as [[r|?|?] s3]; try reflexivity. destruct (get_code s3) as [[c2|?|?] s4]; try reflexivity.
  destruct r as [(?, ?)|]; reflexivity.
Qed.
Lemma ref_debugfiles c0 have : loc c0 -> h_strings H <= zlen (c_ustrings c0) -> zlen (c_strings c0) = have ->
  refuses here (c <- read_debugfiles c0 ;; tail c) (after_block have).
Proof.
  intros L Eu Eh. destruct L as (L1 & L2 & L3 & L4 & L5 & L6 & L7 & L8 & L9 & L10 & L11 & L12 & L13 & L14 & L15). destruct HR as (R1 & R2 & R3 & R4 & R5 & R6 & R7).
  unfold after_block. destruct (Z.odd (h_flags H)) eqn:Od; cbn [negb] in L2.
  - eapply refuses_eq; [intros s; unfold bind at 1; rewrite read_debugfiles_eq by exact L2; instantiate (1 := c <- (a <- dbody c0 ;; check_error ;;; ret a) ;; tail c); reflexivity|].
    apply (refuses_phase _ _ _ _ _ (fun c => c)).
    apply (refuses_check here _ _ Z _ _ _ _ (fun nfiles => after_debugfiles v H have nfiles) (lays_dbody c0)).
    intros c nfiles. apply refuses_pure. intros (ss & -> & Hnf).
    apply refuses_pre with (I := fun d => h_types H = 0 -> OutcomeLoops.D (h_strings H) (h_types H) have d).
    { intros d -> Ez. left. unfold BadProofs.okc. cbn. rewrite L15. change (zlen (@nil vtype)) with 0. repeat split; auto; lia. }
    apply (ref_types v nfiles have H R3 R4 R5 R6 R7 ltac:(lia)); auto. unfold frame. rewrite Od. cbn. auto 10.
  - eapply refuses_eq; [intros s; unfold read_debugfiles; rewrite L2; instantiate (1 := tail c0); reflexivity|].
    apply refuses_pre with (I := fun d => h_types H = 0 -> OutcomeLoops.D (h_strings H) (h_types H) have d).
    { intros d -> Ez. right. split; [exact Ez|]. unfold BadProofs.okc. cbn. change (zlen (@nil vtype)) with 0. repeat split; auto; lia. }
    apply (ref_types v 0 have H R3 R4 R5 R6 R7 ltac:(unfold I32_MAX; lia)); auto. unfold frame. rewrite Od. auto 10.
Qed.

(** * The block of bytes *)
Lemma refuses_block c0 have : loc c0 -> h_strings H <= zlen (c_ustrings c0) -> zlen (c_strings c0) = have ->
  refuses here (c <- read_bytes_section c0 ;; c <- read_debugfiles c ;; tail c) (block v (h_bytes H) (after_block have)).
Proof.
  intros L Eu Eh. assert (Ev : c_version c0 = v) by apply L. unfold read_bytes_section, block. rewrite Ev. destruct (Z.leb_spec 5 v) as [V5|V5].
  2:{ eapply refuses_eq; [intros s; instantiate (1 := c <- read_debugfiles c0 ;; tail c); reflexivity|]. now apply ref_debugfiles. }
  assert (Eb : c_nbytes c0 = h_bytes H) by (apply L; exact V5). rewrite Eb.
  assert (Rest : forall bs, refuses here (ps <- for_range (h_bytes H) (fun i l => r <- ok_mapped UINDEX ;; match r with Some x => vec_insert l i x | None => ret l end) (c_bytes_pos c0) ;;
     check_error ;;; (c <- read_debugfiles (set_bytes_pos ps (set_bytes bs c0)) ;; tail c)) (checked (rep (h_bytes H) count) (after_block have))).
  { intros bs. apply (refuses_check1 _ _ _ _ _ _ (fun _ _ d => here d)).
    - eapply lays_post; [apply (lays_range _ here _ count (fun i l d => (0 <= i <= zlen l) /\ here d) (h_bytes H) (c_bytes_pos c0) (HB V5))|].
      + intros i l. apply lays_pure. intros Hi. eapply lays_last; [apply lays_ok_mapped, lays_count|]. apply lays_inOk. intros x. cbv beta iota. apply lays_insert; [lia|]. intros l' c Ll Hc. split; [lia|exact Hc].
      + intros d Hd. pose proof (zlen_nonneg (c_bytes_pos c0)). split; [lia|exact Hd].
      + cbv beta. tauto.
    - intros ps. now apply ref_debugfiles. }
  intros b p d e cell B0 Hd. unfold here in Hd. subst d. destruct (Z.ltb_spec (zlen b) 4) as [S0|S0].
  - unfold bind. rewrite i32_short by auto. split; [intros (s' & E & <-); injection E as <- <-; auto|intros (-> & ->); eexists; split; reflexivity].
  - destruct (le4_split b B0 S0) as (n & rest & -> & R).
    assert (Rn : - 2147483648 <= n < 2147483648) by (exact R).
    unfold bind at 1. unfold bind at 1. rewrite i32_S by exact R. unfold bind at 1.
    assert (Spec : forall n', - 2147483648 <= n' < 2147483648 -> forall r', enc_le 4 n ++ rest = enc_le 4 n' ++ r' -> n' = n /\ r' = rest).
    { intros n' R' r' E0. pose proof (i32_S n rest p code_new [] R) as E1. rewrite E0 in E1. rewrite (i32_S n' r' p code_new []) in E1 by exact R'.
      assert (N : n' = n) by congruence. split; [exact N|]. subst n'. now apply app_inv_head in E0. }
    destruct (Z.ltb_spec n 0) as [N|N].
    { split; [intros (s' & E & _); discriminate|]. intros (bs & r2 & E & Lb & _). apply Spec in E; [|pose proof (zlen_nonneg bs); change (2 ^ 31) with 2147483648 in Lb; lia]. destruct E as (E & _). pose proof (zlen_nonneg bs). lia. }
    unfold ret at 1. unfold bind at 1, unwrap_mapped, read_bytes. cbn [d_buf d_pos d_code errs d_log S_].
    destruct (Z.ltb_spec (zlen rest) n) as [N2|N2].
    { split; [intros (s' & E & _); discriminate|]. intros (bs & r2 & E & Lb & _). apply Spec in E; [|pose proof (zlen_nonneg bs); change (2 ^ 31) with 2147483648 in Lb; lia]. destruct E as (E & <-). rewrite zlen_app in N2. pose proof (zlen_nonneg r2). lia. }
    set (bs := firstn (Z.to_nat n) rest). set (r2 := skipn (Z.to_nat n) rest). assert (Lb : zlen bs = n) by (unfold bs, zlen in *; rewrite firstn_length; lia).
    assert (Er : rest = bs ++ r2) by (unfold bs, r2; now rewrite firstn_skipn). clearbody bs r2.
    assert (B2 : okb r2) by (rewrite Er in B0; do 2 apply okb_r in B0; exact B0).
    specialize (Rest bs r2 (p + 4 + n) code_new e cell B2 eq_refl).
    match goal with |- (exists s', ?a = _ /\ _) <-> _ => match type of Rest with (exists s', ?b = _ /\ _) <-> _ => replace a with b end end.
    2:{ change {| d_buf := r2; d_pos := p + 4 + n; d_code := code_new; errs := kept None []; d_log := [] |} with (S_ r2 (p + 4 + n) code_new []). unfold bind. destruct (for_range (h_bytes H) _ (c_bytes_pos c0) _) as [[ps|?|?] s1]; try reflexivity. unfold check_error. destruct (errs s1); reflexivity. }
    rewrite Rest. split.
    + intros X. exists bs, r2. rewrite Er, Lb. split; [reflexivity|]. split; [change (2 ^ 31) with 2147483648; lia|exact X].
    + intros (bs' & r2' & E & Lb' & X). apply Spec in E; [|pose proof (zlen_nonneg bs'); change (2 ^ 31) with 2147483648 in Lb'; lia]. destruct E as (E1 & E2). rewrite Er in E2. rewrite <- Lb in E1.
      assert (Eb' : bs' = bs /\ r2' = r2). { split; [apply (f_equal (firstn (length bs))) in E2|apply (f_equal (skipn (length bs))) in E2]; replace (length bs) with (length bs') in E2 at 1 by (unfold zlen in E1; lia); rewrite ?firstn_app, ?skipn_app, ?Nat.sub_diag, ?firstn_all, ?skipn_all in E2; cbn in E2; rewrite ?app_nil_r in E2; exact E2. }
      destruct Eb' as (-> & ->). rewrite Lb in X. exact X.
Qed.

(** * The string table, and the numbers before it *)
Lemma refuses_strings c0 : loc c0 -> refuses here (c <- read_string_table c0 ;; c <- read_bytes_section c ;; c <- read_debugfiles c ;; tail c)
  (fun p b e cell => exists have, checked (strings_part (h_strings H) have) (block v (h_bytes H) (after_block have)) p b e cell).
Proof.
  intros L. unfold read_string_table. set (f := fun r => set_ustrings (zrepeat None (c_nstrings (match r with Some (ss, lens) => set_strings_lens lens (set_strings ss c0) | None => c0 end))) (match r with Some (ss, lens) => set_strings_lens lens (set_strings ss c0) | None => c0 end)).
  apply (refuses_phase _ _ _ _ _ f).
  assert (Es : c_nstrings c0 = h_strings H) by apply L. rewrite Es.
  apply (refuses_check here _ _ Z _ _ _ _ (fun have => block v (h_bytes H) (after_block have)) (lays_ok_mapped _ _ _ _ _ _ (lays_strings here (h_strings H) (c_strings_lens c0)))).
  intros o have b p d e cell B0 ((ss, lens) & -> & Ez & Hd). cbn [fst] in Ez. refine (refuses_block (f (Some (ss, lens))) have _ _ _ b p d e cell B0 Hd).
  - exact L.
  - unfold f. cbn [c_ustrings c_nstrings set_ustrings set_strings_lens set_strings]. rewrite Es. unfold zlen, zrepeat. rewrite repeat_length. destruct HR as (_ & _ & R3 & _). lia.
  - exact Ez.
Qed.
Lemma refuses_front c0 : loc c0 -> refuses here (c <- read_ints c0 ;; c <- read_floats c ;; c <- read_string_table c ;; c <- read_bytes_section c ;; c <- read_debugfiles c ;; tail c) (after_header v H).
Proof.
  intros L. destruct HR as (R1 & R2 & _). unfold after_header.
  assert (Ei : c_nints c0 = h_ints H) by apply L. assert (Ef : c_nfloats c0 = h_floats H) by apply L.
  unfold read_ints. apply (refuses_phase _ _ _ _ _ (fun l => set_ints l c0)). rewrite Ei. apply refuses_numbers; [apply PropsCost.takes_i32|lia|]. intros li.
  unfold read_floats. apply (refuses_phase _ _ _ _ _ (fun l => set_floats l (set_ints li c0))). change (c_nfloats (set_ints li c0)) with (c_nfloats c0). rewrite Ef. apply refuses_numbers; [apply PropsCost.takes_f64|lia|]. intros lf.
  exact (refuses_strings (set_floats lf (set_ints li c0)) L).
Qed.
End front.

(** * The header *)
Fixpoint readk (sets : list (Z -> code -> code)) (c : code) : M code := match sets with [] => ret c | f :: r => c <- read_count f c ;; readk r c end.
Fixpoint puts (sets : list (Z -> code -> code)) (vs : list Z) (c : code) : code := match sets, vs with f :: r, x :: xs => puts r xs (f x c) | _, _ => c end.
Lemma lays_readk sets : forall c, lays here (readk sets c) (shv (fun vs l => length vs = length sets /\ counts vs l)) (fun a vs d => (a = puts sets vs c /\ Forall (fun x => 0 <= x <= I32_MAX) vs /\ length vs = length sets) /\ here d).
Proof.
  induction sets as [|f sets IH]; intros c; cbn [readk puts].
  - eapply lays_iff; [apply (lays_retv _ _ _ c []); intros d Hd; auto|]. intros d l x. unfold shv. split; [intros (-> & ->); split; reflexivity|]. intros (E & X). destruct x; [|discriminate]. auto.
  - assert (D0 : forall (a : code) x, lays (fun d => a = f x c /\ 0 <= x <= I32_MAX /\ here d) (readk sets a) (shv (fun vs l => exists vs', vs = x :: vs' /\ length vs' = length sets /\ counts vs' l)) (fun a vs d => (a = puts (f :: sets) vs c /\ Forall (fun x => 0 <= x <= I32_MAX) vs /\ length vs = length (f :: sets)) /\ here d)).
    { intros a x. apply lays_pure. intros ->. apply lays_pure. intros Hx. destruct (IH (f x c)) as [T0 F0]. split.
      - intros b p d lg r s' B0 Hd E. pose proof (T0 b p d lg r s' B0 Hd E) as Y. destruct r; auto. destruct Y as (l & vs & rest & c' & Y1 & (Y2 & Y2') & Y3 & (Y4 & Y5 & Y7) & Y6). exists l, (x :: vs), rest, c'. split; [exact Y1|]. split; [exists vs; auto|]. split; [exact Y3|]. cbn [length]. auto 6.
      - intros l vs rest p d lg B0 Hd (vs' & -> & Y1 & Y2). destruct (F0 l vs' rest p d lg B0 Hd (conj Y1 Y2)) as (a & c' & E & (Y4 & Y5 & Y7) & Y6). exists a, c'. cbn [length]. auto 7. }
    eapply lays_iff; [eapply (lays_bindv _ _ _ Z (list Z) _ _ a_count _ (fun x vs l => exists vs', vs = x :: vs' /\ length vs' = length sets /\ counts vs' l)); [apply lays_read_count|exact D0]|].
    intros d l vs. unfold shv. split.
    + intros (x & l1 & l2 & -> & X & vs' & -> & E & Y). cbn [length counts]. split; [now rewrite E|]. exists l1, l2. auto.
    + intros (E & Y). destruct vs as [|x vs]; [discriminate|]. cbn [counts length] in *. destruct Y as (l1 & l2 & -> & Y1 & Y2). exists x, l1, l2. split; [reflexivity|]. split; [exact Y1|]. exists vs. auto.
Qed.
Definition header_sets (v : Z) : list (Z -> code -> code) :=
  [fun x c => set_hasdebug (Z.land x 1) c; set_nints; set_nfloats; set_nstrings] ++ (if 5 <=? v then [set_nbytes] else []) ++
  [set_ntypes; set_nglobals; set_nnatives; set_nfunctions] ++ (if 4 <=? v then [set_nconstants] else []) ++ [set_entrypoint].
Lemma rk {A} f r (K K' : code -> M A) c c' s : (forall x s', K (f x c) s' = (a <- readk r (f x c') ;; K' a) s') -> (c <- read_count f c ;; K c) s = (a <- readk (f :: r) c' ;; K' a) s.
Proof.
  intros E. cbn [readk]. unfold read_count, ok, bind in *. destruct (UINDEX s) as [[x|e|q] s1] eqn:EU; [|now apply UINDEX_noerr in EU|reflexivity]. cbv beta iota. unfold ret at 1 2. cbv beta iota. apply E.
Qed.
Lemma rk0 {A} r (K : option Z -> M A) (K' : code -> M A) f c s : (forall x s', K (Some x) s' = (a <- readk r (f x c) ;; K' a) s') -> (o <- ok UINDEX ;; K o) s = (a <- readk (f :: r) c ;; K' a) s.
Proof.
  intros E. cbn [readk]. unfold read_count, ok, bind in *. destruct (UINDEX s) as [[x|e|q] s1] eqn:EU; [|now apply UINDEX_noerr in EU|reflexivity]. cbv beta iota. unfold ret at 1. cbv beta iota. apply E.
Qed.
Lemma rk1 {A} (b : bool) (m : M code) (K : code -> M A) c (R : M A) s : b = false -> K c s = R s -> (c' <- (if b then m else ret c) ;; K c') s = R s.
Proof. intros -> E. exact E. Qed.
Lemma rk2 {A} (b : bool) (m m' : M code) (K : code -> M A) (R : M A) s : b = true -> bind m K s = R s -> (c' <- (if b then m else m') ;; K c') s = R s.
Proof. intros -> E. exact E. Qed.
Lemma rk3 (c c' : code) s : c = c' -> (check_error ;;; ret c) s = (a <- readk [] c' ;; check_error ;;; ret a) s.
Proof. intros ->. reflexivity. Qed.
Lemma read_counts_eq v s : 2 <= v <= 5 -> read_counts (set_version v code_new) s = (c <- readk (header_sets v) (set_version v code_new) ;; check_error ;;; ret c) s.
Proof.
  intros Hv. assert (V : v = 2 \/ v = 3 \/ v = 4 \/ v = 5) by lia. clear Hv.
  destruct V as [->|[->|[->| ->]]]; unfold read_counts, header_sets; cbn [app Z.leb Z.compare Pos.compare Pos.compare_cont].
  - apply rk0; intros ? ?; cbv zeta. do 3 (apply rk; intros ? ?). apply rk1; [reflexivity|]. do 4 (apply rk; intros ? ?). apply rk1; [reflexivity|]. apply rk; intros ? ?. apply rk3. vm_compute. reflexivity.
  - apply rk0; intros ? ?; cbv zeta. do 3 (apply rk; intros ? ?). apply rk1; [reflexivity|]. do 4 (apply rk; intros ? ?). apply rk1; [reflexivity|]. apply rk; intros ? ?. apply rk3. vm_compute. reflexivity.
  - apply rk0; intros ? ?; cbv zeta. do 3 (apply rk; intros ? ?). apply rk1; [reflexivity|]. do 4 (apply rk; intros ? ?). apply rk2; [reflexivity|]. apply rk; intros ? ?. apply rk; intros ? ?. apply rk3. vm_compute. reflexivity.
  - apply rk0; intros ? ?; cbv zeta. do 3 (apply rk; intros ? ?). apply rk2; [reflexivity|]. apply rk; intros ? ?. do 4 (apply rk; intros ? ?). apply rk2; [reflexivity|]. apply rk; intros ? ?. apply rk; intros ? ?. apply rk3. vm_compute. reflexivity.
Qed.

Definition header_of (v : Z) (vs : list Z) : header :=
  let o := if 5 <=? v then 1%nat else 0%nat in let g i := nth i vs 0 in
  {| h_flags := g 0%nat; h_ints := g 1%nat; h_floats := g 2%nat; h_strings := g 3%nat; h_bytes := if 5 <=? v then g 4%nat else 0; h_types := g (4 + o)%nat; h_globals := g (5 + o)%nat;
     h_natives := g (6 + o)%nat; h_functions := g (7 + o)%nat; h_constants := if 4 <=? v then g (8 + o)%nat else 0; h_entry := last vs 0 |}.
Ltac shape_vs vs L := repeat (destruct vs as [|?x vs]; [try discriminate L|try discriminate L]).
Lemma loc_of v vs : 2 <= v <= 5 -> length vs = length (header_sets v) -> loc v (header_of v vs) (puts (header_sets v) vs (set_version v code_new)).
Proof.
  intros Hv L. assert (V : v = 2 \/ v = 3 \/ v = 4 \/ v = 5) by lia. clear Hv.
  destruct V as [->|[->|[->| ->]]]; unfold header_sets in *; cbn [app Z.leb Z.compare Pos.compare Pos.compare_cont length] in *; shape_vs vs L.
  all: unfold loc; cbn [header_of nth Nat.add Z.leb Z.compare Pos.compare Pos.compare_cont h_flags h_ints h_floats h_strings h_bytes h_types h_globals h_natives h_functions h_constants h_entry].
  all: cbn [puts]; repeat split.
  all: try (intros Q; exfalso; lia).
  all: match goal with |- (_ =? 0) = negb (Z.odd ?x) => transitivity (Z.land x 1 =? 0); [reflexivity|]; rewrite <- GrammarCode.odd_flag; now rewrite Bool.negb_involutive end.
Qed.
Lemma ranges_of v vs : 2 <= v <= 5 -> length vs = length (header_sets v) -> Forall (fun x => 0 <= x <= I32_MAX) vs -> ranges (header_of v vs) /\ 0 <= h_bytes (header_of v vs).
Proof.
  intros Hv L F. assert (G : forall i, 0 <= nth i vs 0 <= I32_MAX). { intros i. destruct (Nat.lt_ge_cases i (length vs)) as [Li|Li]; [rewrite Forall_forall in F; apply F, nth_In; exact Li|rewrite nth_overflow by lia; unfold I32_MAX; lia]. }
  unfold ranges, header_of. cbn [h_flags h_ints h_floats h_strings h_bytes h_types h_globals h_natives h_functions h_constants h_entry]. repeat split; try apply G; destruct (5 <=? v); try apply G; lia.
Qed.
Lemma header_counts v p b e cell : 2 <= v <= 5 ->
  (exists vs, checked (fun l => shv (fun vs l => length vs = length (header_sets v) /\ counts vs l) false l vs) (after_header v (header_of v vs)) p b e cell) <->
  (exists h, checked (header_part v h) (after_header v h) p b e cell).
Proof.
  intros Hv. assert (V : v = 2 \/ v = 3 \/ v = 4 \/ v = 5) by lia. clear Hv. unfold shv. split.
  - intros (vs & l & rest & E & (L & C) & X). exists (header_of v vs), l, rest. split; [exact E|]. split; [|exact X]. unfold header_part.
    destruct V as [->|[->|[->| ->]]]; unfold header_sets in *; cbn [app Z.leb Z.compare Pos.compare Pos.compare_cont length] in *; shape_vs vs L; (split; [intros Q; try (exfalso; lia); reflexivity|exact C]).
  - intros (h & l & rest & E & (Hc & C) & X). eexists. exists l, rest. split; [exact E|]. split; [split; [|exact C]|].
    + unfold header_sets. destruct (5 <=? v), (4 <=? v); reflexivity.
    + destruct h as [f1 f2 f3 f4 f5 f6 f7 f8 f9 f10 f11]. cbn [h_flags h_ints h_floats h_strings h_bytes h_types h_globals h_natives h_functions h_constants h_entry] in *.
      destruct V as [->|[->|[->| ->]]]; cbn [app Z.leb Z.compare Pos.compare Pos.compare_cont] in *; try (rewrite (Hc eq_refl) in X); exact X.
Qed.
Lemma refuses_header v : 2 <= v <= 5 ->
  refuses here (c <- read_counts (set_version v code_new) ;; c <- read_ints c ;; c <- read_floats c ;; c <- read_string_table c ;; c <- read_bytes_section c ;; c <- read_debugfiles c ;; tail c)
    (fun p b e cell => exists h, checked (header_part v h) (after_header v h) p b e cell).
Proof.
  intros Hv. eapply refuses_eq; [intros s; unfold bind at 1; rewrite read_counts_eq by exact Hv; instantiate (1 := c <- (c <- readk (header_sets v) (set_version v code_new) ;; check_error ;;; ret c) ;; c <- read_ints c ;; c <- read_floats c ;; c <- read_string_table c ;; c <- read_bytes_section c ;; c <- read_debugfiles c ;; tail c); reflexivity|].
  eapply refuses_iff; [intros p b e cell; apply (header_counts v p b e cell Hv)|].
  apply (refuses_phase _ _ _ _ _ (fun c => c)).
  pose proof (lays_readk (header_sets v) (set_version v code_new)) as D0.
  apply (refuses_check here _ _ (list Z) _ _ _ _ (fun vs => after_header v (header_of v vs)) D0).
  intros c vs. apply refuses_pure. intros (-> & F & L). destruct (ranges_of v vs Hv L F) as (R & Rb). apply refuses_front; auto. now apply loc_of.
Qed.

(** * The whole file *)
Definition refused_magic (b : list Z) (e : derr) (cell : option derr) : Prop :=
  exists k x rest, 0 <= k < 3 /\ b = firstn (Z.to_nat k) [72; 76; 66] ++ x :: rest /\ znth [72; 76; 66] k <> Some x /\ e = {| e_kind := InvalidBytecodeHeader; e_pos := k + 1 |} /\ cell = None.
Lemma refused_magic_cases b e cell : refused_magic b e cell <->
  ((exists x r, b = x :: r /\ x <> 72 /\ e = err InvalidBytecodeHeader 1) \/ (exists x r, b = 72 :: x :: r /\ x <> 76 /\ e = err InvalidBytecodeHeader 2) \/
   (exists x r, b = 72 :: 76 :: x :: r /\ x <> 66 /\ e = err InvalidBytecodeHeader 3)) /\ cell = None.
Proof.
  split.
  - intros (k & x & r & Hk & -> & N & -> & ->). split; [|reflexivity]. assert (K : k = 0 \/ k = 1 \/ k = 2) by lia. destruct K as [->|[->| ->]]; cbn in N |- *; [left|right; left|right; right]; exists x, r; (split; [reflexivity|]; split; [congruence|reflexivity]).
  - intros ([(x & r & -> & N & ->)|[(x & r & -> & N & ->)|(x & r & -> & N & ->)]] & ->); [exists 0, x, r|exists 1, x, r|exists 2, x, r]; (split; [lia|]; split; [reflexivity|]; split; [cbn; congruence|split; reflexivity]).
Qed.
Lemma magic_error b : 
  (forall x r, b = x :: r -> x <> 72 -> read_magic code_new (S_ b 0 code_new []) = (Err (err InvalidBytecodeHeader 1), S_ r 1 code_new [])) /\
  (forall x r, b = 72 :: x :: r -> x <> 76 -> read_magic code_new (S_ b 0 code_new []) = (Err (err InvalidBytecodeHeader 2), S_ r 2 code_new [])) /\
  (forall x r, b = 72 :: 76 :: x :: r -> x <> 66 -> read_magic code_new (S_ b 0 code_new []) = (Err (err InvalidBytecodeHeader 3), S_ r 3 code_new [])) /\
  (forall v r, b = 72 :: 76 :: 66 :: v :: r -> (2 <=? v) && (v <=? 5) = false -> read_magic code_new (S_ b 0 code_new []) = (Err (err UnsupportedBytecodeVersion 4), S_ r 4 code_new [])).
Proof.
  repeat split; intros x r -> N; unfold read_magic; unfold bind at 1, unwrap at 1; rewrite u8_S.
  - replace (negb (x =? 72)) with true by lia. reflexivity.
  - change (negb (72 =? 72)) with false. cbv iota. unfold bind at 1. unfold bind at 1, unwrap at 1. rewrite u8_S. replace (negb (x =? 76)) with true by lia. reflexivity.
  - change (negb (72 =? 72)) with false. cbv iota. unfold bind at 1. unfold bind at 1, unwrap at 1. rewrite u8_S. change (negb (76 =? 76)) with false. cbv iota. unfold bind at 1, unwrap at 1. rewrite u8_S. unfold ret at 1. replace (negb (x =? 66)) with true by lia. reflexivity.
  - change (negb (72 =? 72)) with false. cbv iota. unfold bind at 1. unfold bind at 1, unwrap at 1. rewrite u8_S. change (negb (76 =? 76)) with false. cbv iota. unfold bind at 1, unwrap at 1. rewrite u8_S. unfold ret at 1. change (negb (66 =? 66)) with false. cbv iota.
    unfold bind at 1, unwrap_mapped at 1. rewrite u8_S. replace ((x <=? 1) || (5 <? x)) with true by lia. reflexivity.
Qed.
Lemma refused_ok b e cell : okb b -> ((exists s', code_read (S_ b 0 code_new []) = (Err e, s') /\ errs s' = cell) <-> refused b e cell).
Proof.
  intros B0. unfold refused. fold (refused_magic b e cell). rewrite refused_magic_cases.
  destruct (magic_error b) as (M1 & M2 & M3 & M4).
  assert (Go : forall e1 r1 p1, read_magic code_new (S_ b 0 code_new []) = (Err e1, S_ r1 p1 code_new []) -> ((exists s', code_read (S_ b 0 code_new []) = (Err e, s') /\ errs s' = cell) <-> e = e1 /\ cell = None)).
  { intros e1 r1 p1 E. unfold code_read. cbv zeta. unfold bind at 1. rewrite E. split; [intros (s' & X & <-); injection X as <- <-; auto|intros (-> & ->); eexists; split; reflexivity]. }
  assert (Pn : forall q s1, read_magic code_new (S_ b 0 code_new []) = (Panic q, s1) -> ((exists s', code_read (S_ b 0 code_new []) = (Err e, s') /\ errs s' = cell) <-> False)).
  { intros q s1 E. unfold code_read. cbv zeta. unfold bind at 1. rewrite E. split; [intros (s' & X & _); discriminate|contradiction]. }
  destruct b as [|x0 b].
  { rewrite (Pn PUnwrap _ eq_refl). split; [contradiction|]. intros [([(x & r & X & _)|[(x & r & X & _)|(x & r & X & _)]] & _)|(v & r & X & _)]; discriminate. }
  destruct (Z.eq_dec x0 72) as [->|N0].
  2:{ rewrite (Go _ _ _ (M1 x0 b eq_refl N0)). split; [intros (-> & ->); left; split; [left; eauto|reflexivity]|]. intros [([(x & r & X & _ & ->)|[(x & r & X & _)|(x & r & X & _)]] & ->)|(v & r & X & _)]; [auto|exfalso; cbn [app] in *; congruence..]. }
  destruct b as [|x1 b].
  { rewrite (Pn PUnwrap _ eq_refl). split; [contradiction|]. intros [([(x & r & X & Y & _)|[(x & r & X & _)|(x & r & X & _)]] & _)|(v & r & X & _)]; cbn [app] in *; congruence. }
  destruct (Z.eq_dec x1 76) as [->|N1].
  2:{ rewrite (Go _ _ _ (M2 x1 b eq_refl N1)). split; [intros (-> & ->); left; split; [right; left; eauto|reflexivity]|]. intros [([(x & r & X & Y & _)|[(x & r & X & _ & ->)|(x & r & X & _)]] & ->)|(v & r & X & _)]; [exfalso; cbn [app] in *; congruence|auto|exfalso; cbn [app] in *; congruence..]. }
  destruct b as [|x2 b].
  { rewrite (Pn PUnwrap _ eq_refl). split; [contradiction|]. intros [([(x & r & X & Y & _)|[(x & r & X & Y & _)|(x & r & X & _)]] & _)|(v & r & X & _)]; cbn [app] in *; congruence. }
  destruct (Z.eq_dec x2 66) as [->|N2].
  2:{ rewrite (Go _ _ _ (M3 x2 b eq_refl N2)). split; [intros (-> & ->); left; split; [right; right; eauto|reflexivity]|]. intros [([(x & r & X & Y & _)|[(x & r & X & Y & _)|(x & r & X & _ & ->)]] & ->)|(v & r & X & _)]; [exfalso; cbn [app] in *; congruence..|auto|exfalso; cbn [app] in *; congruence]. }
  assert (No : ~ ((exists x r, 72 :: 76 :: 66 :: b = x :: r /\ x <> 72 /\ e = err InvalidBytecodeHeader 1) \/ (exists x r, 72 :: 76 :: 66 :: b = 72 :: x :: r /\ x <> 76 /\ e = err InvalidBytecodeHeader 2) \/
   (exists x r, 72 :: 76 :: 66 :: b = 72 :: 76 :: x :: r /\ x <> 66 /\ e = err InvalidBytecodeHeader 3))).
  { intros [(x & r & X & Y & _)|[(x & r & X & Y & _)|(x & r & X & Y & _)]]; cbn [app] in *; congruence. }
  destruct b as [|v b].
  { rewrite (Pn PUnwrap _ eq_refl). split; [contradiction|]. intros [(X & _)|(v & r & X & _)]; [auto|discriminate]. }
  destruct ((2 <=? v) && (v <=? 5)) eqn:V.
  - change (S_ (72 :: 76 :: 66 :: v :: b) 0 code_new []) with (start None ([72; 76; 66; v] ++ b)). unfold code_read. cbv zeta. rewrite (bind_step _ _ _ _ _ (magic_S v b ltac:(lia))).
    pose proof (refuses_header v ltac:(lia) b 4 code_new e cell (okb_r [72; 76; 66; v] b B0) eq_refl) as X. refine (iff_trans X _). split.
    + intros Y. right. exists v, b. rewrite V. split; [reflexivity|exact Y].
    + intros [(Y & _)|(v' & b' & E & Y)]; [contradiction|]. injection E as <- <-. rewrite V in Y. exact Y.
  - rewrite (Go _ _ _ (M4 v b eq_refl V)). split.
    + intros (-> & ->). right. exists v, b. rewrite V. split; [reflexivity|]. split; reflexivity.
    + intros [(Y & _)|(v' & b' & E & Y)]; [contradiction|]. injection E as <- <-. rewrite V in Y. exact Y.
Qed.
