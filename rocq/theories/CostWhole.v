(** Cloned table entries, whole files (C85). *)
From Verif Require Import Prelude StdModel BrassTypes DecoderModel CodeModel ReaderSpec CodeGenericProofs FormatProofs StringsProofs ErrProofs CostProofs CostTurns CostQuiet CostCopies CostSections.
From Verif Require CostModel.
Import CostModel(cost, turns, copied, filled, none, plus, entries).
From Coq Require Import Lia.
Local Open Scope Z_scope.

(** computations that clone nothing *)
Definition noclone {A} (x : CostModel.M A) : Prop := forall s r s' t, x s = ((r, s'), t) -> copied t = 0.
Lemma nc_free A (m : M A) : noclone (CostModel.free m). Proof. intros s r s' t E. unfold CostModel.free in E. now injection E as _ <-. Qed.
Lemma nc_fill n : noclone (CostModel.fill n). Proof. intros s r s' t E. now injection E as _ _ <-. Qed.
Lemma nc_turn : noclone CostModel.turn. Proof. intros s r s' t E. now injection E as _ _ <-. Qed.
Lemma nc_bind A B (x : CostModel.M A) (y : A -> CostModel.M B) : noclone x -> (forall a, noclone (y a)) -> noclone (CostModel.bind x y).
Proof. intros X Y s r s' t E. apply run_bind in E. destruct E as [(a & s1 & t1 & t2 & E1 & E2 & ->)|(r0 & E1 & _ & _)]; [apply X in E1; apply Y in E2; lia|now apply X in E1]. Qed.
Lemma nc_on A B (f : M A -> M B) x : noclone x -> noclone (CostModel.on f x).
Proof. intros X s r s' t E. unfold CostModel.on in E. destruct (x s) as [[r0 s0] t0] eqn:E0. injection E as _ <-. exact (X _ _ _ _ E0). Qed.
Lemma nc_for A n (b : Z -> A -> CostModel.M A) : (forall i a, noclone (b i a)) -> forall acc, noclone (CostModel.for_range n b acc).
Proof.
  intros X. unfold CostModel.for_range. generalize (Z.to_nat n) 0. clear n. intros n. induction n as [|n IH]; intros i acc; cbn [CostModel.for_loop]; [apply nc_free|].
  apply nc_bind; [apply nc_turn|intros _]. apply nc_bind; [apply X|intros a; apply IH].
Qed.
Ltac nc := repeat first [apply nc_fill|apply nc_free|apply nc_bind; [|intros ?]|apply nc_on|apply nc_for; intros ? ?|match goal with |- noclone (match ?x with _ => _ end) => destruct x end|progress cbv zeta].
Lemma nc_strings_loop n : forall text cur ss ls, noclone (CostModel.strings_loop n text cur ss ls).
Proof. induction n as [|n IH]; intros; cbn [CostModel.strings_loop]; [apply nc_free|]. apply nc_bind; [apply nc_turn|intros _]. nc. apply IH. Qed.
Lemma nc_strings n l : noclone (CostModel.read_strings n l).
Proof. unfold CostModel.read_strings. apply nc_bind; [nc|intros sz]. cbv zeta. apply nc_bind; [nc|intros sl]. apply nc_bind; [nc|intros _]. apply nc_strings_loop. Qed.
Lemma nc_ints c : noclone (CostModel.read_ints c). Proof. unfold CostModel.read_ints, CostModel.read_table. nc. Qed.
Lemma nc_floats c : noclone (CostModel.read_floats c). Proof. unfold CostModel.read_floats, CostModel.read_table. nc. Qed.
Lemma nc_string_table c : noclone (CostModel.read_string_table c).
Proof. unfold CostModel.read_string_table. apply nc_bind; [apply nc_on, nc_strings|intros r]. nc. Qed.
Lemma nc_bytes_section c : noclone (CostModel.read_bytes_section c). Proof. unfold CostModel.read_bytes_section. nc. Qed.

(** * what the tables read first cost in bytes *)
Lemma good_len A (m : M A) s r s' : Good true m -> bytes (d_buf s) -> m s = (r, s') -> bytes (d_buf s') /\ len s' <= len s.
Proof.
  intros G B E. pose proof (g_fwd _ _ G _ _ _ B E) as ((used & Eb & _) & _). rewrite Eb in *. rewrite zlen_app. pose proof (zlen_nonneg used). unfold bytes in *. apply Forall_app in B. split; [apply B|lia].
Qed.
Lemma eats_len A (m : M A) s a s' : eats1 m -> m s = (Ok a, s') -> len s' + 1 <= len s. Proof. intros W E. apply W in E. unfold zlen. lia. Qed.
(** [m] makes [g a] entries, for as many bytes (what was there before: [d]) *)
Definition pay {A} (d : Z) (g : A -> Z) (m : M A) : Prop := forall s r s', bytes (d_buf s) -> m s = (r, s') -> bytes (d_buf s') /\ len s' <= len s /\ d_code s' = d_code s /\ match r with Ok a => g a + len s' <= d + len s | _ => True end.
Lemma pay_keep A d (g : A -> Z) (m : M A) : Good true m -> keeps m -> (forall s a s', m s = (Ok a, s') -> g a <= d) -> pay d g m.
Proof.
  intros G W H s r s' B E. destruct (good_len _ _ _ _ _ G B E) as (B' & L). split; [exact B'|]. split; [exact L|]. split; [exact (W _ _ _ E)|]. destruct r; auto. apply H in E. lia.
Qed.
Lemma pay_eats A (m : M A) : Good true m -> keeps m -> eats1 m -> pay 0 (fun _ => 1) m.
Proof.
  intros G W H s r s' B E. destruct (good_len _ _ _ _ _ G B E) as (B' & L). split; [exact B'|]. split; [exact L|]. split; [exact (W _ _ _ E)|]. destruct r; auto. pose proof (eats_len _ _ _ _ _ H E). lia.
Qed.
Lemma pay_bind A B d e (g : A -> Z) (h : B -> Z) (m : M A) (k : A -> M B) : pay d g m -> (forall a, pay (e + g a) h (k a)) -> pay (e + d) h (bind m k).
Proof.
  intros P Q s r s' Bs E. unfold bind in E. destruct (m s) as [[a|x|u] s1] eqn:E1; destruct (P _ _ _ Bs E1) as (B1 & L1 & C1 & X1); [|injection E as <- <-; auto..].
  destruct (Q a _ _ _ B1 E) as (B2 & L2 & C2 & X2). split; [exact B2|]. split; [lia|]. split; [congruence|]. destruct r; auto. lia.
Qed.
Lemma pay_weak A d d' (g : A -> Z) (m : M A) : pay d g m -> d <= d' -> pay d' g m.
Proof. intros P D s r s' B E. destruct (P _ _ _ B E) as (B1 & L1 & C1 & X1). repeat (split; [assumption|]). destruct r; auto. lia. Qed.
Lemma pay_for A (g : A -> Z) n (b : Z -> A -> M A) : (forall i a, pay (g a) g (b i a)) -> forall acc, pay (g acc) g (for_range n b acc).
Proof.
  intros H. unfold for_range. generalize (Z.to_nat n) 0. clear n. intros n. induction n as [|n IH]; intros i acc; cbn [for_loop].
  - apply pay_keep; [apply good_ret|apply keeps_ret|]. intros s a s' E. injection E as <- _. lia.
  - apply (pay_bind _ _ (g acc) 0 g g); [apply H|]. intros a. apply IH.
Qed.
Lemma pay_ok_mapped A (m : M A) : pay 0 (fun _ => 1) m -> pay 0 (fun r : option A => match r with Some _ => 1 | None => 0 end) (ok_mapped m).
Proof.
  intros P s r s' B E. unfold ok_mapped in E. destruct (m s) as [[a|e|u] s1] eqn:E1; destruct (P _ _ _ B E1) as (B1 & L1 & C1 & X1); injection E as <- <-; (split; [exact B1|]; split; [exact L1|]; split; [exact C1|]); auto.
Qed.
Lemma pay_insert A (l : list A) i x : pay (zlen l + 1) zlen (vec_insert l i x).
Proof.
  apply pay_keep; [apply good_vec_insert|apply keeps_expect|]. intros s a s' E. unfold vec_insert, expect in E. destruct (zinsert l i x) as [l'|] eqn:Z1; [|discriminate]. injection E as <- _. apply zinsert_len in Z1. lia.
Qed.
Lemma pay_numbers dec n l0 : pay 0 (fun _ : Z => 1) dec -> pay (zlen l0) zlen (for_range n (fun i l => bind (ok_mapped dec) (fun r => match r with Some x => vec_insert l i x | None => ret l end)) l0).
Proof.
  intros P. apply pay_for. intros i l. replace (zlen l) with (zlen l + 0) by lia. apply (pay_bind _ _ 0 (zlen l) (fun r : option Z => match r with Some _ => 1 | None => 0 end)); [now apply pay_ok_mapped|].
  intros [x|]; [apply pay_insert|]. apply pay_keep; [apply good_ret|apply keeps_ret|]. intros s a s' E. injection E as <- _. lia.
Qed.
Lemma pay_i32 : pay 0 (fun _ => 1) decode_i32. Proof. apply pay_eats; [apply good_i32|apply keeps_s|now apply eats1_s]. Qed.
Lemma pay_f64 : pay 0 (fun _ => 1) decode_f64. Proof. apply pay_eats; [apply good_f64|apply keeps_u|now apply eats1_u]. Qed.
Lemma pay_UINDEX : pay 0 (fun _ => 1) UINDEX. Proof. apply pay_eats; [apply good_UINDEX|apply keeps_UINDEX|apply eats1_UINDEX]. Qed.
Lemma pay_table dec n : pay 0 (fun _ : Z => 1) dec -> pay 0 zlen (read_table dec n).
Proof. intros P. exact (pay_numbers dec n [] P). Qed.
Lemma pay_ret A d (g : A -> Z) a : g a <= d -> pay d g (ret a). Proof. intros H. apply pay_keep; [apply good_ret|apply keeps_ret|]. intros s x s' E. injection E as <- _. exact H. Qed.
Lemma pay_expect A u (o : option A) : pay 0 (fun _ => 0) (expect u o).
Proof. apply pay_keep; [destruct o; [apply good_ret|apply good_crash_true]|apply keeps_expect|]. intros; lia. Qed.
Lemma pay_unwrap A d (g : A -> Z) (m : M A) : pay d g m -> pay d g (unwrap m).
Proof. intros P s r s' B E. unfold unwrap in E. destruct (m s) as [[a|e|u] s1] eqn:E1; destruct (P _ _ _ B E1) as (B1 & L1 & C1 & X1); injection E as <- <-; auto. Qed.
(** strings and their lengths: one of each per byte *)
Lemma pay_strings_loop (g : list str * list Z -> Z) : (forall ss ls x y, g (ss ++ [x], ls ++ [y]) = g (ss, ls) + 1) -> forall n text cur ss ls, pay (g (ss, ls)) g (strings_loop n text cur ss ls).
Proof.
  intros H. induction n as [|n IH]; intros text cur ss ls; cbn [strings_loop]; [apply pay_ret; lia|].
  replace (g (ss, ls)) with (g (ss, ls) + 0) by lia. apply (pay_bind _ _ 0 (g (ss, ls)) (fun _ => 1)); [apply pay_unwrap, pay_UINDEX|]. intros sz.
  replace (g (ss, ls) + 1) with (g (ss, ls) + 1 + 0) by lia. apply (pay_bind _ _ 0 _ (fun _ => 0)); [apply pay_expect|intros tail]. apply (pay_bind _ _ 0 _ (fun _ => 0)); [apply pay_expect|intros x]. cbv zeta.
  destruct (zlen text <=? cur + sz); [apply pay_ret; rewrite H; lia|]. eapply pay_weak; [apply IH|rewrite H; lia].
Qed.
Lemma pay_read_strings (g : list str * list Z -> Z) n lens : (forall ss ls x y, g (ss ++ [x], ls ++ [y]) = g (ss, ls) + 1) -> pay (g ([], lens)) g (read_strings n lens).
Proof.
  intros H. unfold read_strings. replace (g ([], lens)) with (g ([], lens) + 0) by lia. apply (pay_bind _ _ 0 _ (fun _ => 0)).
  { apply pay_keep; [apply good_unwrap, good_i32|apply keeps_unwrap, keeps_s|intros; lia]. }
  intros sz. cbv zeta. apply (pay_bind _ _ 0 _ (fun _ => 0)).
  { intros s r s' B E. destruct (_ <? _); injection E as <- <-; (split; [exact B|]; split; [lia|]; split; [reflexivity|]); auto. lia. }
  intros sl. apply (pay_bind _ _ 0 _ (fun _ => 0)).
  { intros s r s' B E. unfold advance in E. destruct (_ <? _); injection E as <- <-; cbn [d_buf d_code].
    - split; [exact B|]. split; [lia|]. auto.
    - assert (X : len s = zlen (firstn (Z.to_nat (i32_as_usize sz)) (d_buf s)) + zlen (skipn (Z.to_nat (i32_as_usize sz)) (d_buf s))) by now rewrite <- zlen_app, firstn_skipn.
      pose proof (zlen_nonneg (firstn (Z.to_nat (i32_as_usize sz)) (d_buf s))). split; [unfold bytes in *; rewrite <- (firstn_skipn (Z.to_nat (i32_as_usize sz))) in B; apply Forall_app in B; apply B|]. split; [lia|]. split; [reflexivity|lia]. }
  intros _. rewrite Z.add_0_r. now apply pay_strings_loop.
Qed.
(** * the sections in order *)
Section Whole.
Variable K : Z.
Hypothesis K0 : 0 < K.
Definition step (P Q : code -> st -> Prop) (b : code -> CostModel.M code) : Prop := forall c s r s' t, bytes (d_buf s) -> P c s -> b c s = ((r, s'), t) ->
  bytes (d_buf s') /\ len s' <= len s /\ 0 <= copied t /\
  match r with Ok c' => Q c' s' /\ copied t <= 3 * K * (len s - len s') | _ => copied t <= 3 * K * (len s - len s') + K end.
Lemma step_bind P Q R b1 b2 : step P Q b1 -> step Q R b2 -> step P R (fun c => CostModel.bind (b1 c) b2).
Proof.
  intros S1 S2 c s r s' t B I E. apply run_bind in E. destruct E as [(a & s1 & t1 & t2 & E1 & E & ->)|(r0 & E1 & N0 & N1)]; destruct (S1 _ _ _ _ _ B I E1) as (B1 & L1 & X1 & Y1).
  - destruct Y1 as (I1 & Y1). destruct (S2 _ _ _ _ _ B1 I1 E) as (B2 & L2 & X2 & Y2). split; [exact B2|]. split; [lia|]. split; [lia|]. destruct r; [destruct Y2; split; [auto|lia]|lia|lia].
  - split; [exact B1|]. split; [exact L1|]. split; [exact X1|]. destruct r0; [contradiction|..]; (destruct r; [contradiction|lia|lia]).
Qed.
Lemma step_pre (P P' Q : code -> st -> Prop) b : step P Q b -> (forall c s, P' c s -> P c s) -> step P' Q b. Proof. intros S1 H c s r s' t B I E. exact (S1 _ _ _ _ _ B (H _ _ I) E). Qed.
Definition T (q p : Z) (c : code) (s : st) : Prop := fits K q p c s /\ phi q p s <= K.
Lemma step_turning q p b : turning K q p b -> step (T q p) (T q p) b.
Proof.
  intros S1 c s r s' t B (I & J) E. destruct (S1 _ _ _ _ _ B I J E) as (B1 & L1 & X1 & Y1). split; [exact B1|]. split; [exact L1|]. split; [exact X1|]. destruct r; [|auto..]. destruct Y1 as (? & ? & ?). repeat split; auto.
Qed.
Lemma nonneg_used s s' : len s' <= len s -> 0 <= 3 * K * (len s - len s'). Proof. intros. apply Z.mul_nonneg_nonneg; lia. Qed.
Lemma step_check (P : code -> st -> Prop) : (forall c s e l, P c s -> P c {| d_buf := d_buf s; d_pos := d_pos s; d_code := d_code s; errs := e; d_log := l |}) -> step P P (fun c => CostModel.bind CostModel.check_error (fun _ => CostModel.ret c)).
Proof.
  intros H c s r s' t B I E. unfold CostModel.bind, CostModel.check_error, CostModel.free, check_error, CostModel.ret, CostModel.free, ret in E. destruct (errs s).
  - injection E as <- <- <-. cbn [d_buf copied none]. split; [exact B|]. split; [lia|]. split; lia.
  - injection E as <- <- <-. cbn [d_buf copied none plus]. split; [exact B|]. split; [lia|]. split; [lia|]. split; [auto|lia].
Qed.
Lemma phi_eq q p s : phi q p s = weight q p (d_code s) + 2 * len s. Proof. reflexivity. Qed.
Lemma phi_same q p s s' : d_buf s' = d_buf s -> d_code s' = d_code s -> phi q p s' = phi q p s.
Proof. intros E1 E2. rewrite !phi_eq, E1, E2. reflexivity. Qed.
Lemma fits_of q p c s : fits K q p c s -> weight q p c + 2 * len s <= K. Proof. intros H. exact H. Qed.
Lemma to_fits q p c s : weight q p c + 2 * len s <= K -> fits K q p c s. Proof. intros H. exact H. Qed.
Lemma T_same q p c s s' : d_buf s' = d_buf s -> d_code s' = d_code s -> T q p c s -> T q p c s'.
Proof. intros E1 E2 (H1 & H2). split; [apply fits_of in H1; apply to_fits; rewrite E1; exact H1|rewrite (phi_same q p s s' E1 E2); exact H2]. Qed.
Lemma T_iff q p c s : T q p c s -> weight q p c + 2 * len s <= K /\ weight q p (d_code s) + 2 * len s <= K.
Proof. intros (H1 & H2). apply fits_of in H1. rewrite phi_eq in H2. auto. Qed.
Lemma to_T q p c s : weight q p c + 2 * len s <= K -> weight q p (d_code s) + 2 * len s <= K -> T q p c s.
Proof. intros H1 H2. split; [now apply to_fits|now rewrite phi_eq]. Qed.
Lemma w_q p x : weight 1 p x = weight 0 p x + Z.max 0 (c_ntypes x). Proof. unfold weight; lia. Qed.
Lemma w_p q x : weight q 1 x = weight q 0 x + Z.max 0 (c_nglobals x). Proof. unfold weight; lia. Qed.
Lemma T_errs q p c s e l : T q p c s -> T q p c {| d_buf := d_buf s; d_pos := d_pos s; d_code := d_code s; errs := e; d_log := l |}.
Proof. intros H. apply (T_same q p c s); [reflexivity|reflexivity|exact H]. Qed.
Lemma step_ext P Q b b' : (forall c s, b c s = b' c s) -> step P Q b' -> step P Q b.
Proof. intros H S1 c s r s' t B I E. rewrite H in E. exact (S1 _ _ _ _ _ B I E). Qed.
Lemma len_repeat A (x : A) n : zlen (zrepeat x n) = Z.max 0 n.
Proof. unfold zlen, zrepeat. rewrite repeat_length. lia. Qed.
(** changing the local module before the section *)
Lemma step_change (P P' Q : code -> st -> Prop) (f : code -> code) b : step P Q b -> (forall c s, P' c s -> P (f c) s) -> step P' Q (fun c => b (f c)).
Proof. intros S1 H c s r s' t B I E. exact (S1 _ _ _ _ _ B (H _ _ I) E). Qed.
Lemma step_fill P Q (n : code -> Z) b : step P Q b -> step P Q (fun c => CostModel.bind (CostModel.fill (n c)) (fun _ => b c)).
Proof. intros S1 c s r s' t B I E. apply run_fill in E. destruct E as (t' & E & <-). exact (S1 _ _ _ _ _ B I E). Qed.
Lemma T_types p c s : 0 <= p -> T 1 p c s -> T 0 p (set_types (zrepeat vt_default (c_ntypes c)) c) s.
Proof.
  intros p0 H. apply T_iff in H. destruct H as (H1 & H2). rewrite w_q in *. pose proof (zlen_nonneg (c_types c)). apply to_T; [rewrite w_types, len_repeat; lia|lia].
Qed.
Lemma T_globals q c s : 0 <= q -> T q 1 c s -> T q 0 (set_globals (zrepeat vt_default (c_nglobals c)) c) s.
Proof.
  intros q0 H. apply T_iff in H. destruct H as (H1 & H2). rewrite w_p in *. pose proof (zlen_nonneg (c_globals c)). apply to_T; [rewrite w_globals, len_repeat; lia|lia].
Qed.
Lemma step_range q p (n : code -> Z) b : (forall c s, T q p c s -> T q p c s) -> (forall i, turning K q p (b i)) -> step (T q p) (T q p) (fun c => CostModel.for_range (n c) b c).
Proof. intros _ H c s r s' t B I E. exact (step_turning _ _ _ (turning_range K q p (n c) b H) _ _ _ _ _ B I E). Qed.
Lemma step_types : step (T 1 1) (T 0 1) CostModel.read_types.
Proof.
  unfold CostModel.read_types. apply step_fill. intros c s r s' t B I E. apply T_types in I; [|lia].
  refine (step_turning 0 1 _ (turning_range K 0 1 (c_ntypes c) _ _) _ _ _ _ _ B I E). intros i. apply t_types; lia.
Qed.
Lemma step_globals : step (T 0 1) (T 0 0) CostModel.read_globals.
Proof.
  unfold CostModel.read_globals. apply step_fill. eapply step_bind; [|apply (step_check (T 0 0)); intros; now apply T_errs]. intros c s r s' t B I E. apply T_globals in I; [|lia].
  refine (step_turning 0 0 _ (turning_range K 0 0 (c_nglobals c) _ _) _ _ _ _ _ B I E). intros i. apply t_globals; lia.
Qed.
Lemma step_natives : step (T 0 0) (T 0 0) CostModel.read_natives.
Proof.
  unfold CostModel.read_natives. eapply step_bind; [|apply (step_check (T 0 0)); intros; now apply T_errs]. intros c s r s' t B I E.
  assert (I' : T 0 0 (set_natives [] c) s). { apply T_iff in I. destruct I as (I & J). apply to_T; [|exact J]. rewrite w_natives. change (zlen (@nil native)) with 0. pose proof (zlen_nonneg (c_natives c)). lia. }
  refine (step_turning 0 0 _ (turning_range K 0 0 (c_nnatives c) _ _) _ _ _ _ _ B I' E). intros i. apply t_native; lia.
Qed.
Lemma step_functions : step (T 0 0) (T 0 0) CostModel.read_functions.
Proof.
  unfold CostModel.read_functions. eapply step_bind; [|apply (step_check (T 0 0)); intros; now apply T_errs]. intros c s r s' t B I E.
  refine (step_turning 0 0 _ (turning_range K 0 0 (c_nfunctions c) _ _) _ _ _ _ _ B I E). intros i. apply t_function; lia.
Qed.
Lemma step_constants : step (T 0 0) (T 0 0) CostModel.read_constants.
Proof.
  unfold CostModel.read_constants. intros c s r s' t B I E.
  refine (step_turning 0 0 _ (turning_range K 0 0 (c_nconstants c) _ _) _ _ _ _ _ B I E). intros i. apply t_constant; lia.
Qed.
(** the tables read before any module is cloned *)
Definition W (r : Z) (c : code) : Z := weight 1 1 c + r * Z.max 0 (c_nstrings c).
Lemma W_eq r c : W r c = weight 1 1 c + r * Z.max 0 (c_nstrings c). Proof. reflexivity. Qed.
Lemma code_new_w : weight 1 1 code_new = 0. Proof. reflexivity. Qed.
Definition F (r : Z) (c : code) (s : st) : Prop := W r c + 2 * len s <= K /\ d_code s = code_new.
Definition moves (r r' : Z) (m : code -> M code) : Prop := forall c s x s', bytes (d_buf s) -> m c s = (x, s') ->
  bytes (d_buf s') /\ len s' <= len s /\ d_code s' = d_code s /\ match x with Ok c' => W r' c' + 2 * len s' <= W r c + 2 * len s | _ => True end.
Lemma step_front r r' b m : (forall c, noclone (b c)) -> (forall c, same (b c) (m c)) -> moves r r' m -> step (F r) (F r') b.
Proof.
  intros N S1 H c s x s' t B (I & D) E. pose proof (S1 c s) as X. rewrite E in X. cbn [fst] in X. symmetry in X. destruct (H _ _ _ _ B X) as (B1 & L1 & D1 & Y). apply N in E. rewrite E. pose proof (nonneg_used _ _ L1).
  split; [exact B1|]. split; [exact L1|]. split; [lia|]. destruct x; [|lia|lia]. split; [|lia]. split; [lia|congruence].
Qed.
Lemma check_ret (c : code) s x s' : bytes (d_buf s) -> bind check_error (fun _ => ret c) s = (x, s') -> bytes (d_buf s') /\ len s' <= len s /\ d_code s' = d_code s /\ match x with Ok c' => c' = c | _ => True end /\ len s' = len s.
Proof. intros B E. unfold bind, check_error, ret in E. destruct (errs s); injection E as <- <-; cbn [d_buf d_code]; repeat split; auto; lia. Qed.
Lemma moves_table r dec (n : code -> Z) (set : list Z -> code -> code) : pay 0 (fun _ : Z => 1) dec -> (forall l c, W r (set l c) <= W r c + zlen l) -> moves r r (fun c => bind (read_table dec (n c)) (fun l => bind check_error (fun _ => ret (set l c)))).
Proof.
  intros P H c s x s' B E. unfold bind at 1 in E. destruct (read_table dec (n c) s) as [[l|e|u] s1] eqn:E1; destruct (pay_table _ _ P _ _ _ B E1) as (B1 & L1 & C1 & X1); [|injection E as <- <-; auto..].
  apply check_ret in E; [|auto]. destruct E as (B2 & L2 & C2 & X2 & L3). split; [exact B2|]. split; [lia|]. split; [congruence|]. destruct x; auto. subst a. specialize (H l c). lia.
Qed.
Lemma moves_ints : moves 1 1 read_ints.
Proof. apply (moves_table 1 decode_i32 c_nints set_ints pay_i32). intros l c. unfold W. rewrite w_ints. change (c_nstrings (set_ints l c)) with (c_nstrings c). pose proof (zlen_nonneg (c_ints c)). lia. Qed.
Lemma moves_floats : moves 1 1 read_floats.
Proof. apply (moves_table 1 decode_f64 c_nfloats set_floats pay_f64). intros l c. unfold W. rewrite w_floats. change (c_nstrings (set_floats l c)) with (c_nstrings c). pose proof (zlen_nonneg (c_floats c)). lia. Qed.
(** a string block, or nothing *)
Lemma strings_block n lens s x s' : bytes (d_buf s) -> ok_mapped (read_strings n lens) s = (x, s') -> bytes (d_buf s') /\ len s' <= len s /\ d_code s' = d_code s /\
  match x with Ok (Some (ss, ls)) => zlen ss + len s' <= len s /\ zlen ls + len s' <= zlen lens + len s | _ => True end.
Proof.
  intros B E. unfold ok_mapped in E. destruct (read_strings n lens s) as [[(ss, ls)|e|u] s1] eqn:E1.
  - destruct (pay_read_strings (fun r => zlen (fst r)) n lens ltac:(intros; cbn [fst]; now rewrite zlen_app) _ _ _ B E1) as (B1 & L1 & C1 & X1).
    destruct (pay_read_strings (fun r => zlen (snd r)) n lens ltac:(intros; cbn [snd]; now rewrite zlen_app) _ _ _ B E1) as (_ & _ & _ & X2). injection E as <- <-. cbn [fst snd] in *. change (zlen (@nil str)) with 0 in X1. repeat split; auto; lia.
  - destruct (pay_read_strings (fun r => zlen (fst r)) n lens ltac:(intros; cbn [fst]; now rewrite zlen_app) _ _ _ B E1) as (B1 & L1 & C1 & X1). injection E as <- <-. auto.
  - destruct (pay_read_strings (fun r => zlen (fst r)) n lens ltac:(intros; cbn [fst]; now rewrite zlen_app) _ _ _ B E1) as (B1 & L1 & C1 & X1). injection E as <- <-. auto.
Qed.
Lemma moves_string_table : moves 1 0 read_string_table.
Proof.
  intros c s x s' B E. unfold read_string_table in E. unfold bind at 1 in E. destruct (ok_mapped _ s) as [[o|e|u] s1] eqn:E1; destruct (strings_block _ _ _ _ _ B E1) as (B1 & L1 & C1 & X1); [|injection E as <- <-; auto..].
  cbv zeta in E. apply check_ret in E; [|auto]. destruct E as (B2 & L2 & C2 & X2 & L3). split; [exact B2|]. split; [lia|]. split; [congruence|]. destruct x as [c'| |]; auto. subst c'. unfold W. rewrite w_ustrings, len_repeat. destruct o as [(ss, ls)|].
  - rewrite w_lens, w_strings. destruct X1 as (X1 & X2). change (c_nstrings (set_strings_lens ls (set_strings ss c))) with (c_nstrings c). change (c_strings_lens (set_strings ss c)) with (c_strings_lens c).
    pose proof (zlen_nonneg (c_strings c)). pose proof (zlen_nonneg (c_ustrings (set_strings_lens ls (set_strings ss c)))). lia.
  - pose proof (zlen_nonneg (c_ustrings c)). lia.
Qed.
Lemma moves_bytes : moves 0 0 read_bytes_section.
Proof.
  intros c s x s' B E. unfold read_bytes_section in E. destruct (5 <=? c_version c); [|injection E as <- <-; repeat split; auto; lia].
  unfold bind at 1 in E. destruct (decode_i32 s) as [[size|e|u] s1] eqn:E1; destruct (pay_i32 _ _ _ B E1) as (B1 & L1 & C1 & X1); [|injection E as <- <-; auto..].
  unfold bind at 1 in E. destruct (size <? 0); [injection E as <- <-; auto|]. change (ret tt s1) with (@Ok derr unit tt, s1) in E. cbv iota beta in E.
  unfold bind at 1 in E. destruct (unwrap_mapped (read_bytes size) s1) as [[bs|e|u] s2] eqn:E2; (assert (P2 : pay 0 zlen (unwrap_mapped (read_bytes size)));
    [intros t y t' Bt Et; unfold unwrap_mapped, read_bytes in Et; destruct (_ <? _); injection Et as <- <-; cbn [d_buf d_code]; [repeat split; auto; lia|];
     assert (X : len t = zlen (firstn (Z.to_nat size) (d_buf t)) + zlen (skipn (Z.to_nat size) (d_buf t))) by (now rewrite <- zlen_app, firstn_skipn); pose proof (zlen_nonneg (firstn (Z.to_nat size) (d_buf t)));
     (split; [unfold bytes in *; rewrite <- (firstn_skipn (Z.to_nat size)) in Bt; apply Forall_app in Bt; apply Bt|]); (split; [lia|]); split; [reflexivity|lia]|]);
    destruct (P2 _ _ _ B1 E2) as (B2 & L2 & C2 & X2); [|injection E as <- <-; (split; [exact B2|]; split; [lia|]; split; [congruence|auto])..].
  unfold bind at 1 in E. match type of E with context [for_range ?n ?f ?a s2] => destruct (for_range n f a s2) as [[ps|e|u] s3] eqn:E3 end; destruct (pay_numbers _ _ _ pay_UINDEX _ _ _ B2 E3) as (B3 & L3 & C3 & X3);
    [|injection E as <- <-; (split; [exact B3|]; split; [lia|]; split; [congruence|auto])..].
  apply check_ret in E; [|auto]. destruct E as (B4 & L4 & C4 & X4 & L5). split; [exact B4|]. split; [lia|]. split; [congruence|]. destruct x as [c'| |]; auto. subst c'. unfold W. rewrite w_bytes_pos, w_bytes.
  change (c_bytes_pos (set_bytes bs c)) with (c_bytes_pos c). pose proof (zlen_nonneg (c_bytes c)). lia.
Qed.
Lemma F_T c s : F 0 c s -> T 1 1 c s.
Proof.
  intros (I & D). rewrite W_eq in I. assert (0 <= weight 1 1 c) by (pose proof (entries_le 1 1 ltac:(lia) ltac:(lia) c); pose proof (entries_pos c); lia). apply to_T; [lia|]. rewrite D, code_new_w. lia.
Qed.
Lemma strings_cost n lens s x s' t : bytes (d_buf s) -> CostModel.ok_mapped (CostModel.read_strings n lens) s = ((x, s'), t) -> copied t = 0 /\ bytes (d_buf s') /\ len s' <= len s /\ d_code s' = d_code s /\
  match x with Ok (Some (ss, ls)) => zlen ss + len s' <= len s /\ zlen ls + len s' <= zlen lens + len s | _ => True end.
Proof.
  intros B E. split; [exact (nc_on _ _ ok_mapped _ (nc_strings _ _) _ _ _ _ E)|]. pose proof (same_ok_mapped _ _ _ (same_read_strings n lens) s) as S2. rewrite E in S2. cbn [fst] in S2. symmetry in S2. exact (strings_block _ _ _ _ _ B S2).
Qed.
Lemma buf_with c s : d_buf (with_code c s) = d_buf s. Proof. reflexivity. Qed.
Lemma code_with c s : d_code (with_code c s) = c. Proof. reflexivity. Qed.
Lemma step_debugfiles : step (T 1 1) (T 1 1) CostModel.read_debugfiles.
Proof.
  intros c s r s' t B (I & J) E. unfold CostModel.read_debugfiles in E. destruct (negb (c_hasdebug c =? 0)).
  2:{ injection E as <- <- <-. cbn [copied none]. split; [exact B|]. split; [lia|]. split; [lia|]. split; [split; auto|lia]. }
  assert (Cnt : forall r1 s1, read_count set_ndebugfiles c s = (r1, s1) -> bytes (d_buf s1) /\ len s1 <= len s /\ d_code s1 = d_code s /\ match r1 with Ok c1 => weight 1 1 c1 = weight 1 1 c /\ len s1 + 1 <= len s | _ => True end).
  { intros r1 s1 E1. unfold read_count in E1. unfold bind at 1 in E1. unfold ok in E1. destruct (UINDEX s) as [[n|e|u] s2] eqn:E2; destruct (pay_UINDEX _ _ _ B E2) as (B2 & L2 & C2 & X2).
    - injection E1 as <- <-. split; [exact B2|]. split; [exact L2|]. split; [exact C2|]. split; [apply w_ndebugfiles|lia].
    - exfalso. exact (UINDEX_noerr _ _ _ E2).
    - injection E1 as <- <-. auto. }
  apply run_bind in E. destruct E as [(c1 & s1 & t1 & t2 & E1 & E & ->)|(r0 & E1 & N0 & N1)]; unfold CostModel.read_count, CostModel.free in E1; destruct (read_count set_ndebugfiles c s) as (rc, sc) eqn:Ec; injection E1 as -> -> <-; destruct (Cnt _ _ eq_refl) as (B1 & L1 & C1 & X1).
  2:{ pose proof (nonneg_used _ _ L1). cbn [copied none]. split; [exact B1|]. split; [exact L1|]. split; [lia|]. destruct r0; [contradiction|..]; (destruct r; [contradiction|lia|lia]). }
  destruct X1 as (W1 & L2). cbn [copied none]. apply fits_of in I. pose proof (entries_le 1 1 ltac:(lia) ltac:(lia) c1) as Ee. pose proof (entries_pos c1) as Ep. pose proof (zlen_nonneg (d_buf s)). pose proof (zlen_nonneg (d_buf s1)).
  apply run_put_clone in E. destruct E as (t3 & E & ->).
  apply run_bind in E. destruct E as [(o & s2 & t4 & t5 & E2 & E & ->)|(r0 & E2 & N0 & N1)].
  all: destruct (strings_cost _ _ (with_code c1 s1) _ _ _ B1 E2) as (Z4 & B3 & L3 & C3 & X3); rewrite buf_with in *; rewrite code_with in *.
  2:{ split; [exact B3|]. split; [lia|]. rewrite Z4. split; [lia|]. pose proof (Z.mul_le_mono_nonneg_l 1 (len s - len s') (3 * K)). destruct r0; [contradiction|..]; (destruct r; [contradiction|lia|lia]). }
  apply run_get in E. destruct E as (t6 & E & <-). rewrite C3 in E.
  assert (X : exists c2 t7, weight 1 1 c2 + 2 * len s2 <= K /\ CostModel.bind CostModel.get_clone (fun c => CostModel.bind CostModel.check_error (fun _ => CostModel.ret c)) (with_code c2 s2) = ((r, s'), t7) /\ copied t6 = copied t7).
  { destruct o as [(ss, ls)|].
    - apply run_put in E. destruct E as (t7 & E & <-). exists (set_debugfiles ss c1), t7. split; [|auto]. rewrite w_debugfiles. pose proof (zlen_nonneg (c_debugfiles c1)). lia.
    - apply run_bind in E. destruct E as [(u & s3 & t7 & t8 & E3 & E & ->)|(r0 & E3 & N0 & N1)].
      + injection E3 as <- <- <-. exists c1, t8. split; [lia|]. split; [|cbn [copied none]; lia]. rewrite <- E. f_equal. destruct s2. cbn in C3. subst. reflexivity.
      + injection E3 as <- _ _. contradiction. }
  destruct X as (c2 & t7 & W2 & E3 & ->). pose proof (entries_le 1 1 ltac:(lia) ltac:(lia) c2) as Ee2. pose proof (entries_pos c2) as Ep2. pose proof (zlen_nonneg (d_buf s2)).
  pose proof (Z.mul_le_mono_nonneg_l 1 (len s - len s2) (3 * K)) as MK.
  apply run_bind in E3. destruct E3 as [(c3 & s3 & t8 & t9 & E4 & E3 & ->)|(r0 & E4 & N0 & N1)].
  2:{ exfalso. injection E4 as <- _ _. exact N0. }
  assert (Y : c3 = c2 /\ s3 = with_code c2 s2 /\ copied t8 = entries c2) by (injection E4 as <- <- <-; cbn [copied plus none]; repeat split; lia). destruct Y as (-> & -> & ->).
  assert (I3 : T 1 1 c2 (with_code c2 s2)). { apply to_T; exact W2. }
  destruct (step_check (T 1 1) ltac:(intros; now apply T_errs) c2 (with_code c2 s2) r s' t9 B3 I3 E3) as (B5 & L5 & N5 & X5). rewrite buf_with in *.
  split; [exact B5|]. split; [lia|]. rewrite Z4. split; [lia|].
  assert (M3 : 3 * K * (len s - len s') = 3 * K * (len s - len s2) + 3 * K * (len s2 - len s')) by lia. rewrite M3. destruct r; [destruct X5; split; [auto|lia]|lia|lia].
Qed.
(** everything after the counts *)
Definition body (c : code) : CostModel.M code := CostModel.bind (CostModel.read_ints c) (fun c => CostModel.bind (CostModel.read_floats c) (fun c => CostModel.bind (CostModel.read_string_table c) (fun c => CostModel.bind (CostModel.read_bytes_section c) (fun c =>
  CostModel.bind (CostModel.read_debugfiles c) (fun c => CostModel.bind (CostModel.read_types c) (fun c => CostModel.bind (CostModel.read_globals c) (fun c => CostModel.bind (CostModel.read_natives c) (fun c => CostModel.bind (CostModel.read_functions c) (fun c =>
  CostModel.bind (CostModel.read_constants c) (fun _ => CostModel.get_code)))))))))).
Lemma step_body : step (F 1) (fun _ _ => True) body.
Proof.
  unfold body. eapply step_bind; [apply (step_front 1 1 _ read_ints); [apply nc_ints|intros; apply same_read_ints|apply moves_ints]|].
  eapply step_bind; [apply (step_front 1 1 _ read_floats); [apply nc_floats|intros; apply same_read_floats|apply moves_floats]|].
  eapply step_bind; [apply (step_front 1 0 _ read_string_table); [apply nc_string_table|intros; apply same_read_string_table|apply moves_string_table]|].
  eapply step_bind; [apply (step_front 0 0 _ read_bytes_section); [apply nc_bytes_section|intros; apply same_read_bytes_section|apply moves_bytes]|].
  eapply step_pre; [|apply F_T]. eapply step_bind; [apply step_debugfiles|]. eapply step_bind; [apply step_types|]. eapply step_bind; [apply step_globals|].
  eapply step_bind; [apply step_natives|]. eapply step_bind; [apply step_functions|]. eapply step_bind; [apply step_constants|].
  intros c s r s' t B I E. injection E as <- <- <-. cbn [copied none]. split; [exact B|]. split; [lia|]. split; [lia|]. split; [auto|lia].
Qed.
End Whole.
