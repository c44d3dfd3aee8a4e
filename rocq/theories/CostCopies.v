(** How many table entries the reader clones: at most the entries of three modules per byte read (C85). *)
From Verif Require Import Prelude StdModel BrassTypes DecoderModel CodeModel ReaderSpec CodeGenericProofs FormatProofs StringsProofs CostProofs CostTurns.
From Verif Require CostModel.
Import CostModel(cost, turns, copied, filled, none, plus, entries).
From Coq Require Import Lia.
Local Open Scope Z_scope.

(** one step of a run *)
Definition with_code (c : code) (s : st) : st := {| d_buf := d_buf s; d_pos := d_pos s; d_code := c; errs := errs s; d_log := d_log s |}.
Lemma run_get A (y : code -> CostModel.M A) s r s' t : CostModel.bind CostModel.get_code y s = ((r, s'), t) -> exists t', y (d_code s) s = ((r, s'), t') /\ copied t' = copied t.
Proof. unfold CostModel.bind, CostModel.get_code, CostModel.free, get_code. destruct (y (d_code s) s) as [[r2 s2] t2]. intros E. injection E as <- <- <-. exists t2. split; [reflexivity|cbn; lia]. Qed.
Lemma run_put A c (y : unit -> CostModel.M A) s r s' t : CostModel.bind (CostModel.put_code c) y s = ((r, s'), t) -> exists t', y tt (with_code c s) = ((r, s'), t') /\ copied t' = copied t.
Proof. unfold CostModel.bind, CostModel.put_code, CostModel.free, put_code, with_code. destruct (y tt _) as [[r2 s2] t2]. intros E. injection E as <- <- <-. exists t2. split; [reflexivity|cbn; lia]. Qed.
Lemma run_copy A n (y : unit -> CostModel.M A) s r s' t : CostModel.bind (CostModel.copy n) y s = ((r, s'), t) -> exists t', y tt s = ((r, s'), t') /\ copied t = n + copied t'.
Proof. unfold CostModel.bind, CostModel.copy. destruct (y tt s) as [[r2 s2] t2]. intros E. injection E as <- <- <-. exists t2. split; [reflexivity|cbn; lia]. Qed.
Lemma run_fill A n (y : unit -> CostModel.M A) s r s' t : CostModel.bind (CostModel.fill n) y s = ((r, s'), t) -> exists t', y tt s = ((r, s'), t') /\ copied t' = copied t.
Proof. unfold CostModel.bind, CostModel.fill. destruct (y tt s) as [[r2 s2] t2]. intros E. injection E as <- <- <-. exists t2. split; [reflexivity|cbn; lia]. Qed.
Lemma run_i32 A n (y : Z -> CostModel.M A) s r s' t : CostModel.bind (CostModel.to_i32 n) y s = ((r, s'), t) ->
  (exists t', y n s = ((r, s'), t') /\ copied t' = copied t) \/ (exists u, r = Panic u /\ s' = s /\ t = none).
Proof.
  unfold CostModel.bind, CostModel.to_i32, CostModel.free, to_i32. destruct (I32_MAX <? n).
  - intros E. injection E as <- <- <-. right. eauto.
  - unfold ret. destruct (y n s) as [[r2 s2] t2]. intros E. injection E as <- <- <-. left. exists t2. split; [reflexivity|cbn; lia].
Qed.
Lemma run_lift A B (x : res derr B) (y : B -> CostModel.M A) s r s' t : CostModel.bind (CostModel.lift x) y s = ((r, s'), t) ->
  match x with Ok b => exists t', y b s = ((r, s'), t') /\ copied t' = copied t | Err e => r = Err e /\ s' = s /\ t = none | Panic u => r = Panic u /\ s' = s /\ t = none end.
Proof.
  unfold CostModel.bind, CostModel.lift, CostModel.free, lift. destruct x as [b|e|u]; [|intros E; injection E as <- <- <-; auto..].
  destruct (y b s) as [[r2 s2] t2]. intros E. injection E as <- <- <-. exists t2. split; [reflexivity|cbn; lia].
Qed.
Lemma run_expect A B u (x : option B) (y : B -> CostModel.M A) s r s' t : CostModel.bind (CostModel.expect u x) y s = ((r, s'), t) ->
  match x with Some b => exists t', y b s = ((r, s'), t') /\ copied t' = copied t | None => r = Panic u /\ s' = s /\ t = none end.
Proof.
  unfold CostModel.bind, CostModel.expect, CostModel.free, expect, ret, crash. destruct x as [b|]; [|intros E; injection E as <- <- <-; auto].
  destruct (y b s) as [[r2 s2] t2]. intros E. injection E as <- <- <-. exists t2. split; [reflexivity|cbn; lia].
Qed.
Lemma run_bind A B (x : CostModel.M A) (y : A -> CostModel.M B) s r s' t : CostModel.bind x y s = ((r, s'), t) ->
  (exists a s1 t1 t2, x s = ((Ok a, s1), t1) /\ y a s1 = ((r, s'), t2) /\ copied t = copied t1 + copied t2) \/
  (exists r0, x s = ((r0, s'), t) /\ match r0 with Ok _ => False | _ => True end /\ match r with Ok _ => False | _ => True end).
Proof.
  unfold CostModel.bind. destruct (x s) as [[[a|e|u] s1] t1].
  - destruct (y a s1) as [[r2 s2] t2] eqn:E2. intros E. injection E as <- <- <-. left. exists a, s1, t1, t2. auto.
  - intros E. injection E as <- <- <-. right. eexists. split; [reflexivity|auto].
  - intros E. injection E as <- <- <-. right. eexists. split; [reflexivity|auto].
Qed.

Section Copies.
(** [K]: more entries than any table that is cloned; [q], [p]: whether the tables of types and globals are still to be filled *)
Variables (K q p : Z).
Hypothesis K0 : 0 <= K. Hypothesis q0 : 0 <= q. Hypothesis p0 : 0 <= p.
Definition weight (c : code) : Z := entries c + q * Z.max 0 (c_ntypes c) + p * Z.max 0 (c_nglobals c).
Definition phi (s : st) : Z := weight (d_code s) + 2 * zlen (d_buf s).
Notation len s := (zlen (d_buf s)).
(** [g]: potential set free; [k]: clones paid for but not made; [f]: clones owed when the run ends early *)
Definition cp (g k f : Z) {A} (x : CostModel.M A) : Prop := forall s r s' t, bytes (d_buf s) -> phi s <= K -> x s = ((r, s'), t) ->
  bytes (d_buf s') /\ len s' <= len s /\ 0 <= copied t /\
  match r with Ok _ => phi s' <= phi s - g /\ copied t + k * K <= 3 * K * (len s - len s') | _ => copied t <= 3 * K * (len s - len s') + f * K end.

Lemma entries_le c : entries c <= weight c. Proof. unfold weight. pose proof (Z.mul_nonneg_nonneg q (Z.max 0 (c_ntypes c))). pose proof (Z.mul_nonneg_nonneg p (Z.max 0 (c_nglobals c))). lia. Qed.
Lemma entries_pos c : 0 <= entries c. Proof. unfold entries. repeat match goal with |- context [zlen ?l] => let H := fresh in pose proof (zlen_nonneg l) as H; revert H; generalize (zlen l); intros end. lia. Qed.
Lemma phi_le s : 0 <= entries (d_code s) <= phi s.
Proof. unfold phi. pose proof (entries_le (d_code s)). pose proof (entries_pos (d_code s)). pose proof (zlen_nonneg (d_buf s)). lia. Qed.
Lemma phi_with c s : phi (with_code c s) = weight c + 2 * len s. Proof. reflexivity. Qed.
Lemma types_le c : 0 <= zlen (c_types c) <= entries c.
Proof. unfold entries. repeat match goal with |- context [zlen ?l] => let H := fresh in pose proof (zlen_nonneg l) as H; revert H; generalize (zlen l); intros end. lia. Qed.
Lemma strings_le c : 0 <= zlen (c_strings c) <= entries c.
Proof. unfold entries. repeat match goal with |- context [zlen ?l] => let H := fresh in pose proof (zlen_nonneg l) as H; revert H; generalize (zlen l); intros end. lia. Qed.
Lemma ustring_le c i : 0 <= CostModel.ustring_copies c i <= entries c.
Proof.
  unfold CostModel.ustring_copies, entries. assert (X : 0 <= match znth (c_ustrings c) i with Some None => zlen (c_strings c) | _ => 0 end <= zlen (c_strings c)).
  { pose proof (zlen_nonneg (c_strings c)). destruct (znth (c_ustrings c) i) as [[|]|]; lia. }
  revert X. generalize (match znth (c_ustrings c) i with Some None => zlen (c_strings c) | _ => 0 end). intros y.
  repeat match goal with |- context [zlen ?l] => let H := fresh in pose proof (zlen_nonneg l) as H; revert H; generalize (zlen l); intros end. lia.
Qed.
Lemma cp_weak g k f g' k' f' A (x : CostModel.M A) : cp g k f x -> g' <= g -> k' <= k -> f <= f' -> cp g' k' f' x.
Proof.
  intros P G Kk F s r s' t B I E. destruct (P s r s' t B I E) as (B' & L & N & X). split; [exact B'|]. split; [exact L|]. split; [exact N|].
  assert (k' * K <= k * K) by (apply Z.mul_le_mono_nonneg_r; lia). assert (f * K <= f' * K) by (apply Z.mul_le_mono_nonneg_r; lia). destruct r; lia.
Qed.
Lemma cp_bind g1 k1 f1 g2 k2 f2 g k f A B (x : CostModel.M A) (y : A -> CostModel.M B) : cp g1 k1 f1 x -> (forall a, cp g2 k2 f2 (y a)) ->
  0 <= g1 -> g <= g1 + g2 -> k <= k1 + k2 -> f1 <= f -> f2 - k1 <= f -> cp g k f (CostModel.bind x y).
Proof.
  intros P Q G1 G Kk F1 F2 s r s' t Bs I E. assert (k * K <= (k1 + k2) * K) by (apply Z.mul_le_mono_nonneg_r; lia). assert (f1 * K <= f * K) by (apply Z.mul_le_mono_nonneg_r; lia). assert ((f2 - k1) * K <= f * K) by (apply Z.mul_le_mono_nonneg_r; lia).
  unfold CostModel.bind in E. destruct (x s) as [[[a|e|u] s1] t1] eqn:E1; destruct (P _ _ _ _ Bs I E1) as (B1 & L1 & N1 & X1).
  - destruct (y a s1) as [[r2 s2] t2] eqn:E2. destruct (Q a _ _ _ _ B1 ltac:(lia) E2) as (B2 & L2 & N2 & X2). injection E as <- <- <-. split; [exact B2|]. split; [lia|]. cbn [plus copied]. split; [lia|]. destruct r2; lia.
  - injection E as <- <- <-. split; [exact B1|]. split; [exact L1|]. split; [exact N1|]. lia.
  - injection E as <- <- <-. split; [exact B1|]. split; [exact L1|]. split; [exact N1|]. lia.
Qed.
(** computations that clone nothing *)
Definition keeps {A} (m : M A) : Prop := forall s r s', m s = (r, s') -> d_code s' = d_code s.
Lemma cp_free A (m : M A) : Good true m -> keeps m -> cp 0 0 0 (CostModel.free m).
Proof.
  intros G W s r s' t B I E. unfold CostModel.free in E. destruct (m s) as (r0, s0) eqn:E0. injection E as <- <- <-. pose proof (g_fwd _ _ G _ _ _ B E0) as ((used & Eb & _) & _). pose proof (W _ _ _ E0) as Ec.
  assert (Lb : len s = zlen used + len s0) by now rewrite Eb, zlen_app. pose proof (zlen_nonneg used). split; [unfold bytes in *; rewrite Eb in B; apply Forall_app in B; apply B|]. split; [lia|]. split; [cbn; lia|].
  assert (0 <= K * zlen used) by (apply Z.mul_nonneg_nonneg; lia). cbn [copied none]. unfold phi. rewrite Ec. destruct r0; rewrite Lb; lia.
Qed.
Lemma cp_reads A (m : M A) : Good true m -> keeps m -> eats1 m -> cp 2 3 0 (CostModel.free m).
Proof.
  intros G W W1 s r s' t B I E. unfold CostModel.free in E. destruct (m s) as (r0, s0) eqn:E0. injection E as <- <- <-. pose proof (g_fwd _ _ G _ _ _ B E0) as ((used & Eb & _) & _). pose proof (W _ _ _ E0) as Ec.
  assert (Lb : len s = zlen used + len s0) by now rewrite Eb, zlen_app. pose proof (zlen_nonneg used). split; [unfold bytes in *; rewrite Eb in B; apply Forall_app in B; apply B|]. split; [lia|]. split; [cbn; lia|].
  assert (0 <= K * zlen used) by (apply Z.mul_nonneg_nonneg; lia). cbn [copied none]. unfold phi. rewrite Ec. destruct r0; rewrite Lb; try lia.
  apply W1 in E0. assert (1 <= zlen used) by (unfold zlen in *; lia). assert (K * 1 <= K * zlen used) by (apply Z.mul_le_mono_nonneg_l; lia). lia.
Qed.
Lemma keeps_bind A B (m : M A) (k : A -> M B) : keeps m -> (forall a, keeps (k a)) -> keeps (bind m k).
Proof. intros W1 W2 s r s' E. unfold bind in E. destruct (m s) as [[a|e|u] s1] eqn:E1; pose proof (W1 _ _ _ E1) as X; [apply W2 in E; congruence|injection E as <- <-; auto|injection E as <- <-; auto]. Qed.
Lemma keeps_unwrap A (m : M A) : keeps m -> keeps (unwrap m).
Proof. intros W s r s' E. unfold unwrap in E. destruct (m s) as [[a|e|u] s1] eqn:E1; apply W in E1; injection E as <- <-; auto. Qed.
Lemma keeps_unwrap_mapped A (m : M A) : keeps m -> keeps (unwrap_mapped m).
Proof. intros W s r s' E. unfold unwrap_mapped in E. destruct (m s) as [[a|e|u] s1] eqn:E1; apply W in E1; injection E as <- <-; auto. Qed.
Lemma keeps_ret A (a : A) : keeps (ret a). Proof. intros s r s' E. now injection E as <- <-. Qed.
Lemma keeps_throw A e : keeps (@throw A e). Proof. intros s r s' E. now injection E as <- <-. Qed.
Lemma keeps_crash A u : keeps (@crash A u). Proof. intros s r s' E. now injection E as <- <-. Qed.
Lemma keeps_pos : keeps get_pos. Proof. intros s r s' E. now injection E as <- <-. Qed.
Lemma keeps_code : keeps get_code. Proof. intros s r s' E. now injection E as <- <-. Qed.
Lemma keeps_expect A u (o : option A) : keeps (expect u o). Proof. destruct o; [apply keeps_ret|apply keeps_crash]. Qed.
Lemma keeps_record e : keeps (record_error e). Proof. intros s r s' E. now injection E as <- <-. Qed.
Lemma keeps_map e : keeps (map_err e). Proof. intros s r s' E. now injection E as <- <-. Qed.
Lemma keeps_check : keeps check_error. Proof. intros s r s' E. unfold check_error in E. destruct (errs s); now injection E as <- <-. Qed.
Lemma keeps_bytes n : keeps (read_bytes n). Proof. intros s r s' E. unfold read_bytes in E. destruct (_ <? _); now injection E as <- <-. Qed.
Lemma keeps_lift A (r : res derr A) : keeps (lift r). Proof. intros s r' s' E. now injection E as <- <-. Qed.
Ltac kp := repeat first [apply keeps_ret|apply keeps_throw|apply keeps_crash|apply keeps_pos|apply keeps_code|apply keeps_expect|apply keeps_record|apply keeps_map|apply keeps_check|apply keeps_bytes|apply keeps_lift|apply keeps_unwrap|apply keeps_unwrap_mapped|(apply keeps_bind; [|intros ?])|match goal with |- keeps (if ?b then _ else _) => destruct b end].
Lemma keeps_u n : keeps (decode_unsigned n). Proof. unfold decode_unsigned. kp. Qed.
Lemma keeps_s n : keeps (decode_signed n). Proof. unfold decode_signed. kp. Qed.
Lemma keeps_INDEX : keeps INDEX.
Proof. unfold INDEX, read_index. apply keeps_unwrap. apply keeps_bind; [apply keeps_u|intros b]. cbv zeta. repeat first [apply keeps_u|progress kp]. Qed.
Lemma keeps_UINDEX : keeps UINDEX. Proof. unfold UINDEX. apply keeps_bind; [apply keeps_unwrap_mapped, keeps_INDEX|intros]. kp. Qed.
Lemma c0_of A (x : CostModel.M A) g k : cp g k 0 x -> 0 <= g -> 0 <= k -> cp 0 0 0 x. Proof. intros P G Kk. eapply cp_weak; [exact P|lia..]. Qed.
Lemma cp_ret A (a : A) : cp 0 0 0 (CostModel.ret a). Proof. apply cp_free; [apply good_ret|apply keeps_ret]. Qed.
Lemma cp_throw A e : cp 0 0 0 (@CostModel.throw A e). Proof. apply cp_free; [apply good_throw|apply keeps_throw]. Qed.
Lemma cp_crash A u : cp 0 0 0 (@CostModel.crash A u). Proof. apply cp_free; [apply good_crash_true|apply keeps_crash]. Qed.
Lemma cp_pos : cp 0 0 0 CostModel.get_pos. Proof. apply cp_free; [apply good_get_pos|apply keeps_pos]. Qed.
Lemma cp_expect A u (o : option A) : cp 0 0 0 (CostModel.expect u o). Proof. destruct o; [apply cp_ret|apply cp_crash]. Qed.
Lemma cp_record e : cp 0 0 0 (CostModel.record_error e). Proof. apply cp_free; [apply good_record_error|apply keeps_record]. Qed.
Lemma cp_map e : cp 0 0 0 (CostModel.map_err e). Proof. apply cp_free; [apply good_map_err|apply keeps_map]. Qed.
Lemma cp_check : cp 0 0 0 CostModel.check_error. Proof. apply cp_free; [apply good_check_error|apply keeps_check]. Qed.
Lemma cp_insert A (l : list A) i x : cp 0 0 0 (CostModel.vec_insert l i x). Proof. apply cp_free; [apply good_vec_insert|apply keeps_expect]. Qed.
Lemma cp_to_i32 x : cp 0 0 0 (CostModel.to_i32 x). Proof. apply cp_free; [apply good_to_i32|]. unfold to_i32. kp. Qed.
Lemma cp_i32_add x y : cp 0 0 0 (CostModel.i32_add x y). Proof. apply cp_free; [apply good_i32_add|]. unfold i32_add. kp. Qed.
Lemma cp_store d i f l : cp 0 0 0 (CostModel.debug_store d i f l). Proof. apply cp_free; [apply good_debug_store|]. unfold debug_store. kp. Qed.
Lemma cp_u8 : cp 2 3 0 CostModel.decode_u8. Proof. apply cp_reads; [apply good_u8|apply keeps_u|now apply eats1_u]. Qed.
Lemma cp_i32 : cp 2 3 0 CostModel.decode_i32. Proof. apply cp_reads; [apply good_i32|apply keeps_s|now apply eats1_s]. Qed.
Lemma cp_INDEX : cp 2 3 0 CostModel.INDEX. Proof. apply cp_reads; [apply good_INDEX|apply keeps_INDEX|apply eats1_INDEX]. Qed.
Lemma cp_UINDEX : cp 2 3 0 CostModel.UINDEX. Proof. apply cp_reads; [apply good_UINDEX|apply keeps_UINDEX|apply eats1_UINDEX]. Qed.
Lemma cp_turn : cp 0 0 0 CostModel.turn. Proof. intros s r s' t B I E. injection E as <- <- <-. cbn [copied]. repeat split; auto; lia. Qed.
Lemma cp_fill n : cp 0 0 0 (CostModel.fill n). Proof. intros s r s' t B I E. injection E as <- <- <-. cbn [copied]. repeat split; auto; lia. Qed.
Lemma cp_unwrap g k f A (x : CostModel.M A) : cp g k f x -> cp g k f (CostModel.unwrap x).
Proof.
  intros P s r s' t B I E. unfold CostModel.unwrap, CostModel.on, unwrap in E. destruct (x s) as [[[a|e|u] s1] t1] eqn:E1; destruct (P _ _ _ _ B I E1) as (B1 & L1 & N1 & X1); injection E as <- <- <-; auto.
Qed.
Lemma cp_unwrap_mapped g k f A (x : CostModel.M A) : cp g k f x -> cp g k f (CostModel.unwrap_mapped x).
Proof.
  intros P s r s' t B I E. unfold CostModel.unwrap_mapped, CostModel.on, unwrap_mapped in E. destruct (x s) as [[[a|e|u] s1] t1] eqn:E1; destruct (P _ _ _ _ B I E1) as (B1 & L1 & N1 & X1); injection E as <- <- <-; auto.
Qed.
Lemma cp_ok_mapped g k f A (x : CostModel.M A) (m : M A) : same x m -> noerr m -> cp g k f x -> cp g k f (CostModel.ok_mapped x).
Proof.
  intros S N P s r s' t B I E. unfold CostModel.ok_mapped, CostModel.on, ok_mapped in E. pose proof (S s) as Es. destruct (x s) as [[[a|e|u] s1] t1] eqn:E1; destruct (P _ _ _ _ B I E1) as (B1 & L1 & N1 & X1); injection E as <- <- <-; auto.
  exfalso. cbn [fst] in Es. now apply (N s e s1).
Qed.
Lemma cp_ok g k f A (x : CostModel.M A) (m : M A) : same x m -> noerr m -> cp g k f x -> cp g k f (CostModel.ok x).
Proof.
  intros S N P s r s' t B I E. unfold CostModel.ok, CostModel.on, ok in E. pose proof (S s) as Es. destruct (x s) as [[[a|e|u] s1] t1] eqn:E1; destruct (P _ _ _ _ B I E1) as (B1 & L1 & N1 & X1); injection E as <- <- <-; auto.
  exfalso. cbn [fst] in Es. now apply (N s e s1).
Qed.
Lemma cp_ok_check : cp 0 0 0 (CostModel.ok CostModel.check_error).
Proof. intros s r s' t B I E. unfold CostModel.ok, CostModel.on, CostModel.check_error, CostModel.free, ok, check_error in E. destruct (errs s); injection E as <- <- <-; cbn [copied none]; repeat split; auto; lia. Qed.
Lemma cp_okU : cp 2 3 0 (CostModel.ok CostModel.UINDEX). Proof. apply (cp_ok _ _ _ _ _ UINDEX); [apply same_free|exact UINDEX_noerr|apply cp_UINDEX]. Qed.
Lemma cp_okI : cp 2 3 0 (CostModel.ok CostModel.INDEX). Proof. apply (cp_ok _ _ _ _ _ INDEX); [apply same_free|exact INDEX_noerr|apply cp_INDEX]. Qed.
Lemma bind0 A B (x : CostModel.M A) (y : A -> CostModel.M B) : cp 0 0 0 x -> (forall a, cp 0 0 0 (y a)) -> cp 0 0 0 (CostModel.bind x y). Proof. intros P Q. eapply (cp_bind 0 0 0 0 0 0); eauto; lia. Qed.
Lemma cp_for A n : forall i (x : Z -> A -> CostModel.M A) acc, (forall i a, cp 0 0 0 (x i a)) -> cp 0 0 0 (CostModel.for_loop n i x acc).
Proof. induction n as [|n IH]; intros i x acc P; cbn [CostModel.for_loop]; [apply cp_ret|]. apply bind0; [apply cp_turn|intros _]. apply bind0; [apply P|intros; now apply IH]. Qed.
Lemma cp_range A n (x : Z -> A -> CostModel.M A) acc : (forall i a, cp 0 0 0 (x i a)) -> cp 0 0 0 (CostModel.for_range n x acc). Proof. apply cp_for. Qed.
Lemma cp_get g k f A (y : code -> CostModel.M A) : (forall c, entries c <= K -> cp g k f (y c)) -> cp g k f (CostModel.bind CostModel.get_code y).
Proof.
  intros P s r s' t B I E. unfold CostModel.bind, CostModel.get_code, CostModel.free, get_code in E. destruct (y (d_code s) s) as [[r2 s2] t2] eqn:E2. injection E as <- <- <-.
  pose proof (phi_le s). destruct (P (d_code s) ltac:(lia) _ _ _ _ B I E2) as (B2 & L2 & N2 & X2). cbn [plus copied none]. repeat split; auto; try lia; destruct r2; lia.
Qed.
Lemma cp_copy n : 0 <= n <= K -> cp 0 (-1) 0 (CostModel.copy n).
Proof. intros N s r s' t B I E. injection E as <- <- <-. cbn [copied]. repeat split; auto; lia. Qed.
Lemma bind_cc A (n : Z) (y : CostModel.M A) : 0 <= n <= K -> cp 0 0 0 y -> cp 0 (-1) 1 (CostModel.bind (CostModel.copy n) (fun _ => y)).
Proof. intros N P. eapply (cp_bind 0 (-1) 0 0 0 0); [now apply cp_copy|intros; exact P|lia..]. Qed.
Lemma w1 A (x : CostModel.M A) : cp 0 0 0 x -> cp 0 (-1) 1 x. Proof. intros P. eapply cp_weak; [exact P|lia..]. Qed.
Lemma bind01 A B (x : CostModel.M A) (y : A -> CostModel.M B) : cp 0 0 0 x -> (forall a, cp 0 (-1) 1 (y a)) -> cp 0 (-1) 1 (CostModel.bind x y). Proof. intros P Q. eapply (cp_bind 0 0 0 0 (-1) 1); eauto; lia. Qed.
Ltac look := repeat first [apply bind_cc; [pose proof types_le; pose proof strings_le; match goal with H : entries ?c <= K |- _ => pose proof (types_le c); pose proof (strings_le c) end; lia|apply cp_expect]
  | (apply bind01; [first [apply cp_pos|apply cp_record|apply cp_to_i32]|intros ?]) | match goal with |- cp _ _ _ (if ?b then _ else _) => destruct b end | (apply w1, cp_ret)].
Lemma cp_get_type : cp 2 2 0 CostModel.get_type.
Proof. unfold CostModel.get_type. eapply (cp_bind 2 3 0 0 (-1) 1); [apply cp_unwrap, cp_INDEX|intros i|lia..]. apply cp_get. intros c Hc. look. Qed.
Lemma cp_read_string : cp 2 2 0 CostModel.read_string.
Proof. unfold CostModel.read_string. eapply (cp_bind 2 3 0 0 (-1) 1); [apply cp_unwrap_mapped, cp_INDEX|intros i|lia..]. apply cp_get. intros c Hc. look. Qed.
Lemma entries_ustrings u c : entries (set_ustrings u c) = entries c - zlen (c_ustrings c) + zlen u.
Proof. unfold entries. cbn. lia. Qed.
Lemma weight_ustring c i r : get_ustring c i = Ok r -> weight (snd r) <= weight c + 1.
Proof.
  unfold get_ustring. destruct (znth (c_ustrings c) i) as [[x|]|]; [intros E; injection E as <-; cbn [snd]; lia| |discriminate].
  assert (X : forall y, match zinsert (c_ustrings c) i y with Some u => weight (set_ustrings u c) <= weight c + 1 | None => True end).
  { intros y. destruct (zinsert (c_ustrings c) i y) as [u|] eqn:E; [|exact I]. apply zinsert_len in E. unfold weight. rewrite entries_ustrings. cbn [c_ntypes c_nglobals set_ustrings]. lia. }
  destruct (znth (c_strings c) i) as [y|]; [specialize (X (Some y)); destruct (zinsert (c_ustrings c) i (Some y))|specialize (X None); destruct (zinsert (c_ustrings c) i None)]; intros E; try discriminate; injection E as <-; exact X.
Qed.
Lemma cp_read_ustring : cp 1 2 0 CostModel.read_ustring.
Proof.
  unfold CostModel.read_ustring. eapply (cp_bind 2 3 0 (-1) (-1) 1); [apply cp_unwrap, cp_INDEX|intros i|lia..].
  intros s r s' t B I E. pose proof (phi_le s) as Ph. pose proof (ustring_le (d_code s) i) as U.
  apply run_get in E. destruct E as (t1 & E & <-). apply run_i32 in E. destruct E as [(t2 & E & <-)|(u & -> & -> & ->)]; [|cbn [copied none]; repeat split; auto; lia].
  destruct ((i <? 0) || (c_nstrings (d_code s) <=? i)).
  - assert (P : cp 0 0 0 (CostModel.bind CostModel.get_pos (fun p1 => CostModel.bind (CostModel.record_error (with_info InvalidStringIndex p1)) (fun _ => CostModel.ret (@nil Z))))) by (apply bind0; [apply cp_pos|intros]; apply bind0; [apply cp_record|intros; apply cp_ret]).
    destruct (P _ _ _ _ B I E) as (B' & L' & N' & X'). repeat split; auto. destruct r; lia.
  - apply run_copy in E. destruct E as (t3 & E & ->). apply run_lift in E. destruct (get_ustring (d_code s) i) as [a|e|u] eqn:G.
    + destruct E as (t4 & E & <-). apply weight_ustring in G. apply run_put in E. destruct E as (t5 & E & <-).
      assert (X : s' = with_code (snd a) s /\ copied t5 = 0 /\ r = Ok (fst a)) by (injection E as <- <- <-; auto). destruct X as (-> & -> & ->).
      clear E. split; [exact B|]. assert (Y1 : phi (with_code (snd a) s) <= phi s - -1) by (rewrite phi_with; clear - G; unfold phi; lia).
      assert (Y3 : zlen (d_buf (with_code (snd a) s)) = zlen (d_buf s)) by reflexivity. rewrite Y3. clear Y3. assert (Y2 : CostModel.ustring_copies (d_code s) i <= K) by lia. destruct U as (U & _). abstract lia.
    + destruct E as (-> & -> & ->). cbn [copied none] in *. repeat split; auto; lia.
    + destruct E as (-> & -> & ->). cbn [copied none] in *. repeat split; auto; lia.
Qed.
End Copies.
Create HintDb cp.
#[export] Hint Resolve cp_ret cp_throw cp_crash cp_pos cp_expect cp_record cp_map cp_check cp_insert cp_to_i32 cp_i32_add cp_store cp_turn cp_fill cp_ok_check : cp.
Section Pieces.
Variables (K q p : Z).
Hypothesis K0 : 0 <= K. Hypothesis q0 : 0 <= q. Hypothesis p0 : 0 <= p.
Notation cp := (cp K q p).
Lemma z_u8 : cp 0 0 0 CostModel.decode_u8. Proof. eapply c0_of; [auto..|apply cp_u8; auto|lia|lia]. Qed.
Lemma z_INDEX : cp 0 0 0 CostModel.INDEX. Proof. eapply c0_of; [auto..|apply cp_INDEX; auto|lia|lia]. Qed.
Lemma z_UINDEX : cp 0 0 0 CostModel.UINDEX. Proof. eapply c0_of; [auto..|apply cp_UINDEX; auto|lia|lia]. Qed.
Lemma z_okU : cp 0 0 0 (CostModel.ok CostModel.UINDEX). Proof. eapply c0_of; [auto..|apply cp_okU; auto|lia|lia]. Qed.
Lemma z_okI : cp 0 0 0 (CostModel.ok CostModel.INDEX). Proof. eapply c0_of; [auto..|apply cp_okI; auto|lia|lia]. Qed.
Lemma z_string : cp 0 0 0 CostModel.read_string. Proof. eapply c0_of; [auto..|apply cp_read_string; auto|lia|lia]. Qed.
Lemma z_ustring : cp 0 0 0 CostModel.read_ustring. Proof. eapply c0_of; [auto..|apply cp_read_ustring; auto|lia|lia]. Qed.
Lemma z_type : cp 0 0 0 CostModel.get_type. Proof. eapply c0_of; [auto..|apply cp_get_type; auto|lia|lia]. Qed.
Lemma z_getcode A (y : code -> CostModel.M A) : (forall c, cp 0 0 0 (y c)) -> cp 0 0 0 (CostModel.bind CostModel.get_code y). Proof. intros P. apply cp_get; auto. Qed.
Hint Resolve z_u8 z_INDEX z_UINDEX z_okU z_okI z_string z_ustring z_type : cp.
Ltac z := intros; cbv zeta; repeat first [solve [auto 3 with cp nocore] | apply cp_unwrap | apply cp_unwrap_mapped | (apply cp_range; [auto..|intros]) | apply z_getcode; intros | (apply bind0; [auto..| |intros ?])
  | match goal with |- Verif.CostCopies.cp _ _ _ _ _ _ (if ?b then _ else _) => destruct b | |- Verif.CostCopies.cp _ _ _ _ _ _ (match ?r with _ => _ end) => destruct r end].
Lemma z_fields n : cp 0 0 0 (CostModel.read_fields n). Proof. unfold CostModel.read_fields. z. Qed.
Lemma z_protos n : cp 0 0 0 (CostModel.read_protos n). Proof. unfold CostModel.read_protos. z. Qed.
Lemma z_bindings n : cp 0 0 0 (CostModel.read_bindings n). Proof. unfold CostModel.read_bindings. z. Qed.
Lemma z_refs n : cp 0 0 0 (CostModel.read_type_refs n). Proof. unfold CostModel.read_type_refs. z. Qed.
Hint Resolve z_fields z_protos z_bindings z_refs : cp.
Lemma z_constructs n : cp 0 0 0 (CostModel.read_constructs n). Proof. unfold CostModel.read_constructs. z. Qed.
Hint Resolve z_constructs : cp.
Lemma cp_read_type : cp 2 3 0 CostModel.read_type.
Proof.
  unfold CostModel.read_type. eapply (cp_bind K q p K0 2 3 0 0 0 0); [apply cp_unwrap, cp_u8; auto|intros v|lia..].
  destruct (HLAST <=? v); [z|]. destruct ((v =? HFUN) || (v =? HMETHOD)); [z|]. destruct ((v =? HOBJ) || (v =? HSTRUCT)); [|z].
  apply bind0; [auto..|z|intros name]. eapply (cp_bind K q p K0 2 3 0 0 (-1) 1); [apply cp_unwrap, cp_INDEX; auto|intros sup|lia..].
  apply cp_get; auto. intros c Hc. eapply (cp_bind K q p K0 0 (-1) 1 0 0 0); [ |intros su; z|lia..].
  destruct (sup <? 0); [apply w1; auto; z|]. apply bind_cc; auto; [pose proof (types_le c); lia|z].
Qed.
Lemma z_read_type : cp 0 0 0 CostModel.read_type. Proof. eapply c0_of; [auto..|apply cp_read_type|lia|lia]. Qed.
Lemma z_extra x n : cp 0 0 0 x -> cp 0 0 0 (CostModel.read_extra x n). Proof. intros P. unfold CostModel.read_extra. z. Qed.
Hint Resolve z_read_type z_extra : cp.
Lemma z_opcode : cp 0 0 0 CostModel.read_opcode. Proof. unfold CostModel.read_opcode. z. Qed.
Hint Resolve z_opcode : cp.
Lemma cp_read_function : cp 2 2 0 CostModel.read_function.
Proof. unfold CostModel.read_function. eapply (cp_bind K q p K0 2 2 0 0 0 0); [apply cp_unwrap, cp_get_type; auto|intros v|lia..]. z. Qed.
Lemma z_debug_loop n : forall nops i f l d, cp 0 0 0 (CostModel.debug_loop n nops i f l d).
Proof. induction n as [|n IH]; intros; cbn [CostModel.debug_loop]; z. Qed.
Lemma z_debug_infos n : cp 0 0 0 (CostModel.debug_infos n).
Proof.
  intros s r s' t B I E. unfold CostModel.debug_infos in E. revert B I E. revert r s' t. generalize (S (length (d_buf s))). intros k.
  match goal with |- forall r s' t, _ -> _ -> ?m s = _ -> _ => assert (P : cp 0 0 0 m) by (apply bind0; [auto..|z|intros _; apply z_debug_loop]); exact (P s) end.
Qed.
Hint Resolve z_debug_infos : cp.
Lemma z_okm_debug n : cp 0 0 0 (CostModel.ok_mapped (CostModel.debug_infos n)). Proof. apply (cp_ok_mapped _ _ _ _ _ _ _ _ (debug_infos n)); [apply same_debug_infos|exact (noerr_debug_infos n)|apply z_debug_infos]. Qed.
Lemma z_skip : cp 0 0 0 CostModel.skip_assigns. Proof. unfold CostModel.skip_assigns. z. Qed.
Lemma cp_okm_type : cp 2 2 0 (CostModel.ok_mapped CostModel.get_type). Proof. apply (cp_ok_mapped _ _ _ _ _ _ _ _ get_type); [apply same_get_type|exact noerr_get_type|apply cp_get_type; auto]. Qed.
Lemma cp_okm_U : cp 2 3 0 (CostModel.ok_mapped CostModel.UINDEX). Proof. apply (cp_ok_mapped _ _ _ _ _ _ _ _ UINDEX); [apply same_free|exact UINDEX_noerr|apply cp_UINDEX; auto]. Qed.
End Pieces.
