(** Cloned table entries, section by section (C85). *)
From Verif Require Import Prelude StdModel BrassTypes DecoderModel CodeModel ReaderSpec CodeGenericProofs FormatProofs StringsProofs ErrProofs CostProofs CostTurns CostQuiet CostCopies.
From Verif Require CostModel.
Import CostModel(cost, turns, copied, filled, none, plus, entries).
From Coq Require Import Lia.
Local Open Scope Z_scope.
Notation len s := (zlen (d_buf s)).

(** * weights of updated modules *)
Section Weight.
Variables q p : Z.
Notation w := (weight q p).
Ltac we := unfold weight, entries; cbn; lia.
Lemma w_types x c : w (set_types x c) = w c - zlen (c_types c) + zlen x. Proof. we. Qed.
Lemma w_globals x c : w (set_globals x c) = w c - zlen (c_globals c) + zlen x. Proof. we. Qed.
Lemma w_natives x c : w (set_natives x c) = w c - zlen (c_natives c) + zlen x. Proof. we. Qed.
Lemma w_functions x c : w (set_functions x c) = w c - zlen (c_functions c) + zlen x. Proof. we. Qed.
Lemma w_constants x c : w (set_constants x c) = w c - zlen (c_constants c) + zlen x. Proof. we. Qed.
Lemma w_debugfiles x c : w (set_debugfiles x c) = w c - zlen (c_debugfiles c) + zlen x. Proof. we. Qed.
Lemma w_ints x c : w (set_ints x c) = w c - zlen (c_ints c) + zlen x. Proof. we. Qed.
Lemma w_floats x c : w (set_floats x c) = w c - zlen (c_floats c) + zlen x. Proof. we. Qed.
Lemma w_strings x c : w (set_strings x c) = w c - zlen (c_strings c) + zlen x. Proof. we. Qed.
Lemma w_lens x c : w (set_strings_lens x c) = w c - zlen (c_strings_lens c) + zlen x. Proof. we. Qed.
Lemma w_ustrings x c : w (set_ustrings x c) = w c - zlen (c_ustrings c) + zlen x. Proof. we. Qed.
Lemma w_bytes x c : w (set_bytes x c) = w c - zlen (c_bytes c) + zlen x. Proof. we. Qed.
Lemma w_bytes_pos x c : w (set_bytes_pos x c) = w c - zlen (c_bytes_pos c) + zlen x. Proof. we. Qed.
Lemma w_ndebugfiles x c : w (set_ndebugfiles x c) = w c. Proof. we. Qed.
End Weight.

(** the run returns the module it leaves behind *)
Definition ends (m : M code) : Prop := forall s c s', m s = (Ok c, s') -> c = d_code s'.
Lemma ends_bind A (m : M A) (k : A -> M code) : (forall a, ends (k a)) -> ends (bind m k).
Proof. intros X s c s' E. unfold bind in E. destruct (m s) as [[a|e|u] s1]; [now apply X in E|discriminate|discriminate]. Qed.
Lemma ends_get : ends get_code. Proof. intros s c s' E. now injection E as <- <-. Qed.
Lemma ends_put c : ends (bind (put_code c) (fun _ => ret c)). Proof. intros s c' s' E. unfold bind, put_code, ret in E. now injection E as <- <-. Qed.

Section Sections.
Variables (K q p : Z).
Hypothesis K0 : 0 < K. Hypothesis q0 : 0 <= q. Hypothesis p0 : 0 <= p.
Notation w := (weight q p). Notation phi := (phi q p). Notation cp := (cp K q p).
Lemma K1 : 0 <= K. Proof. lia. Qed.
(** the same with room for [d] more entries needed *)
Definition cpd (d g k f : Z) {A} (x : CostModel.M A) : Prop := forall s r s' t, bytes (d_buf s) -> phi s <= K - d -> x s = ((r, s'), t) ->
  bytes (d_buf s') /\ len s' <= len s /\ 0 <= copied t /\
  match r with Ok _ => phi s' <= phi s - g /\ copied t + k * K <= 3 * K * (len s - len s') | _ => copied t <= 3 * K * (len s - len s') + f * K end.
Lemma cpd_bind d g1 k1 f1 g2 k2 f2 g k f A B (x : CostModel.M A) (y : A -> CostModel.M B) : cp g1 k1 f1 x -> (forall a, cpd d g2 k2 f2 (y a)) ->
  d <= g1 -> g <= g1 + g2 -> k <= k1 + k2 -> f1 <= f -> f2 - k1 <= f -> cp g k f (CostModel.bind x y).
Proof.
  intros P Q G1 G Kk F1 F2 s r s' t Bs I E. assert (k * K <= (k1 + k2) * K) by (apply Z.mul_le_mono_nonneg_r; lia). assert (f1 * K <= f * K) by (apply Z.mul_le_mono_nonneg_r; lia). assert ((f2 - k1) * K <= f * K) by (apply Z.mul_le_mono_nonneg_r; lia).
  unfold CostModel.bind in E. destruct (x s) as [[[a|e|u] s1] t1] eqn:E1; destruct (P _ _ _ _ Bs I E1) as (B1 & L1 & N1 & X1).
  - destruct (y a s1) as [[r2 s2] t2] eqn:E2. destruct (Q a _ _ _ _ B1 ltac:(lia) E2) as (B2 & L2 & N2 & X2). injection E as <- <- <-. split; [exact B2|]. split; [lia|]. cbn [plus copied]. split; [lia|]. destruct r2; lia.
  - injection E as <- <- <-. split; [exact B1|]. split; [exact L1|]. split; [exact N1|]. lia.
  - injection E as <- <- <-. split; [exact B1|]. split; [exact L1|]. split; [exact N1|]. lia.
Qed.
(** [decoder.code] updated by adding at most [d] entries to a table, or a crash; then the rest *)
Lemma cpd_update d A B (h : code -> M B) (put : B -> code -> code) (y : CostModel.M A) g k f : 0 <= d ->
  (forall c s r s', h c s = (r, s') -> s' = s /\ match r with Ok b => w (put b c) <= w c + d | _ => True end) ->
  0 <= f -> cp g k f y ->
  cpd d (g - d) k f (CostModel.bind CostModel.get_code (fun dc => CostModel.bind (CostModel.free (h dc)) (fun b => CostModel.bind (CostModel.put_code (put b dc)) (fun _ => y)))).
Proof.
  intros D H F P s r s' t Bs I E. apply run_get in E. destruct E as (t1 & E & <-). apply run_bind in E.
  destruct E as [(b & s1 & t2 & t3 & E1 & E & ->)|(r0 & E1 & N0 & N1)]; unfold CostModel.free in E1; destruct (h (d_code s) s) as (rh, sh) eqn:Eh; injection E1 as -> -> <-; destruct (H _ _ _ _ Eh) as (-> & Hw).
  - apply run_put in E. destruct E as (t4 & E & <-). assert (Ph : phi (with_code (put b (d_code s)) s) <= phi s + d) by (rewrite phi_with; unfold CostCopies.phi; lia).
    destruct (P (with_code (put b (d_code s)) s) _ _ _ Bs ltac:(lia) E) as (B2 & L2 & N2 & X2). change (d_buf (with_code (put b (d_code s)) s)) with (d_buf s) in *. cbn [copied none]. split; [exact B2|]. split; [exact L2|]. split; [lia|]. destruct r; lia.
  - cbn [copied none]. split; [exact Bs|]. split; [lia|]. split; [lia|]. assert (0 <= f * K) by (apply Z.mul_nonneg_nonneg; lia). destruct r; [contradiction|lia|lia].
Qed.
Lemma cp_getclone : cp 0 (-1) 0 CostModel.get_clone.
Proof.
  intros s r s' t B I E. assert (X : r = Ok (d_code s) /\ s' = s /\ copied t = entries (d_code s)) by (injection E as <- <- <-; cbn; repeat split; lia). destruct X as (-> & -> & ->).
  pose proof (phi_le q p q0 p0 s). split; [exact B|]. split; [lia|]. split; [lia|]. split; [lia|]. lia.
Qed.
(** * one turn of a loop over sections *)
Definition fits (c : code) (s : st) : Prop := w c + 2 * len s <= K.
Definition turning (b : code -> CostModel.M code) : Prop := forall c s r s' t, bytes (d_buf s) -> fits c s -> phi s <= K -> b c s = ((r, s'), t) ->
  bytes (d_buf s') /\ len s' <= len s /\ 0 <= copied t /\
  match r with Ok c' => fits c' s' /\ phi s' <= K /\ copied t <= 3 * K * (len s - len s') | _ => copied t <= 3 * K * (len s - len s') + K end.
Lemma turning_range n b : (forall i, turning (b i)) -> turning (CostModel.for_range n b).
Proof.
  intros T. unfold CostModel.for_range. generalize (Z.to_nat n) 0. clear n. intros n. induction n as [|n IH]; intros i c s r s' t B F I E; cbn [CostModel.for_loop] in E.
  - assert (X : r = Ok c /\ s' = s /\ copied t = 0) by (injection E as <- <- <-; auto). destruct X as (-> & -> & ->). split; [exact B|]. split; [lia|]. split; [lia|]. repeat split; auto; lia.
  - unfold CostModel.bind at 1, CostModel.turn in E. destruct (CostModel.bind (b i c) (fun acc' => CostModel.for_loop n (i + 1) b acc') s) as [[r1 s1] t1] eqn:E1. injection E as <- <- <-.
    cbn [plus copied]. apply run_bind in E1. destruct E1 as [(c2 & s2 & t2 & t3 & E2 & E3 & ->)|(r0 & E2 & N0 & N1)]; destruct (T i _ _ _ _ _ B F I E2) as (B2 & L2 & N2 & X2).
    + destruct X2 as (F2 & I2 & X2). destruct (IH _ _ _ _ _ _ B2 F2 I2 E3) as (B3 & L3 & N3 & X3). split; [exact B3|]. split; [lia|]. split; [lia|]. destruct r1; [destruct X3 as (? & ? & ?); repeat split; auto; lia|lia|lia].
    + split; [exact B2|]. split; [exact L2|]. split; [lia|]. destruct r0; [contradiction|..]; (destruct r1; [contradiction|lia|lia]).
Qed.
Lemma run_put_clone A c (y : unit -> CostModel.M A) s r s' t : CostModel.bind (CostModel.put_clone c) y s = ((r, s'), t) -> exists t', y tt (with_code c s) = ((r, s'), t') /\ copied t = entries c + copied t'.
Proof.
  intros E. apply run_bind in E. destruct E as [(u & s1 & t1 & t2 & E1 & E & ->)|(r0 & E1 & N & _)].
  - assert (X : s1 = with_code c s /\ copied t1 = entries c /\ u = tt) by (injection E1 as <- <- <-; cbn [plus copied none]; repeat split; lia). destruct X as (-> & -> & ->). eauto.
  - exfalso. injection E1 as <- _ _. exact N.
Qed.
(** turns that begin with [decoder.code = c.clone()] *)
Lemma turning_put (b : CostModel.M code) (m : M code) : cp 0 1 0 b -> same b m -> ends m -> turning (fun c => CostModel.bind (CostModel.put_clone c) (fun _ => b)).
Proof.
  intros P S En c s r s' t B F I E. apply run_put_clone in E. destruct E as (t1 & E & ->). assert (I1 : phi (with_code c s) <= K) by (rewrite phi_with; exact F).
  pose proof (entries_le q p q0 p0 c) as Ec. pose proof (entries_pos c). unfold fits in F. pose proof (zlen_nonneg (d_buf s)). destruct (P (with_code c s) _ _ _ B I1 E) as (B2 & L2 & N2 & X2). change (d_buf (with_code c s)) with (d_buf s) in *.
  split; [exact B2|]. split; [exact L2|]. split; [lia|]. destruct r as [c'|e|u]; [|lia|lia]. pose proof (S (with_code c s)) as X. rewrite E in X. cbn [fst] in X. symmetry in X. apply En in X. subst c'.
  destruct X2 as (Y1 & Y2). rewrite phi_with in Y1. clear I1. assert (Ep : phi s' = w (d_code s') + 2 * len s') by reflexivity. unfold fits. clear - Y1 Y2 Ep Ec H F N2 H0. split; [lia|]. split; lia.
Qed.
Lemma insert_static A (B C : Z) (l : list A) i x (g : list A -> Z) : (forall l', zlen l' = zlen l + 1 -> g l' <= B + C) -> forall s r s', vec_insert l i x s = (r, s') -> s' = s /\ match r with Ok b => g b <= B + C | _ => True end.
Proof.
  intros H s r s' E. unfold vec_insert, expect in E. destruct (zinsert l i x) as [l'|] eqn:Z1; injection E as <- <-; split; auto. apply H. now apply zinsert_len in Z1.
Qed.
(** * the sections *)
Lemma t_types i : turning (fun c => CostModel.bind (CostModel.put_clone c) (fun _ => CostModel.bind CostModel.read_type (fun t => CostModel.bind CostModel.get_code (fun dc => CostModel.bind (CostModel.vec_insert (c_types dc) i t)
    (fun ts => CostModel.bind (CostModel.put_code (set_types ts dc)) (fun _ => CostModel.get_clone)))))).
Proof.
  apply (turning_put _ (t <- read_type ;; dc <- get_code ;; ts <- vec_insert (c_types dc) i t ;; put_code (set_types ts dc) ;;; get_code)).
  - eapply (cpd_bind 1 2 3 0 (0 - 1) (-1) 0); [apply cp_read_type; lia| |lia..]. intros t. apply (cpd_update 1 _ _ (fun dc => vec_insert (c_types dc) i t) set_types); [lia| |lia|apply cp_getclone].
    intros c. apply insert_static. intros l' L. rewrite w_types. lia.
  - same.
  - repeat (apply ends_bind; intros ?). apply ends_get.
Qed.
Lemma cpd_then d g1 k1 f1 g2 k2 f2 g k f A B (x : CostModel.M A) (y : A -> CostModel.M B) : cpd d g1 k1 f1 x -> (forall a, cp g2 k2 f2 (y a)) ->
  - d <= g1 -> g <= g1 + g2 -> k <= k1 + k2 -> f1 <= f -> f2 - k1 <= f -> cpd d g k f (CostModel.bind x y).
Proof.
  intros P Q G1 G Kk F1 F2 s r s' t Bs I E. assert (k * K <= (k1 + k2) * K) by (apply Z.mul_le_mono_nonneg_r; lia). assert (f1 * K <= f * K) by (apply Z.mul_le_mono_nonneg_r; lia). assert ((f2 - k1) * K <= f * K) by (apply Z.mul_le_mono_nonneg_r; lia).
  unfold CostModel.bind in E. destruct (x s) as [[[a|e|u] s1] t1] eqn:E1; destruct (P _ _ _ _ Bs I E1) as (B1 & L1 & N1 & X1).
  - destruct (y a s1) as [[r2 s2] t2] eqn:E2. destruct (Q a _ _ _ _ B1 ltac:(lia) E2) as (B2 & L2 & N2 & X2). injection E as <- <- <-. split; [exact B2|]. split; [lia|]. cbn [plus copied]. split; [lia|]. destruct r2; lia.
  - injection E as <- <- <-. split; [exact B1|]. split; [exact L1|]. split; [exact N1|]. lia.
  - injection E as <- <- <-. split; [exact B1|]. split; [exact L1|]. split; [exact N1|]. lia.
Qed.
Lemma cpd_of d g k f A (x : CostModel.M A) : cp g k f x -> 0 <= d -> cpd d g k f x.
Proof. intros P D s r s' t B I E. apply (P s r s' t B ltac:(lia) E). Qed.
Lemma cpd_weak d g k f g' A (x : CostModel.M A) : cpd d g k f x -> g' <= g -> cpd d g' k f x.
Proof. intros P G s r s' t B I E. destruct (P s r s' t B I E) as (B' & L' & N' & X). repeat (split; [assumption|]). destruct r; [|auto|auto]. destruct X. split; [lia|auto]. Qed.
Lemma put_last c s r s' t : CostModel.put_code c s = ((r, s'), t) -> r = Ok tt /\ s' = with_code c s /\ copied t = 0.
Proof. intros E. injection E as <- <- <-. auto. Qed.
Lemma cpd_update1 d B (h : code -> M B) (put : B -> code -> code) : 0 <= d ->
  (forall c s r s', h c s = (r, s') -> s' = s /\ match r with Ok b => w (put b c) <= w c + d | _ => True end) ->
  cpd d (- d) 0 0 (CostModel.bind CostModel.get_code (fun dc => CostModel.bind (CostModel.free (h dc)) (fun b => CostModel.put_code (put b dc)))).
Proof.
  intros D H s r s' t Bs I E. apply run_get in E. destruct E as (t1 & E & <-). apply run_bind in E.
  destruct E as [(b & s1 & t2 & t3 & E1 & E & ->)|(r0 & E1 & N0 & N1)]; unfold CostModel.free in E1; destruct (h (d_code s) s) as (rh, sh) eqn:Eh; injection E1 as -> -> <-; destruct (H _ _ _ _ Eh) as (-> & Hw).
  - apply put_last in E. destruct E as (-> & -> & ->). rewrite phi_with. change (d_buf (with_code (put b (d_code s)) s)) with (d_buf s). cbn [copied none]. split; [exact Bs|]. split; [lia|]. split; [lia|]. unfold CostCopies.phi. lia.
  - cbn [copied none]. split; [exact Bs|]. split; [lia|]. split; [lia|]. destruct r; [contradiction|lia|lia].
Qed.
Lemma cpd_put d A (put : code -> code) (y : CostModel.M A) g k f : 0 <= d -> (forall c, w (put c) <= w c + d) -> cp g k f y ->
  cpd d (g - d) k f (CostModel.bind CostModel.get_code (fun dc => CostModel.bind (CostModel.put_code (put dc)) (fun _ => y))).
Proof.
  intros D H P s r s' t B I E. apply run_get in E. destruct E as (t1 & E & <-). apply run_put in E. destruct E as (t4 & E & <-). specialize (H (d_code s)).
  assert (Ph : phi (with_code (put (d_code s)) s) <= phi s + d) by (rewrite phi_with; unfold CostCopies.phi; lia).
  destruct (P (with_code (put (d_code s)) s) _ _ _ B ltac:(lia) E) as (B2 & L2 & N2 & X2). change (d_buf (with_code (put (d_code s)) s)) with (d_buf s) in *. split; [exact B2|]. split; [exact L2|]. split; [lia|]. destruct r; lia.
Qed.
Lemma t_globals i : turning (fun c => CostModel.bind (CostModel.put_clone c) (fun _ => CostModel.bind (CostModel.ok_mapped CostModel.get_type) (fun r => CostModel.bind
    (match r with Some t => CostModel.bind CostModel.get_code (fun dc => CostModel.bind (CostModel.vec_insert (c_globals dc) i t) (fun gs => CostModel.put_code (set_globals gs dc))) | None => CostModel.ret tt end) (fun _ => CostModel.get_clone)))).
Proof.
  apply (turning_put _ (r <- ok_mapped get_type ;; (match r with Some t => dc <- get_code ;; gs <- vec_insert (c_globals dc) i t ;; put_code (set_globals gs dc) | None => ret tt end) ;;; get_code)).
  - eapply (cpd_bind 1 2 2 0 (-1) (-1) 0); [apply cp_okm_type; lia| |lia..]. intros r. eapply (cpd_then 1 (- (1)) 0 0 0 (-1) 0); [|intros; apply cp_getclone|lia..]. destruct r as [t|].
    + apply (cpd_update1 1 _ (fun dc => vec_insert (c_globals dc) i t) set_globals); [lia|]. intros c. apply insert_static. intros l' L. rewrite w_globals. lia.
    + apply cpd_weak with (g := 0); [apply cpd_of; [apply cp_ret; lia|lia]|lia].
  - same.
  - repeat (apply ends_bind; intros ?). apply ends_get.
Qed.
Lemma z_set_debug i (d : list Z) : cp 0 0 0 (CostModel.bind CostModel.get_code (fun dc => CostModel.bind (CostModel.expect PIndex (znth (c_functions dc) i)) (fun fi => CostModel.bind (CostModel.expect PIndex (zset (c_functions dc) i (hf_set_debug fi d))) (fun fs => CostModel.put_code (set_functions fs dc))))).
Proof.
  intros s r s' t B I E. apply run_get in E. destruct E as (t1 & E & <-). apply run_expect in E. destruct (znth (c_functions (d_code s)) i) as [fi|]; [destruct E as (t2 & E & <-)|destruct E as (-> & -> & ->); cbn [copied none]; repeat (split; [assumption || lia|]); lia].
  apply run_expect in E. destruct (zset (c_functions (d_code s)) i (hf_set_debug fi d)) as [fs|] eqn:Z1; [destruct E as (t3 & E & <-)|destruct E as (-> & -> & ->); cbn [copied none]; repeat (split; [assumption || lia|]); lia].
  apply put_last in E. destruct E as (-> & -> & ->). apply zset_len in Z1. rewrite phi_with, w_functions, Z1. change (d_buf (with_code (set_functions fs (d_code s)) s)) with (d_buf s). unfold CostCopies.phi in *. split; [exact B|]. split; [lia|]. split; [lia|]. lia.
Qed.
Lemma t_function i : turning (CostModel.read_function_entry i).
Proof.
  unfold CostModel.read_function_entry. refine (turning_put _ (f <- unwrap_mapped read_function ;; dc <- get_code ;; put_code (set_functions (c_functions dc ++ [f]) dc) ;;; dc <- get_code ;; (if negb (c_hasdebug dc =? 0) then
     fi <- expect PIndex (znth (c_functions dc) i) ;; r <- ok_mapped (debug_infos (hf_nops fi)) ;; (match r with | Some d => dc <- get_code ;; fi <- expect PIndex (znth (c_functions dc) i) ;; fs <- expect PIndex (zset (c_functions dc) i (hf_set_debug fi d)) ;; put_code (set_functions fs dc) | None => ret tt end) ;;;
     (if 3 <=? c_version dc then skip_assigns else ret tt) else ret tt) ;;; get_code) _ _ _).
  - assert (L : 0 <= K) by lia. eapply (cpd_bind 1 2 2 0 (0 - 1) (-1) 0); [apply cp_unwrap_mapped, cp_read_function; lia| |lia..]. intros f.
    apply (cpd_put 1 _ (fun dc => set_functions (c_functions dc ++ [f]) dc)); [lia|intros c; rewrite w_functions, zlen_app; change (zlen [f]) with 1; lia|].
    apply cp_get; auto. intros c _. eapply (cp_bind K q p L 0 0 0 0 (-1) 0); [|intros; apply cp_getclone|lia..].
    destruct (negb (c_hasdebug c =? 0)); [|apply cp_ret; lia]. apply bind0; [auto|apply cp_expect; auto|intros fi]. apply bind0; [auto|apply z_okm_debug; auto|intros r].
    apply bind0; [auto| |intros _; destruct (3 <=? c_version c); [apply z_skip; auto|apply cp_ret; auto]]. destruct r as [d|]; [apply z_set_debug|apply cp_ret; auto].
  - same.
  - repeat (apply ends_bind; intros ?). apply ends_get.
Qed.
(** turns that end with [decoder.code = c.clone()] *)
Lemma run_put_clone1 c s r s' t : CostModel.bind (CostModel.put_clone c) (fun _ => CostModel.ret c) s = ((r, s'), t) -> r = Ok c /\ s' = with_code c s /\ copied t = entries c.
Proof. intros E. apply run_put_clone in E. destruct E as (t' & E & ->). injection E as <- <- <-. cbn [copied none]. repeat split; lia. Qed.
Lemma turning_end A (x : CostModel.M A) (up : A -> code -> code) : cp 0 1 0 x -> (forall a c, w (up a c) <= w c + 1) -> turning (fun c => CostModel.bind x (fun a => CostModel.bind (CostModel.put_clone (up a c)) (fun _ => CostModel.ret (up a c)))).
Proof.
  intros P H c s r s' t B F I E. apply run_bind in E. destruct E as [(a & s1 & t1 & t2 & E1 & E & ->)|(r0 & E1 & N0 & N1)]; destruct (P _ _ _ _ B I E1) as (B1 & L1 & N & X1).
  - apply run_put_clone1 in E. destruct E as (-> & -> & ->). destruct X1 as (Ph & X1). specialize (H a c). unfold fits in *.
    assert (D : 1 <= len s - len s1). { destruct (Z.lt_ge_cases (len s - len s1) 1) as [D|D]; [|exact D]. assert (3 * K * (len s - len s1) <= 3 * K * 0) by (apply Z.mul_le_mono_nonneg_l; lia). lia. }
    pose proof (entries_le q p q0 p0 (up a c)). pose proof (entries_pos (up a c)). pose proof (zlen_nonneg (d_buf s1)). rewrite phi_with. change (d_buf (with_code (up a c) s1)) with (d_buf s1). split; [exact B1|]. split; [lia|]. split; [lia|]. split; [lia|]. split; lia.
  - split; [exact B1|]. split; [exact L1|]. split; [exact N|]. destruct r0; [contradiction|..]; (destruct r; [contradiction|lia|lia]).
Qed.
Lemma turning_end2 A X (x : CostModel.M A) (o : A -> code -> option X) u (up : X -> code -> code) : cp 0 1 0 x -> (forall a c b, o a c = Some b -> w (up b c) <= w c + 1) ->
  turning (fun c => CostModel.bind x (fun a => CostModel.bind (CostModel.expect u (o a c)) (fun b => CostModel.bind (CostModel.put_clone (up b c)) (fun _ => CostModel.ret (up b c))))).
Proof.
  intros P H c s r s' t B F I E. apply run_bind in E. destruct E as [(a & s1 & t1 & t2 & E1 & E & ->)|(r0 & E1 & N0 & N1)]; destruct (P _ _ _ _ B I E1) as (B1 & L1 & N & X1).
  - apply run_expect in E. destruct (o a c) as [b|] eqn:O.
    2:{ destruct E as (-> & -> & ->). destruct X1 as (Ph & X1). cbn [copied none]. split; [exact B1|]. split; [exact L1|]. split; lia. }
    destruct E as (t3 & E & <-). apply run_put_clone1 in E. destruct E as (-> & -> & ->). destruct X1 as (Ph & X1). specialize (H a c b O). unfold fits in *.
    assert (D : 1 <= len s - len s1). { destruct (Z.lt_ge_cases (len s - len s1) 1) as [D|D]; [|exact D]. assert (3 * K * (len s - len s1) <= 3 * K * 0) by (apply Z.mul_le_mono_nonneg_l; lia). lia. }
    pose proof (entries_le q p q0 p0 (up b c)). pose proof (entries_pos (up b c)). pose proof (zlen_nonneg (d_buf s1)). rewrite phi_with. change (d_buf (with_code (up b c) s1)) with (d_buf s1). split; [exact B1|]. split; [lia|]. split; [lia|]. split; [lia|]. split; lia.
  - split; [exact B1|]. split; [exact L1|]. split; [exact N|]. destruct r0; [contradiction|..]; (destruct r; [contradiction|lia|lia]).
Qed.
(** regrouping *)
Lemma plus_assoc x y z : plus (plus x y) z = plus x (plus y z). Proof. unfold plus. cbn [turns copied filled]. f_equal; lia. Qed.
Lemma plus_none x : plus none x = x. Proof. destruct x. reflexivity. Qed.
Lemma regroup A B C (x : CostModel.M A) (y : A -> CostModel.M B) (z : B -> CostModel.M C) s : CostModel.bind (CostModel.bind x y) z s = CostModel.bind x (fun a => CostModel.bind (y a) z) s.
Proof.
  unfold CostModel.bind. destruct (x s) as [[[a|e|u] s1] t1]; try reflexivity. destruct (y a s1) as [[[b|e|u] s2] t2]; try reflexivity. destruct (z b s2) as [r3 t3]. now rewrite plus_assoc.
Qed.
Lemma ret_bind A B (a : A) (y : A -> CostModel.M B) s : CostModel.bind (CostModel.ret a) y s = y a s.
Proof. unfold CostModel.bind. cbn [CostModel.ret CostModel.free]. unfold CostModel.ret, CostModel.free, ret. destruct (y a s) as [r t]. now rewrite plus_none. Qed.
Lemma bind_ext A B (x : CostModel.M A) (y z : A -> CostModel.M B) s : (forall a s, y a s = z a s) -> CostModel.bind x y s = CostModel.bind x z s.
Proof. intros H. unfold CostModel.bind. destruct (x s) as [[[a|e|u] s1] t1]; try reflexivity. now rewrite H. Qed.
Lemma turning_ext b b' : (forall c s, b c s = b' c s) -> turning b' -> turning b.
Proof. intros H T c s r s' t B F I E. rewrite H in E. exact (T _ _ _ _ _ B F I E). Qed.
Lemma t_native : turning (fun c => CostModel.bind (CostModel.unwrap_mapped CostModel.read_string) (fun lib => CostModel.bind (CostModel.unwrap_mapped CostModel.read_string) (fun name => CostModel.bind (CostModel.unwrap_mapped CostModel.get_type) (fun t =>
    CostModel.bind (CostModel.unwrap_mapped CostModel.UINDEX) (fun findex => CostModel.bind (CostModel.put_clone (set_natives (c_natives c ++ [{| n_lib := lib; n_name := name; n_t := t; n_findex := findex |}]) c)) (fun _ =>
    CostModel.ret (set_natives (c_natives c ++ [{| n_lib := lib; n_name := name; n_t := t; n_findex := findex |}]) c))))))).
Proof.
  assert (L : 0 <= K) by lia.
  eapply turning_ext; [|apply (turning_end _ (CostModel.bind (CostModel.unwrap_mapped CostModel.read_string) (fun lib => CostModel.bind (CostModel.unwrap_mapped CostModel.read_string) (fun name => CostModel.bind (CostModel.unwrap_mapped CostModel.get_type) (fun t =>
    CostModel.bind (CostModel.unwrap_mapped CostModel.UINDEX) (fun findex => CostModel.ret {| n_lib := lib; n_name := name; n_t := t; n_findex := findex |})))))  (fun n c => set_natives (c_natives c ++ [n]) c))].
  - intros c s. cbv beta. symmetry. rewrite regroup. apply bind_ext. clear s. intros a s. rewrite regroup. apply bind_ext. clear s. intros a1 s. rewrite regroup. apply bind_ext. clear s. intros a2 s. rewrite regroup. apply bind_ext. clear s. intros a3 s. rewrite ret_bind. reflexivity.
  - eapply (cp_bind K q p L 2 2 0 0 0 0); [apply cp_unwrap_mapped, cp_read_string; auto|intros|lia..]. apply bind0; [auto|apply cp_unwrap_mapped, z_string; auto|intros]. apply bind0; [auto|apply cp_unwrap_mapped, z_type; auto|intros]. apply bind0; [auto|apply cp_unwrap_mapped, z_UINDEX; auto|intros; apply cp_ret; auto].
  - intros a c. rewrite w_natives, zlen_app. change (zlen [a]) with 1. lia.
Qed.
Lemma t_constant i : turning (fun c => CostModel.bind (CostModel.unwrap_mapped CostModel.UINDEX) (fun global => CostModel.bind (CostModel.unwrap_mapped CostModel.UINDEX) (fun nfields => CostModel.bind (CostModel.for_range nfields (fun j l =>
    CostModel.bind (CostModel.unwrap_mapped CostModel.UINDEX) (fun x => CostModel.vec_insert l j x)) []) (fun fields => CostModel.bind CostModel.check_error (fun _ => CostModel.bind (CostModel.vec_insert (c_constants c) i {| k_global := global; k_nfields := nfields; k_fields := fields |})
    (fun ks => CostModel.bind (CostModel.put_clone (set_constants ks c)) (fun _ => CostModel.ret (set_constants ks c)))))))).
Proof.
  assert (L : 0 <= K) by lia.
  eapply turning_ext; [|apply (turning_end2 _ _ (CostModel.bind (CostModel.unwrap_mapped CostModel.UINDEX) (fun global => CostModel.bind (CostModel.unwrap_mapped CostModel.UINDEX) (fun nfields => CostModel.bind (CostModel.for_range nfields (fun j l =>
    CostModel.bind (CostModel.unwrap_mapped CostModel.UINDEX) (fun x => CostModel.vec_insert l j x)) []) (fun fields => CostModel.bind CostModel.check_error (fun _ => CostModel.ret {| k_global := global; k_nfields := nfields; k_fields := fields |})))))
    (fun k c => zinsert (c_constants c) i k) PInsert set_constants)].
  - intros c s. cbv beta. symmetry. rewrite regroup. apply bind_ext. clear s. intros a s. rewrite regroup. apply bind_ext. clear s. intros a1 s. rewrite regroup. apply bind_ext. clear s. intros a2 s. rewrite regroup. apply bind_ext. clear s. intros a3 s. rewrite ret_bind. reflexivity.
  - eapply (cp_bind K q p L 2 3 0 0 0 0); [apply cp_unwrap_mapped, cp_UINDEX; auto|intros|lia..]. apply bind0; [auto|apply cp_unwrap_mapped, z_UINDEX; auto|intros].
    apply bind0; [auto|apply cp_range; [auto|intros; apply bind0; [auto|apply cp_unwrap_mapped, z_UINDEX; auto|intros; apply cp_insert; auto]]|intros]. apply bind0; [auto|apply cp_check; auto|intros; apply cp_ret; auto].
  - intros a c b E. apply zinsert_len in E. rewrite w_constants. lia.
Qed.
End Sections.
