(** Turns of the reader's loops are paid for by bytes of the file, and by missing numbers (C78). *)
From Verif Require Import Prelude StdModel BrassTypes DecoderModel CodeModel ReaderSpec CodeGenericProofs CostProofs.
From Verif Require CostModel.
Import CostModel(cost, turns, copied, filled, none, plus).
From Coq Require Import Lia.

(** how often the reader found that a number is missing *)
Definition short (e : derr) : bool := match e_kind e with NoMoreData => true | _ => false end.
Definition shorts (l : list derr) : Z := zlen (filter short l).
Lemma shorts_app a b : shorts (a ++ b) = shorts a + shorts b. Proof. unfold shorts. now rewrite filter_app, zlen_app. Qed.
Lemma shorts_nonneg a : 0 <= shorts a. Proof. apply zlen_nonneg. Qed.
Definition gain (s s' : st) : Z := zlen (d_buf s) - zlen (d_buf s') + (shorts (d_log s') - shorts (d_log s)).
(** [k]: turns left over; [f]: turns owed when the run ends early *)
Definition pays (k f : Z) {A} (x : CostModel.M A) : Prop := forall s r s' t, bytes (d_buf s) -> x s = ((r, s'), t) ->
  bytes (d_buf s') /\ 0 <= turns t /\ match r with Ok _ => turns t + k <= gain s s' | _ => turns t <= gain s s' + f end.

Lemma pays_weak k f k' f' A (x : CostModel.M A) : pays k f x -> k' <= k -> f <= f' -> pays k' f' x.
Proof. intros P K F s r s' t B E. destruct (P s r s' t B E) as (B' & N & X). split; [exact B'|]. split; [exact N|]. destruct r; lia. Qed.
Lemma pays_bind k1 f1 k2 f2 k f A B (x : CostModel.M A) (y : A -> CostModel.M B) : pays k1 f1 x -> (forall a, pays k2 f2 (y a)) -> k <= k1 + k2 -> f1 <= f -> f2 - k1 <= f -> pays k f (CostModel.bind x y).
Proof.
  intros P Q K F1 F2 s r s' t Bs E. unfold CostModel.bind in E. destruct (x s) as [[[a|e|q] s1] t1] eqn:E1; destruct (P _ _ _ _ Bs E1) as (B1 & N1 & X1).
  - destruct (y a s1) as [[r2 s2] t2] eqn:E2. destruct (Q a _ _ _ _ B1 E2) as (B2 & N2 & X2). injection E as <- <- <-. split; [exact B2|]. cbn [plus turns]. split; [lia|]. unfold gain in *. destruct r2; lia.
  - injection E as <- <- <-. split; [exact B1|]. split; [exact N1|]. lia.
  - injection E as <- <- <-. split; [exact B1|]. split; [exact N1|]. lia.
Qed.
Lemma fwd_gain s s' : bytes (d_buf s) -> fwd s s' -> bytes (d_buf s') /\ 0 <= gain s s'.
Proof.
  intros B ((used & E & _) & _ & (l & El & _)). unfold gain. rewrite E, El, zlen_app, shorts_app. pose proof (zlen_nonneg used). pose proof (shorts_nonneg l).
  split; [|lia]. unfold bytes in *. rewrite E in B. apply Forall_app in B. apply B.
Qed.
Lemma pays_free A (m : M A) : Good true m -> pays 0 0 (CostModel.free m).
Proof.
  intros G s r s' t B E. unfold CostModel.free in E. destruct (m s) as (r0, s0) eqn:E0. injection E as <- <- <-. destruct (fwd_gain _ _ B (g_fwd _ _ G _ _ _ B E0)). cbn [turns none]. split; [auto|]. split; [lia|]. destruct r0; lia.
Qed.
(** reads at least one byte if it ends normally *)
Definition eats1 {A} (m : M A) : Prop := forall s a s', m s = (Ok a, s') -> (length (d_buf s') < length (d_buf s))%nat.
Lemma log_grows s s' : fwd s s' -> shorts (d_log s) <= shorts (d_log s').
Proof. intros (_ & _ & (l & -> & _)). rewrite shorts_app. pose proof (shorts_nonneg l). lia. Qed.
Lemma pays_eats A (m : M A) : Good true m -> eats1 m -> pays 1 0 (CostModel.free m).
Proof.
  intros G W s r s' t B E. unfold CostModel.free in E. destruct (m s) as (r0, s0) eqn:E0. injection E as <- <- <-. pose proof (g_fwd _ _ G _ _ _ B E0) as Fw. destruct (fwd_gain _ _ B Fw) as (B' & N). cbn [turns none]. split; [auto|]. split; [lia|].
  destruct r0; [|lia|lia]. apply W in E0. apply log_grows in Fw. unfold gain, zlen in *. lia.
Qed.
Lemma eats1_bind A B (m : M A) (k : A -> M B) : eats1 m -> (forall a s r s', k a s = (r, s') -> (length (d_buf s') <= length (d_buf s))%nat) -> eats1 (bind m k).
Proof. intros W1 W2 s b s' E. unfold bind in E. destruct (m s) as [[a|e|q] s1] eqn:E1; [|discriminate|discriminate]. apply W1 in E1. apply W2 in E. lia. Qed.
Lemma read_bytes_len n s r s' : read_bytes n s = (r, s') -> (length (d_buf s') <= length (d_buf s))%nat.
Proof. unfold read_bytes. destruct (_ <? _); intros E; injection E as <- <-; [auto|]. cbn [d_buf]. rewrite skipn_length. lia. Qed.
Lemma eats1_bytes n : 0 < n -> eats1 (read_bytes n).
Proof. intros N s a s' E. unfold read_bytes in E. destruct (Z.ltb_spec (zlen (d_buf s)) n) as [L|L]; [discriminate|]. injection E as <- <-. cbn [d_buf]. rewrite skipn_length. unfold zlen in L. lia. Qed.
Lemma eats1_u n : 0 < n -> eats1 (decode_unsigned n). Proof. intros N. apply eats1_bind; [now apply eats1_bytes|]. intros a s r s' E. injection E as <- <-. auto. Qed.
Lemma eats1_s n : 0 < n -> eats1 (decode_signed n). Proof. intros N. apply eats1_bind; [now apply eats1_bytes|]. intros a s r s' E. injection E as <- <-. auto. Qed.
Definition shrinks {A} (m : M A) : Prop := forall s r s', m s = (r, s') -> (length (d_buf s') <= length (d_buf s))%nat.
Lemma shrinks_bind A B (m : M A) (k : A -> M B) : shrinks m -> (forall a, shrinks (k a)) -> shrinks (bind m k).
Proof. intros W1 W2 s r s' E. unfold bind in E. destruct (m s) as [[a|e|q] s1] eqn:E1; pose proof (W1 _ _ _ E1); [apply W2 in E; lia|injection E as <- <-; lia|injection E as <- <-; lia]. Qed.
Lemma shrinks_ret A (a : A) : shrinks (ret a). Proof. intros s r s' E. injection E as <- <-. auto. Qed.
Lemma shrinks_unwrap A (m : M A) : shrinks m -> shrinks (unwrap m).
Proof. intros W s r s' E. unfold unwrap in E. destruct (m s) as [[a|e|q] s1] eqn:E1; apply W in E1; injection E as <- <-; auto. Qed.
Lemma shrinks_u8 : shrinks decode_u8. Proof. apply shrinks_bind; [intros s r s'; apply read_bytes_len|intros; apply shrinks_ret]. Qed.
Lemma eats1_unwrap A (m : M A) : eats1 m -> eats1 (unwrap m).
Proof. intros W s a s' E. unfold unwrap in E. destruct (m s) as [[x|e|q] s1] eqn:E1; try discriminate. apply W in E1. now injection E as <- <-. Qed.
Lemma eats1_unwrap_mapped A (m : M A) : eats1 m -> eats1 (unwrap_mapped m).
Proof. intros W s a s' E. unfold unwrap_mapped in E. destruct (m s) as [[x|e|q] s1] eqn:E1; try discriminate. apply W in E1. now injection E as <- <-. Qed.
Lemma eats1_INDEX : eats1 INDEX.
Proof.
  apply eats1_unwrap. unfold read_index. apply eats1_bind; [now apply eats1_u|]. intros b. match goal with |- forall s r s', ?m s = _ -> _ => change (shrinks m) end. cbv zeta.
  repeat first [apply shrinks_ret|apply shrinks_u8|apply shrinks_unwrap|apply shrinks_bind; [|intros]|match goal with |- shrinks (if ?b then _ else _) => destruct b end].
Qed.
Lemma eats1_UINDEX : eats1 UINDEX.
Proof. apply eats1_bind; [apply eats1_unwrap_mapped, eats1_INDEX|]. intros a s r s' E. destruct (a <? 0); cbv in E; injection E as <- <-; auto. Qed.

Lemma pays_turn : pays (-1) 0 CostModel.turn.
Proof. intros s r s' t B E. injection E as <- <- <-. cbn [turns]. unfold gain. split; [auto|]. lia. Qed.
Lemma pays_copy n : pays 0 0 (CostModel.copy n).
Proof. intros s r s' t B E. injection E as <- <- <-. cbn [turns]. unfold gain. split; [auto|]. lia. Qed.
Lemma pays_fill n : pays 0 0 (CostModel.fill n).
Proof. intros s r s' t B E. injection E as <- <- <-. cbn [turns]. unfold gain. split; [auto|]. lia. Qed.
Lemma gain_log s s1 s2 : d_buf s2 = d_buf s1 -> (exists l, d_log s2 = d_log s1 ++ l) -> gain s s1 <= gain s s2.
Proof. intros Eb (l & El). unfold gain. rewrite Eb, El, shorts_app. pose proof (shorts_nonneg l). lia. Qed.
Lemma pays_unwrap k f A (x : CostModel.M A) : pays k f x -> pays k f (CostModel.unwrap x).
Proof.
  intros P s r s' t B E. unfold CostModel.unwrap, CostModel.on, unwrap in E. destruct (x s) as [[[a|e|q] s1] t1] eqn:E1; destruct (P _ _ _ _ B E1) as (B1 & N1 & X1); injection E as <- <- <-; auto.
Qed.
Lemma pays_unwrap_mapped k f A (x : CostModel.M A) : pays k f x -> pays k f (CostModel.unwrap_mapped x).
Proof.
  intros P s r s' t B E. unfold CostModel.unwrap_mapped, CostModel.on, unwrap_mapped in E. destruct (x s) as [[[a|e|q] s1] t1] eqn:E1; destruct (P _ _ _ _ B E1) as (B1 & N1 & X1); injection E as <- <- <-; auto.
  split; [exact B1|]. split; [auto|]. pose proof (gain_log s s1 (snd (map_err e s1)) eq_refl (ex_intro _ [e] eq_refl)) as Y. unfold gain in *. cbn [map_err snd d_buf d_log] in *. lia.
Qed.
Definition noerr {A} (m : M A) : Prop := forall s e s', m s <> (Err e, s').
Lemma pays_ok_mapped k f A (x : CostModel.M A) (m : M A) : same x m -> noerr m -> pays k f x -> pays k f (CostModel.ok_mapped x).
Proof.
  intros S N P s r s' t B E. unfold CostModel.ok_mapped, CostModel.on, ok_mapped in E. pose proof (S s) as Es. destruct (x s) as [[[a|e|q] s1] t1] eqn:E1; destruct (P _ _ _ _ B E1) as (B1 & N1 & X1); injection E as <- <- <-; auto.
  exfalso. cbn [fst] in Es. now apply (N s e s1).
Qed.
Lemma pays_ok k f A (x : CostModel.M A) (m : M A) : same x m -> noerr m -> pays k f x -> pays k f (CostModel.ok x).
Proof.
  intros S N P s r s' t B E. unfold CostModel.ok, CostModel.on, ok in E. pose proof (S s) as Es. destruct (x s) as [[[a|e|q] s1] t1] eqn:E1; destruct (P _ _ _ _ B E1) as (B1 & N1 & X1); injection E as <- <- <-; auto.
  exfalso. cbn [fst] in Es. now apply (N s e s1).
Qed.
(** the loops: each turn reads *)
Lemma pays_for A n : forall i (x : Z -> A -> CostModel.M A) acc, (forall i a, pays 1 0 (x i a)) -> pays 0 1 (CostModel.for_loop n i x acc).
Proof.
  induction n as [|n IH]; intros i x acc P; cbn [CostModel.for_loop].
  - eapply pays_weak; [apply pays_free, good_ret|lia|lia].
  - eapply (pays_bind (-1) 0 1 0); [apply pays_turn| |lia|lia|lia]. intros _. eapply (pays_bind 1 0 0 1); [apply P|intros a; now apply IH|lia|lia|lia].
Qed.
Lemma pays_range A n (x : Z -> A -> CostModel.M A) acc : (forall i a, pays 1 0 (x i a)) -> pays 0 1 (CostModel.for_range n x acc). Proof. apply pays_for. Qed.
Lemma pays_get : pays 0 0 CostModel.get_clone.
Proof. intros s r s' t B E. injection E as <- <- <-. cbn [turns plus none]. unfold gain. split; [auto|]. lia. Qed.
Lemma pays_put c : pays 0 0 (CostModel.put_clone c).
Proof. intros s r s' t B E. injection E as <- <- <-. cbn [turns plus none]. unfold gain. cbn [d_buf d_log]. split; [auto|]. lia. Qed.

Lemma p_ret A (a : A) : pays 0 0 (CostModel.ret a). Proof. apply pays_free, good_ret. Qed.
Lemma p_throw A e : pays 0 0 (@CostModel.throw A e). Proof. apply pays_free, good_throw. Qed.
Lemma p_crash A q : pays 0 0 (@CostModel.crash A q). Proof. apply pays_free, good_crash_true. Qed.
Lemma p_pos : pays 0 0 CostModel.get_pos. Proof. apply pays_free, good_get_pos. Qed.
Lemma p_code : pays 0 0 CostModel.get_code. Proof. apply pays_free, good_get_code. Qed.
Lemma p_put c : pays 0 0 (CostModel.put_code c). Proof. apply pays_free, good_put_code. Qed.
Lemma p_expect A q (o : option A) : pays 0 0 (CostModel.expect q o).
Proof. destruct o; [apply p_ret|apply p_crash]. Qed.
Lemma p_record e : pays 0 0 (CostModel.record_error e). Proof. apply pays_free, good_record_error. Qed.
Lemma p_map e : pays 0 0 (CostModel.map_err e). Proof. apply pays_free, good_map_err. Qed.
Lemma p_check : pays 0 0 CostModel.check_error. Proof. apply pays_free, good_check_error. Qed.
Lemma p_ok_check : pays 0 0 (CostModel.ok CostModel.check_error).
Proof. intros s r s' t B E. unfold CostModel.ok, CostModel.on, CostModel.check_error, CostModel.free, ok, check_error in E. destruct (errs s); injection E as <- <- <-; cbn [turns none]; unfold gain; split; auto; lia. Qed.
Lemma p_insert A (l : list A) i x : pays 0 0 (CostModel.vec_insert l i x). Proof. apply pays_free, good_vec_insert. Qed.
Lemma p_advance n : pays 0 0 (CostModel.advance n).
Proof.
  intros s r s' t B E. unfold CostModel.advance, CostModel.free, advance in E. destruct (_ <? _); injection E as <- <- <-; cbn [turns none]; unfold gain; cbn [d_buf d_log]; [split; [auto|lia]|].
  split; [unfold bytes in *; rewrite <- (firstn_skipn (Z.to_nat n) (d_buf s)) in B; apply Forall_app in B; apply B|]. unfold zlen. rewrite skipn_length. lia.
Qed.
Lemma p_bytes n : pays 0 0 (CostModel.read_bytes n).
Proof.
  intros s r s' t B E. unfold CostModel.read_bytes, CostModel.free, read_bytes in E. destruct (_ <? _); injection E as <- <- <-; cbn [turns none]; unfold gain; cbn [d_buf d_log]; [split; [auto|lia]|].
  split; [unfold bytes in *; rewrite <- (firstn_skipn (Z.to_nat n) (d_buf s)) in B; apply Forall_app in B; apply B|]. unfold zlen. rewrite skipn_length. lia.
Qed.
Lemma p_slice n : pays 0 0 (CostModel.free (fun s => if zlen (d_buf s) <? n then (Panic PSlice, s) else (Ok (firstn (Z.to_nat n) (d_buf s)), s))).
Proof. intros s r s' t B E. unfold CostModel.free in E. destruct (_ <? _); injection E as <- <- <-; cbn [turns none]; unfold gain; split; auto; lia. Qed.
Lemma p_to_i32 x : pays 0 0 (CostModel.to_i32 x). Proof. apply pays_free, good_to_i32. Qed.
Lemma p_lift A (r : res derr A) : pays 0 0 (CostModel.lift r).
Proof. intros s r' s' t B E. injection E as <- <- <-. cbn [turns none]. unfold gain. split; [auto|]. split; [lia|]. destruct r; lia. Qed.
Lemma p_i32_add x y : pays 0 0 (CostModel.i32_add x y). Proof. apply pays_free, good_i32_add. Qed.
Lemma p_store d i f l : pays 0 0 (CostModel.debug_store d i f l). Proof. apply pays_free, good_debug_store. Qed.
Lemma p_magic c : pays 0 0 (CostModel.read_magic c). Proof. apply pays_free, good_read_magic. Qed.
Lemma p_count f c : pays 0 0 (CostModel.read_count f c). Proof. apply pays_free, good_read_count. Qed.
Lemma p_counts c : pays 0 0 (CostModel.read_counts c). Proof. apply pays_free, good_read_counts. Qed.
Lemma p_i32 : pays 0 0 CostModel.decode_i32. Proof. apply pays_free, good_i32. Qed.
Lemma c_u8 : pays 1 0 CostModel.decode_u8. Proof. apply pays_eats; [apply good_u8|now apply eats1_u]. Qed.
Lemma c_INDEX : pays 1 0 CostModel.INDEX. Proof. apply pays_eats; [apply good_INDEX|apply eats1_INDEX]. Qed.
Lemma c_UINDEX : pays 1 0 CostModel.UINDEX. Proof. apply pays_eats; [apply good_UINDEX|apply eats1_UINDEX]. Qed.
Lemma INDEX_noerr : noerr INDEX. Proof. intros s e s'. apply unwrap_noerr. Qed.
Lemma c_ok_UINDEX : pays 1 0 (CostModel.ok CostModel.UINDEX). Proof. apply (pays_ok _ _ _ _ UINDEX); [apply same_free|exact UINDEX_noerr|apply c_UINDEX]. Qed.
Lemma c_okm_UINDEX : pays 1 0 (CostModel.ok_mapped CostModel.UINDEX). Proof. apply (pays_ok_mapped _ _ _ _ UINDEX); [apply same_free|exact UINDEX_noerr|apply c_UINDEX]. Qed.
Lemma c_ok_INDEX : pays 1 0 (CostModel.ok CostModel.INDEX). Proof. apply (pays_ok _ _ _ _ INDEX); [apply same_free|exact INDEX_noerr|apply c_INDEX]. Qed.
(** a number, or one more missing *)
Lemma c_number n (dec : M Z) : 0 < n -> dec = decode_signed n \/ dec = decode_unsigned n -> pays 1 0 (CostModel.ok_mapped (CostModel.free dec)).
Proof.
  intros N D s r s' t B E. unfold CostModel.ok_mapped, CostModel.on, CostModel.free, ok_mapped in E.
  assert (X : (exists v, dec s = (Ok v, {| d_buf := skipn (Z.to_nat n) (d_buf s); d_pos := d_pos s + n; d_code := d_code s; errs := errs s; d_log := d_log s |}) /\ n <= zlen (d_buf s)) \/ dec s = (Err (with_info NoMoreData (d_pos s)), s)).
  { destruct D as [-> | ->]; unfold decode_signed, decode_unsigned, bind, read_bytes; destruct (Z.ltb_spec (zlen (d_buf s)) n); [right; reflexivity|left|right; reflexivity|left]; eexists; (split; [reflexivity|lia]). }
  destruct X as [(v & X & L)|X]; rewrite X in E; cbn [fst] in E; injection E as <- <- <-; cbn [turns none]; unfold gain; cbn [d_buf d_log map_err snd].
  - split; [unfold bytes in *; rewrite <- (firstn_skipn (Z.to_nat n) (d_buf s)) in B; apply Forall_app in B; apply B|]. unfold zlen in *. rewrite skipn_length. lia.
  - split; [exact B|]. rewrite shorts_app. unfold shorts at 2. cbn. change (zlen [with_info NoMoreData (d_pos s)]) with 1. lia.
Qed.

Create HintDb pays.
#[export] Hint Resolve p_ret p_throw p_crash p_pos p_code p_put p_expect p_record p_map p_check p_ok_check p_insert p_advance p_bytes p_slice p_to_i32 p_lift p_i32_add p_store p_magic p_count p_counts p_i32 pays_get pays_put pays_copy pays_fill : pays.
#[export] Hint Resolve c_u8 c_INDEX c_UINDEX c_ok_UINDEX c_okm_UINDEX c_ok_INDEX : pays.
Lemma weak_a A (x : CostModel.M A) : pays 1 0 x -> pays 0 0 x. Proof. intros P. eapply pays_weak; [exact P|lia|lia]. Qed.
Lemma weak_b A (x : CostModel.M A) : pays 0 0 x -> pays 0 1 x. Proof. intros P. eapply pays_weak; [exact P|lia|lia]. Qed.
Lemma bind_b A B (x : CostModel.M A) (y : A -> CostModel.M B) : pays 0 1 x -> (forall a, pays 0 1 (y a)) -> pays 0 1 (CostModel.bind x y). Proof. intros P Q. eapply (pays_bind 0 1 0 1); eauto; lia. Qed.
Lemma bind_a A B (x : CostModel.M A) (y : A -> CostModel.M B) : pays 0 0 x -> (forall a, pays 0 0 (y a)) -> pays 0 0 (CostModel.bind x y). Proof. intros P Q. eapply (pays_bind 0 0 0 0); eauto; lia. Qed.
Lemma bind_c A B (x : CostModel.M A) (y : A -> CostModel.M B) : pays 1 0 x -> (forall a, pays 0 1 (y a)) -> pays 1 0 (CostModel.bind x y). Proof. intros P Q. eapply (pays_bind 1 0 0 1); eauto; lia. Qed.
Lemma bind_ac A B (x : CostModel.M A) (y : A -> CostModel.M B) : pays 0 0 x -> (forall a, pays 1 0 (y a)) -> pays 1 0 (CostModel.bind x y). Proof. intros P Q. eapply (pays_bind 0 0 1 0); eauto; lia. Qed.
(** one turn of a loop *)
Lemma turn_b A (y : CostModel.M A) : pays 1 0 y -> pays 0 1 (CostModel.bind CostModel.turn (fun _ => y)). Proof. intros P. eapply (pays_bind (-1) 0 1 0); [apply pays_turn|intros _; exact P|lia..]. Qed.
Ltac hint := solve [auto 2 with pays nocore].
Ltac ma := repeat first [hint | apply weak_a; hint | apply pays_unwrap | apply pays_unwrap_mapped | (apply bind_a; [|intros ?]) | match goal with |- pays _ _ (if ?b then _ else _) => destruct b | |- pays _ _ (match ?r with _ => _ end) => destruct r end].
Ltac mb := repeat first [hint | apply weak_b; hint | apply weak_b, weak_a; hint | apply pays_unwrap | apply pays_unwrap_mapped | (apply bind_b; [|intros ?]) | match goal with |- pays _ _ (if ?b then _ else _) => destruct b | |- pays _ _ (match ?r with _ => _ end) => destruct r end].
(** the first action reads *)
Ltac mc := repeat first [hint | apply pays_unwrap | apply pays_unwrap_mapped | (apply bind_c; [hint|intros ?; mb]) | (apply bind_c; [apply pays_unwrap; hint|intros ?; mb]) | (apply bind_c; [apply pays_unwrap_mapped; hint|intros ?; mb]) | (apply bind_ac; [solve [ma]|intros ?])].

Lemma c_read_string : pays 1 0 CostModel.read_string. Proof. unfold CostModel.read_string. mc. Qed.
Lemma c_read_ustring : pays 1 0 CostModel.read_ustring. Proof. unfold CostModel.read_ustring. mc. Qed.
Lemma c_get_type : pays 1 0 CostModel.get_type. Proof. unfold CostModel.get_type. mc. Qed.
#[export] Hint Resolve c_read_string c_read_ustring c_get_type : pays.
Lemma b_read_fields n : pays 0 1 (CostModel.read_fields n). Proof. apply pays_range. intros. mc. Qed.
Lemma b_read_protos n : pays 0 1 (CostModel.read_protos n). Proof. apply pays_range. intros. mc. Qed.
Lemma b_read_bindings n : pays 0 1 (CostModel.read_bindings n). Proof. apply pays_range. intros. mc. Qed.
Lemma b_read_type_refs n : pays 0 1 (CostModel.read_type_refs n). Proof. apply pays_range. intros. mc. Qed.
#[export] Hint Resolve b_read_fields b_read_protos b_read_bindings b_read_type_refs : pays.
Lemma b_read_constructs n : pays 0 1 (CostModel.read_constructs n). Proof. apply pays_range. intros. mc. Qed.
#[export] Hint Resolve b_read_constructs : pays.
Lemma c_read_type : pays 1 0 CostModel.read_type. Proof. unfold CostModel.read_type. mc. Qed.
Lemma b_strings_loop n : forall text cur ss lens, pays 0 1 (CostModel.strings_loop n text cur ss lens).
Proof. induction n as [|n IH]; intros; cbn [CostModel.strings_loop]; [mb|]. apply turn_b. mc. Qed.
#[export] Hint Resolve c_read_type b_strings_loop : pays.
Lemma b_read_strings n l : pays 0 1 (CostModel.read_strings n l). Proof. unfold CostModel.read_strings. cbv zeta. mb. Qed.
#[export] Hint Resolve b_read_strings : pays.
Lemma b_read_extra x n : pays 1 0 x -> pays 0 1 (CostModel.read_extra x n). Proof. intros P. unfold CostModel.read_extra. apply bind_b; [mb|intros _]. apply pays_range. intros. apply bind_c; [now apply pays_unwrap|intros; mb]. Qed.
#[export] Hint Resolve b_read_extra : pays.
Lemma c_read_opcode : pays 1 0 CostModel.read_opcode. Proof. unfold CostModel.read_opcode. cbv zeta. mc. Qed.
#[export] Hint Resolve c_read_opcode : pays.
Lemma b_regs n l : pays 0 1 (CostModel.for_range n (fun i regs => CostModel.bind (CostModel.unwrap_mapped CostModel.get_type) (fun t => CostModel.vec_insert regs i t)) l). Proof. apply pays_range. intros. mc. Qed.
Lemma b_ops n l : pays 0 1 (CostModel.for_range n (fun i ops => CostModel.bind (CostModel.unwrap CostModel.read_opcode) (fun t => CostModel.vec_insert ops i t)) l). Proof. apply pays_range. intros. mc. Qed.
#[export] Hint Resolve b_regs b_ops : pays.
Lemma c_read_function : pays 1 0 CostModel.read_function. Proof. unfold CostModel.read_function. mc. Qed.
Lemma b_debug_loop n : forall nops i f l d, pays 0 1 (CostModel.debug_loop n nops i f l d).
Proof. induction n as [|n IH]; intros; cbn [CostModel.debug_loop]; [mb|]. destruct (i <? nops); [|mb]. apply turn_b. cbv zeta. mc. Qed.
Lemma b_debug_infos n : pays 0 1 (CostModel.debug_infos n). Proof. intros s r s' t B E. unfold CostModel.debug_infos in E. revert B E. revert r s' t. generalize (S (length (d_buf s))). intros k. match goal with |- forall r s' t, _ -> ?m s = _ -> _ => assert (P : pays 0 1 m) by (apply bind_b; [mb|intros _; apply b_debug_loop]); exact (P s) end. Qed.
#[export] Hint Resolve c_read_function b_debug_infos : pays.
(** * Functions that never return [Err] *)
Lemma noerr_ret A (a : A) : noerr (ret a). Proof. intros s e s'. discriminate. Qed.
Lemma noerr_crash A q : noerr (@crash A q). Proof. intros s e s'. discriminate. Qed.
Lemma noerr_expect A q (o : option A) : noerr (expect q o). Proof. destruct o; intros s e s'; discriminate. Qed.
Lemma noerr_bind A B (m : M A) (k : A -> M B) : noerr m -> (forall a, noerr (k a)) -> noerr (bind m k).
Proof. intros N1 N2 s e s' E. unfold bind in E. destruct (m s) as [[a|e1|q] s1] eqn:E1; [now apply N2 in E|now apply N1 in E1|discriminate]. Qed.
Lemma noerr_unwrap A (m : M A) : noerr (unwrap m). Proof. intros s e s'. apply unwrap_noerr. Qed.
Lemma noerr_pos : noerr get_pos. Proof. intros s e s'. discriminate. Qed.
Lemma noerr_code : noerr get_code. Proof. intros s e s'. discriminate. Qed.
Lemma noerr_record e0 : noerr (record_error e0). Proof. intros s e s'. discriminate. Qed.
Ltac ne := repeat first [apply noerr_ret|apply noerr_crash|apply noerr_expect|apply noerr_unwrap|apply noerr_pos|apply noerr_code|apply noerr_record|(apply noerr_bind; [|intros ?])|match goal with |- noerr (if ?b then _ else _) => destruct b end].
Lemma noerr_get_type : noerr get_type. Proof. unfold get_type, to_i32. ne. Qed.
Lemma noerr_strings_loop n : forall text cur ss lens, noerr (strings_loop n text cur ss lens).
Proof. induction n as [|n IH]; intros; cbn [strings_loop]; cbv zeta; ne. apply IH. Qed.
Lemma noerr_read_strings n l : noerr (read_strings n l).
Proof.
  unfold read_strings. apply noerr_bind; [ne|]. intros x. cbv zeta. intros s e s' E. unfold bind at 1 in E. destruct (zlen (d_buf s) <? i32_as_usize x) eqn:L; [discriminate|].
  unfold bind, advance in E. rewrite L in E. now apply noerr_strings_loop in E.
Qed.
Lemma noerr_debug_loop n : forall nops i f l d, noerr (debug_loop n nops i f l d).
Proof. induction n as [|n IH]; intros; cbn [debug_loop]; unfold to_i32, i32_add, debug_store; cbv zeta; ne; try apply IH. Qed.
Lemma noerr_debug_infos n : noerr (debug_infos n). Proof. intros s. apply noerr_debug_loop. Qed.

(** * Sections *)
Lemma c_okm_get_type : pays 1 0 (CostModel.ok_mapped CostModel.get_type). Proof. apply (pays_ok_mapped _ _ _ _ get_type); [apply same_get_type|exact noerr_get_type|apply c_get_type]. Qed.
Lemma b_okm_strings n l : pays 0 1 (CostModel.ok_mapped (CostModel.read_strings n l)). Proof. apply (pays_ok_mapped _ _ _ _ (read_strings n l)); [apply same_read_strings|exact (noerr_read_strings n l)|apply b_read_strings]. Qed.
Lemma b_okm_debug n : pays 0 1 (CostModel.ok_mapped (CostModel.debug_infos n)). Proof. apply (pays_ok_mapped _ _ _ _ (debug_infos n)); [apply same_debug_infos|exact (noerr_debug_infos n)|apply b_debug_infos]. Qed.
#[export] Hint Resolve c_okm_get_type b_okm_strings b_okm_debug : pays.
Lemma b_read_table w dec n : 0 < w -> dec = decode_signed w \/ dec = decode_unsigned w -> pays 0 1 (CostModel.read_table (CostModel.free dec) n).
Proof. intros W D. apply pays_range. intros i l. apply bind_c; [now apply (c_number w)|intros r; mb]. Qed.
Lemma b_ints c : pays 0 1 (CostModel.read_ints c). Proof. unfold CostModel.read_ints. apply bind_b; [apply (b_read_table 4); [lia|now left]|intros; mb]. Qed.
Lemma b_floats c : pays 0 1 (CostModel.read_floats c). Proof. unfold CostModel.read_floats. apply bind_b; [apply (b_read_table 8); [lia|now right]|intros; mb]. Qed.
Lemma b_string_table c : pays 0 1 (CostModel.read_string_table c). Proof. unfold CostModel.read_string_table. cbv zeta. mb. Qed.
Lemma b_bytes_section c : pays 0 1 (CostModel.read_bytes_section c).
Proof. unfold CostModel.read_bytes_section. destruct (5 <=? c_version c); [|mb]. do 4 (apply bind_b; [mb|intros]). apply bind_b; [apply pays_range; intros; mc|intros; mb]. Qed.
Lemma b_debugfiles c : pays 0 1 (CostModel.read_debugfiles c). Proof. unfold CostModel.read_debugfiles. mb. Qed.
Lemma b_types c : pays 0 1 (CostModel.read_types c). Proof. unfold CostModel.read_types. apply bind_b; [mb|intros _]. apply pays_range. intros. mc. Qed.
Lemma b_globals c : pays 0 1 (CostModel.read_globals c). Proof. unfold CostModel.read_globals. apply bind_b; [mb|intros _]. apply bind_b; [apply pays_range; intros; mc|intros; mb]. Qed.
Lemma b_natives c : pays 0 1 (CostModel.read_natives c). Proof. unfold CostModel.read_natives. cbv zeta. apply bind_b; [apply pays_range; intros; mc|intros; mb]. Qed.
Lemma b_skip : pays 0 1 CostModel.skip_assigns. Proof. unfold CostModel.skip_assigns. apply bind_b; [mb|intros]. apply pays_range. intros. mc. Qed.
#[export] Hint Resolve b_skip : pays.
Lemma c_function_entry i c : pays 1 0 (CostModel.read_function_entry i c). Proof. unfold CostModel.read_function_entry. mc. Qed.
#[export] Hint Resolve c_function_entry : pays.
Lemma b_functions c : pays 0 1 (CostModel.read_functions c). Proof. unfold CostModel.read_functions. apply bind_b; [apply pays_range; intros; mc|intros; mb]. Qed.
Lemma b_constants c : pays 0 1 (CostModel.read_constants c).
Proof.
  unfold CostModel.read_constants. cbv zeta. apply pays_range. intros. apply bind_c; [apply pays_unwrap_mapped; hint|intros]. apply bind_b; [mb|intros]. apply bind_b; [apply pays_range; intros; mc|intros; mb].
Qed.
#[export] Hint Resolve b_ints b_floats b_string_table b_bytes_section b_debugfiles b_types b_globals b_natives b_functions b_constants : pays.
Lemma b_code_read : pays 0 1 CostModel.code_read. Proof. unfold CostModel.code_read. cbv zeta. mb. Qed.
