(** What every accepted read produces: a small Hoare logic for error-free runs, and table sizes. *)
From Verif Require Import Prelude StdModel BrassTypes DecoderModel CodeModel FormatSpec ReaderSpec
  CodeGenericProofs Utf8Proofs FormatProofs StringsProofs.
From Coq Require Import Lia.

(** If [m] succeeds without any error recorded, its result and the decoder's module satisfy [Q]. *)
Definition hoare {A} (P : code -> Prop) (m : M A) (Q : A -> code -> Prop) : Prop :=
  forall s a s', bytes (d_buf s) -> P (d_code s) -> m s = (Ok a, s') -> errs s' = None -> Q a (d_code s').

Lemma h_ret {A} (P : code -> Prop) (a : A) (Q : A -> code -> Prop) : (forall d, P d -> Q a d) -> hoare P (ret a) Q.
Proof. intros H s x s' _ HP E _. inversion E; subst. auto. Qed.
Lemma h_bind {A B} P (m : M A) Q (k : A -> M B) R :
  hoare P m Q -> Good true m -> (forall a, Good true (k a)) -> (forall a, hoare (Q a) (k a) R) -> hoare P (bind m k) R.
Proof.
  intros Hm Gm Gk Hk s b s' B0 HP E N. unfold bind in E. destruct (m s) as [[a|e|p] s1] eqn:Em; try discriminate.
  pose proof (g_fwd _ _ Gm _ _ _ B0 Em) as F1.
  assert (B1 : bytes (d_buf s1)) by (eapply fwd_bytes; eauto).
  pose proof (g_fwd _ _ (Gk a) _ _ _ B1 E) as [_ F2].
  assert (N1 : errs s1 = None) by (destruct (errs s1); [exfalso; apply F2; congruence|reflexivity]).
  eapply Hk; eauto.
Qed.
Lemma h_conseq {A} (P P' : code -> Prop) (m : M A) (Q Q' : A -> code -> Prop) :
  hoare P m Q -> (forall d, P' d -> P d) -> (forall a d, Q a d -> Q' a d) -> hoare P' m Q'.
Proof. intros H HP HQ s a s' B P0 E N. eapply HQ, H; eauto. Qed.
Lemma h_pre {A} (P P' : code -> Prop) (m : M A) Q : hoare P m Q -> (forall d, P' d -> P d) -> hoare P' m Q.
Proof. intros H HP. eapply h_conseq; eauto. Qed.
Lemma h_unwrap {A} P (m : M A) Q : hoare P m Q -> hoare P (unwrap m) Q.
Proof.
  intros H s a s' B HP E N. unfold unwrap in E. destruct (m s) as [[x|e|p] s1] eqn:Em; inversion E; subst. eapply H; eauto.
Qed.
Lemma h_unwrap_mapped {A} P (m : M A) Q : hoare P m Q -> hoare P (unwrap_mapped m) Q.
Proof.
  intros H s a s' B HP E N. unfold unwrap_mapped in E. destruct (m s) as [[x|e|p] s1] eqn:Em; inversion E; subst. eapply H; eauto.
Qed.
(** Under [ok_mapped] an error is recorded, so an error-free run has a value. *)
Lemma h_ok_mapped {A} P (m : M A) Q : hoare P m Q ->
  hoare P (ok_mapped m) (fun o d => exists a, o = Some a /\ Q a d).
Proof.
  intros H s o s' B HP E N. unfold ok_mapped in E. destruct (m s) as [[x|e|p] s1] eqn:Em; inversion E; subst.
  - exists x. split; [reflexivity|]. eapply H; eauto.
  - cbn in N. destruct (errs s1); discriminate.
Qed.
Lemma h_ok {A} P (m : M A) Q : ErrRec m -> hoare P m Q -> hoare P (ok m) (fun o d => exists a, o = Some a /\ Q a d).
Proof.
  intros R H s o s' B HP E N. unfold ok in E. destruct (m s) as [[x|e|p] s1] eqn:Em; inversion E; subst.
  - exists x. split; [reflexivity|]. eapply H; eauto.
  - apply R in Em. contradiction.
Qed.
Lemma h_get_code P : hoare P get_code (fun c d => c = d /\ P d).
Proof. intros s a s' _ HP E _. inversion E; subst. auto. Qed.
Lemma h_get_pos P : hoare P get_pos (fun _ d => P d).
Proof. intros s a s' _ HP E _. inversion E; subst. auto. Qed.
Lemma h_put_code (P : code -> Prop) c : hoare P (put_code c) (fun _ d => d = c /\ exists d0, P d0).
Proof. intros s a s' _ HP E _. inversion E; subst. cbn. eauto. Qed.
Lemma h_check_error P : hoare P check_error (fun _ d => P d).
Proof. intros s a s' _ HP E _. unfold check_error in E. destruct (errs s); inversion E; subst. auto. Qed.
Lemma h_expect {A} P p (o : option A) : hoare P (expect p o) (fun a d => o = Some a /\ P d).
Proof. intros s a s' _ HP E _. destruct o; inversion E; subst. auto. Qed.
Lemma h_record {P : code -> Prop} {Q} e : hoare P (record_error e) Q.
Proof. intros s a s' _ _ E N. inversion E; subst. discriminate. Qed.
Lemma h_map_err {P : code -> Prop} {Q} e : hoare P (map_err e) Q.
Proof. intros s a s' _ _ E N. inversion E; subst. cbn in N. destruct (errs s); discriminate. Qed.
Lemma h_crash {A} {P : code -> Prop} {Q} p : hoare P (@crash A p) Q.
Proof. intros s a s' _ _ E N. inversion E. Qed.
Lemma h_throw {A} {P : code -> Prop} {Q} p : hoare P (@throw A p) Q.
Proof. intros s a s' _ _ E N. inversion E. Qed.
Lemma h_insert {A} P (l : list A) i x : hoare P (vec_insert l i x) (fun l' d => zinsert l i x = Some l' /\ P d).
Proof. apply h_expect. Qed.

Lemma h_for_loop {A} (Inv : Z -> A -> code -> Prop) (body : Z -> A -> M A) : (forall i a, Good true (body i a)) ->
  forall n i acc, (forall j a, i <= j < i + Z.of_nat n -> hoare (Inv j a) (body j a) (Inv (j + 1))) ->
  hoare (Inv i acc) (for_loop n i body acc) (Inv (i + Z.of_nat n)).
Proof.
  intros G n. induction n as [|n IH]; intros i acc H.
  - cbn [for_loop]. rewrite Z.add_0_r. apply h_ret. auto.
  - cbn [for_loop]. eapply h_bind; [apply H; lia|apply G|intros; now apply good_for_loop|].
    intros a. cbv beta. eapply h_conseq; [apply (IH (i + 1) a)| auto |].
    + intros j b Hj. apply H. lia.
    + intros b d. replace (i + 1 + Z.of_nat n) with (i + Z.of_nat (S n)) by lia. auto.
Qed.
Lemma h_for {A} (Inv : Z -> A -> code -> Prop) (body : Z -> A -> M A) n acc : (forall i a, Good true (body i a)) -> 0 <= n ->
  (forall j a, 0 <= j < n -> hoare (Inv j a) (body j a) (Inv (j + 1))) ->
  hoare (Inv 0 acc) (for_range n body acc) (Inv n).
Proof.
  intros G Hn H. unfold for_range. pose proof (h_for_loop Inv body G (Z.to_nat n) 0 acc) as L.
  rewrite Z2Nat.id in L by lia. apply L. exact H.
Qed.

(** * The decoder's module is changed only by name lookups *)
Definition rel_code {A} (R : code -> code -> Prop) (m : M A) : Prop :=
  forall s r s', m s = (r, s') -> R (d_code s) (d_code s').
Record preorder (R : code -> code -> Prop) : Prop := { p_refl : forall c, R c c; p_trans : forall a b c, R a b -> R b c -> R a c }.
Section Rel.
Context (R : code -> code -> Prop) (HR : preorder R).
Ltac same := intros s r s' E; inversion E; subst; apply (p_refl R HR).
Lemma r_ret {A} (a : A) : rel_code R (ret a). Proof. same. Qed.
Lemma r_throw {A} e : rel_code R (@throw A e). Proof. same. Qed.
Lemma r_crash {A} e : rel_code R (@crash A e). Proof. same. Qed.
Lemma r_get_pos : rel_code R get_pos. Proof. same. Qed.
Lemma r_get_code : rel_code R get_code. Proof. same. Qed.
Lemma r_record e : rel_code R (record_error e). Proof. same. Qed.
Lemma r_map_err e : rel_code R (map_err e). Proof. same. Qed.
Lemma r_check_error : rel_code R check_error.
Proof. intros s r s' E. unfold check_error in E. destruct (errs s); inversion E; subst; apply (p_refl R HR). Qed.
Lemma r_expect {A} p (o : option A) : rel_code R (expect p o). Proof. destruct o; [apply r_ret|apply r_crash]. Qed.
Lemma r_insert {A} (l : list A) i x : rel_code R (vec_insert l i x). Proof. apply r_expect. Qed.
Lemma r_bind {A B} (m : M A) (k : A -> M B) : rel_code R m -> (forall a, rel_code R (k a)) -> rel_code R (bind m k).
Proof.
  intros Hm Hk s r s' E. unfold bind in E. destruct (m s) as [[a|e|p] s1] eqn:Em; pose proof (Hm _ _ _ Em).
  - eapply (p_trans R HR); [eassumption|]. eapply Hk; eauto.
  - inversion E; subst; auto.
  - inversion E; subst; auto.
Qed.
Lemma r_unwrap {A} (m : M A) : rel_code R m -> rel_code R (unwrap m).
Proof. intros H s r s' E. unfold unwrap in E. destruct (m s) as [[a|e|p] s1] eqn:Em; pose proof (H _ _ _ Em); inversion E; subst; auto. Qed.
Lemma r_unwrap_mapped {A} (m : M A) : rel_code R m -> rel_code R (unwrap_mapped m).
Proof. intros H s r s' E. unfold unwrap_mapped in E. destruct (m s) as [[a|e|p] s1] eqn:Em; pose proof (H _ _ _ Em); inversion E; subst; auto. Qed.
Lemma r_ok_mapped {A} (m : M A) : rel_code R m -> rel_code R (ok_mapped m).
Proof. intros H s r s' E. unfold ok_mapped in E. destruct (m s) as [[a|e|p] s1] eqn:Em; pose proof (H _ _ _ Em); inversion E; subst; auto. Qed.
Lemma r_ok {A} (m : M A) : rel_code R m -> rel_code R (ok m).
Proof. intros H s r s' E. unfold ok in E. destruct (m s) as [[a|e|p] s1] eqn:Em; pose proof (H _ _ _ Em); inversion E; subst; auto. Qed.
Lemma r_for_loop {A} n : forall i (body : Z -> A -> M A) acc, (forall i a, rel_code R (body i a)) -> rel_code R (for_loop n i body acc).
Proof. induction n as [|n IH]; intros; cbn [for_loop]; [apply r_ret|apply r_bind; auto]. Qed.
Lemma r_for {A} n (body : Z -> A -> M A) acc : (forall i a, rel_code R (body i a)) -> rel_code R (for_range n body acc).
Proof. apply r_for_loop. Qed.
Lemma r_read_bytes n : rel_code R (read_bytes n).
Proof. intros s r s' E. unfold read_bytes in E. destruct (_ <? _); inversion E; subst; apply (p_refl R HR). Qed.
Lemma r_advance n : rel_code R (advance n).
Proof. intros s r s' E. unfold advance in E. destruct (_ <? _); inversion E; subst; apply (p_refl R HR). Qed.
End Rel.

Ltac rel1 :=
  match goal with
  | |- rel_code _ (bind _ _) => apply r_bind; [assumption| |intro]
  | |- rel_code _ (unwrap _) => apply r_unwrap
  | |- rel_code _ (unwrap_mapped _) => apply r_unwrap_mapped
  | |- rel_code _ (ok_mapped _) => apply r_ok_mapped
  | |- rel_code _ (ok _) => apply r_ok
  | |- rel_code _ (for_range _ _ _) => apply r_for; [assumption|intros]
  | |- rel_code _ (if ?b then _ else _) => destruct b
  | |- rel_code _ (match ?x with _ => _ end) => destruct x
  | |- rel_code _ (let x := _ in _) => cbv zeta
  | |- _ => first [apply r_ret; assumption | apply r_throw; assumption | apply r_crash; assumption
      | apply r_get_pos; assumption | apply r_get_code; assumption | apply r_record; assumption
      | apply r_map_err; assumption | apply r_check_error; assumption | apply r_expect; assumption
      | apply r_insert; assumption | apply r_read_bytes; assumption | apply r_advance; assumption
      | solve [eauto with rel]]
  end.
Ltac rel := repeat rel1.
Create HintDb rel.

Section Rel2.
Context (R : code -> code -> Prop) (HR : preorder R).
Lemma r_u n : rel_code R (decode_unsigned n). Proof. unfold decode_unsigned. rel. Qed.
Lemma r_s n : rel_code R (decode_signed n). Proof. unfold decode_signed. rel. Qed.
Lemma r_u8 : rel_code R decode_u8. Proof. apply r_u. Qed.
Lemma r_i32 : rel_code R decode_i32. Proof. apply r_s. Qed.
Hint Resolve r_u8 r_i32 : rel.
Lemma r_read_index : rel_code R read_index. Proof. unfold read_index. rel. Qed.
Lemma r_INDEX : rel_code R INDEX. Proof. unfold INDEX. rel. apply r_read_index. Qed.
Hint Resolve r_INDEX : rel.
Lemma r_UINDEX : rel_code R UINDEX. Proof. unfold UINDEX. rel. Qed.
Hint Resolve r_UINDEX : rel.
Lemma r_to_i32 x : rel_code R (to_i32 x). Proof. unfold to_i32. rel. Qed.
Lemma r_i32_add x y : rel_code R (i32_add x y). Proof. unfold i32_add. rel. Qed.
Hint Resolve r_to_i32 r_i32_add : rel.
Lemma r_read_string : rel_code R read_string. Proof. unfold read_string. rel. Qed.
Lemma r_get_type : rel_code R get_type. Proof. unfold get_type. rel. Qed.
Hint Resolve r_get_type : rel.
Lemma r_strings_loop n : forall t c ss ls, rel_code R (strings_loop n t c ss ls).
Proof. induction n as [|n IH]; intros; cbn [strings_loop]; rel. Qed.
Hint Resolve r_strings_loop : rel.
Lemma r_read_strings n ls : rel_code R (read_strings n ls).
Proof.
  unfold read_strings. rel.
  intros s r s' E. destruct (_ <? _); inversion E; subst; apply (p_refl R HR).
Qed.
Lemma r_read_extra m n : rel_code R m -> rel_code R (read_extra m n). Proof. intros. unfold read_extra. rel. Qed.
Hint Resolve r_read_extra : rel.
Lemma r_read_opcode : rel_code R read_opcode. Proof. unfold read_opcode. rel. Qed.
Hint Resolve r_read_opcode : rel.
Lemma r_read_function : rel_code R read_function. Proof. unfold read_function. rel. Qed.
Lemma r_debug_store d i f l : rel_code R (debug_store d i f l). Proof. unfold debug_store. rel. Qed.
Hint Resolve r_debug_store : rel.
Lemma r_debug_loop fuel : forall n i f l d, rel_code R (debug_loop fuel n i f l d).
Proof. induction fuel as [|fuel IH]; intros; cbn [debug_loop]; rel. Qed.
Lemma r_debug_infos n : rel_code R (debug_infos n).
Proof. intros s r s' E. unfold debug_infos in E. eapply r_debug_loop; eauto. Qed.
Lemma r_skip_assigns : rel_code R skip_assigns. Proof. unfold skip_assigns. rel. Qed.
End Rel2.

Lemma pre_eq : preorder eq. Proof. split; congruence. Qed.
Definition same_but_cache (c c' : code) : Prop := exists u, c' = set_ustrings u c.
Lemma pre_cache : preorder same_but_cache.
Proof.
  split.
  - intros c. exists (c_ustrings c). now rewrite set_ustrings_id.
  - intros a b c [u ->] [v ->]. exists v. now rewrite set_ustrings_twice.
Qed.

Lemma rc_read_ustring : rel_code same_but_cache read_ustring.
Proof.
  pose proof pre_cache as HR. intros s r s' E. unfold read_ustring in E.
  unfold bind in E. destruct (unwrap INDEX s) as [[i|e|p] s1] eqn:E1;
    pose proof (r_unwrap _ _ (r_INDEX _ HR) _ _ _ E1) as H1; [|inversion E; subst; auto..].
  cbn [get_code] in E. destruct (to_i32 (c_nstrings (d_code s1)) s1) as [[n|e|p] s2] eqn:E2;
    pose proof (r_to_i32 _ pre_eq _ _ _ _ E2) as H2; [|inversion E; subst; rewrite <- H2; auto..].
  eapply (p_trans _ HR); [exact H1|]. rewrite H2. destruct ((i <? 0) || (n <=? i)).
  - inversion E; subst. apply (p_refl _ HR).
  - unfold lift in E. destruct (get_ustring (d_code s1) i) as [[x c]|e|p] eqn:G.
    + inversion E; subst. cbn. unfold get_ustring in G. rewrite H2 in G.
      destruct (znth (c_ustrings (d_code s2)) i) as [[y|]|]; try discriminate.
      { inversion G; subst. apply (p_refl _ HR). }
      destruct (znth (c_strings (d_code s2)) i); destruct (zinsert _ _ _) as [u|]; inversion G; subst; now exists u.
    + inversion E; subst. apply (p_refl _ HR).
    + inversion E; subst. apply (p_refl _ HR).
Qed.
Lemma rc_read_type : rel_code same_but_cache read_type.
Proof.
  pose proof pre_cache as HR. pose proof rc_read_ustring as Hu.
  pose proof (r_u8 _ HR). pose proof (r_INDEX _ HR). pose proof (r_UINDEX _ HR). pose proof (r_get_type _ HR).
  unfold read_type, read_constructs, read_fields, read_protos, read_bindings, read_type_refs.
  rel; auto.
Qed.

(** Value-only facts for functions that leave the module alone. *)
Lemma h_value {A} (m : M A) (P : code -> Prop) (V : A -> Prop) : rel_code eq m ->
  (forall s a s', bytes (d_buf s) -> m s = (Ok a, s') -> errs s' = None -> V a) ->
  hoare P m (fun a d => V a /\ P d).
Proof. intros R HV s a s' B HP E N. split; [eapply HV; eauto|]. apply R in E. now rewrite <- E. Qed.
Lemma h_keep {A} (m : M A) P : rel_code eq m -> hoare P m (fun _ d => P d).
Proof. intros R s a s' B HP E N. apply R in E. now rewrite <- E. Qed.

Lemma UINDEX_nonneg s a s' : UINDEX s = (Ok a, s') -> 0 <= a.
Proof.
  unfold UINDEX, bind. destruct (unwrap_mapped INDEX s) as [[i|e|p] s1]; try discriminate.
  destruct (Z.ltb_spec i 0); intros E; inversion E; subst; lia.
Qed.
Lemma h_UINDEX P : hoare P UINDEX (fun a d => 0 <= a /\ P d).
Proof. apply h_value; [apply r_UINDEX, pre_eq|]. intros; eapply UINDEX_nonneg; eauto. Qed.

Lemma to_signed_32 x : 0 <= x < 2 ^ 32 -> - 2 ^ 31 <= to_signed 32 x < 2 ^ 31.
Proof.
  intros H. unfold to_signed. change (2 ^ (32 - 1)) with 2147483648. change (2 ^ 32) with 4294967296 in *. change (2 ^ 31) with 2147483648.
  destruct (Z.ltb_spec x 2147483648); lia.
Qed.
Lemma decode_u8_byte s a s' : bytes (d_buf s) -> decode_u8 s = (Ok a, s') -> is_byte a /\ bytes (d_buf s').
Proof.
  intros B E. unfold decode_u8, decode_unsigned, bind in E. destruct (read_bytes 1 s) as [[bs|e|p] s1] eqn:E1; try discriminate.
  unfold read_bytes in E1. destruct (Z.ltb_spec (zlen (d_buf s)) 1); [discriminate|]. inversion E1; subst. inversion E; subst. clear E E1.
  destruct (d_buf s) as [|b r]; [cbn in H; lia|]. cbn. inversion B; subst. unfold is_byte in *. split; [lia|assumption].
Qed.
Lemma lor_lt a b n : 0 <= n -> 0 <= a < 2 ^ n -> 0 <= b < 2 ^ n -> 0 <= Z.lor a b < 2 ^ n.
Proof.
  intros Hn Ha Hb. assert (0 <= Z.lor a b) by (apply Z.lor_nonneg; lia). split; [lia|].
  destruct (Z.eq_dec (Z.lor a b) 0) as [->|]; [apply Z.pow_pos_nonneg; lia|].
  destruct (Z.eq_dec a 0) as [->|]; [rewrite Z.lor_0_l; lia|]. destruct (Z.eq_dec b 0) as [->|]; [rewrite Z.lor_0_r; lia|].
  apply Z.log2_lt_pow2; [lia|]. rewrite Z.log2_lor by lia. apply Z.max_lub_lt; apply Z.log2_lt_pow2; lia.
Qed.
Lemma INDEX_range s a s' : bytes (d_buf s) -> INDEX s = (Ok a, s') -> i32_range a.
Proof.
  intros B E. unfold INDEX, unwrap in E. destruct (read_index s) as [[x|e|p] s1] eqn:R; inversion E; subst. clear E.
  unfold read_index, bind in R. destruct (decode_u8 s) as [[b|e|p] s2] eqn:E1; try discriminate.
  apply decode_u8_byte in E1 as [Hb B2]; [|auto]. unfold is_byte in Hb. unfold i32_range.
  destruct (Z.land b 128 =? 0).
  { inversion R; subst. change 127 with (Z.ones 7). rewrite Z.land_ones by lia. pose proof (Z.mod_pos_bound b (2 ^ 7) ltac:(lia)). lia. }
  destruct (Z.land b 64 =? 0).
  { unfold unwrap in R. destruct (decode_u8 s2) as [[x|e|p] s3] eqn:E2; try discriminate.
    apply decode_u8_byte in E2 as [Hx _]; [|auto]. unfold is_byte in Hx.
    assert (V : 0 <= Z.lor x (Z.shiftl (Z.land b 31) 8) < 2 ^ 13).
    { apply lor_lt; [lia|change (2 ^ 13) with 8192; lia|]. rewrite Z.shiftl_mul_pow2 by lia. change 31 with (Z.ones 5).
      rewrite Z.land_ones by lia. pose proof (Z.mod_pos_bound b (2 ^ 5) eq_refl). change (2 ^ 5) with 32 in *. change (2 ^ 8) with 256. change (2 ^ 13) with 8192. lia. }
    change (2 ^ 13) with 8192 in V. change (2 ^ 31) with 2147483648. cbv zeta in R. unfold ret in R. set (v := Z.lor _ _) in *. clearbody v. destruct (Z.land b 32 =? 0); [assert (a = v) by congruence|assert (a = - v) by congruence]; lia. }
  destruct (decode_u8 s2) as [[c|e|p] s3] eqn:E2; try discriminate.
  apply decode_u8_byte in E2 as [Hc B3]; [|auto]. 
  destruct (decode_u8 s3) as [[d|e|p] s4] eqn:E3; try discriminate.
  apply decode_u8_byte in E3 as [Hd B4]; [|auto]. 
  destruct (decode_u8 s4) as [[f|e|p] s5] eqn:E4; try discriminate.
  apply decode_u8_byte in E4 as [He B5]; [|auto]. unfold is_byte in *.
  assert (a = to_signed 32 (from_le [b; c; d; f])) as -> by (unfold ret in R; congruence). apply to_signed_32. cbn [from_le]. change (2 ^ 32) with 4294967296. lia.
Qed.
Lemma h_INDEX P : hoare P INDEX (fun x d => i32_range x /\ P d).
Proof. apply h_value; [apply r_INDEX, pre_eq|]. intros s a s' B E _. eapply INDEX_range; eauto. Qed.
Lemma h_UINDEX_b P : hoare P UINDEX (fun a d => 0 <= a < 2 ^ 31 /\ P d).
Proof.
  apply h_value; [apply r_UINDEX, pre_eq|]. intros s a s' B E _. pose proof (UINDEX_nonneg _ _ _ E). split; [auto|].
  unfold UINDEX, bind in E. destruct (unwrap_mapped INDEX s) as [[i|e|p] s1] eqn:E1; try discriminate.
  assert (E2 : INDEX s = (Ok i, s1)) by (unfold unwrap_mapped in E1; destruct (INDEX s) as [[]]; inversion E1; auto).
  apply INDEX_range in E2; [|auto]. unfold i32_range in E2. destruct (i <? 0); inversion E; subst; lia.
Qed.

(** * Vectors filled by [insert] *)
Lemma h_insert_len {A} P (l : list A) i x : hoare P (vec_insert l i x) (fun l' d => zlen l' = zlen l + 1 /\ P d).
Proof.
  intros s l' s' B HP E N. destruct (h_insert P l i x s l' s' B HP E N) as [H HP'].
  split; [eapply zinsert_len; eauto|auto].
Qed.

(** Reading [n] values with [m], each inserted: [n] more elements. *)
Lemma h_fill {A} P (m : M A) n l0 : (forall i l, Good true (bind m (fun x => vec_insert l i x))) -> Good true m ->
  hoare P m (fun _ d => P d) -> 0 <= n ->
  hoare P (for_range n (fun i l => x <- m ;; vec_insert l i x) l0) (fun l d => zlen l = zlen l0 + n /\ P d).
Proof.
  intros G Gm Hm Hn.
  eapply h_pre; [eapply (h_for (fun j l d => zlen l = zlen l0 + j /\ P d)); auto|cbn; intros; split; [lia|auto]].
  intros j a Hj.
  eapply h_bind with (Q := fun _ d => zlen a = zlen l0 + j /\ P d).
  - intros s x s' B [Hl HP] E N. split; [exact Hl|]. eapply Hm; eauto.
  - exact Gm.
  - intros x. apply good_vec_insert.
  - intros x. eapply h_conseq; [apply h_insert_len|intros d H; exact H|]. cbn. intros l d (E & Hl & HP). split; [lia|auto].
Qed.
Lemma h_fill_ok {A} P (m : M (option A)) n l0 : Good true m ->
  hoare P m (fun o d => (exists a, o = Some a) /\ P d) -> 0 <= n ->
  hoare P (for_range n (fun i l => r <- m ;; match r with Some x => vec_insert l i x | None => ret l end) l0)
    (fun l d => zlen l = zlen l0 + n /\ P d).
Proof.
  intros Gm Hm Hn.
  eapply h_pre; [eapply (h_for (fun j l d => zlen l = zlen l0 + j /\ P d)); auto|cbn; intros; split; [lia|auto]].
  - intros i a. apply good_bind; [exact Gm|]. intros [x|]; [apply good_vec_insert|apply good_ret].
  - intros j a Hj.
    eapply h_bind with (Q := fun o d => (exists x, o = Some x) /\ zlen a = zlen l0 + j /\ P d).
    + intros s x s' B [Hl HP] E N. destruct (Hm s x s' B HP E N). auto.
    + exact Gm.
    + intros [x|]; [apply good_vec_insert|apply good_ret].
    + intros [x|].
      * eapply h_conseq; [apply h_insert_len|intros d H; exact H|]. cbn. intros l d (E & _ & Hl & HP). split; [lia|auto].
      * intros s x s' _ [[y Y] _]. discriminate.
Qed.

(** * Header *)
Definition tables_empty (c : code) : Prop :=
  c_ints c = [] /\ c_floats c = [] /\ c_strings c = [] /\ c_strings_lens c = [] /\ c_bytes_pos c = [] /\
  c_debugfiles c = [] /\ c_debugfiles_lens c = [] /\ c_types c = [] /\ c_globals c = [] /\
  c_natives c = [] /\ c_functions c = [] /\ c_constants c = [] /\ c_ndebugfiles c = 0.
Definition counts_small (c : code) : Prop :=
  Forall (fun n => 0 <= n < 2 ^ 31) [c_nints c; c_nfloats c; c_nstrings c; c_nbytes c; c_ntypes c; c_nglobals c;
    c_nnatives c; c_nfunctions c; c_nconstants c; c_entrypoint c].
Definition counts_ok (c : code) : Prop :=
  0 <= c_nints c /\ 0 <= c_nfloats c /\ 0 <= c_nstrings c /\ 0 <= c_nbytes c /\ 0 <= c_ntypes c /\
  0 <= c_nglobals c /\ 0 <= c_nnatives c /\ 0 <= c_nfunctions c /\ 0 <= c_nconstants c /\
  0 <= c_entrypoint c /\ 2 <= c_version c <= 5 /\ (c_version c < 5 -> c_nbytes c = 0) /\
  (c_version c < 4 -> c_nconstants c = 0) /\ (c_hasdebug c = 0 \/ c_hasdebug c = 1).

Lemma h_read_magic P : hoare P (read_magic code_new) (fun c d => (exists v, 2 <= v <= 5 /\ c = set_version v code_new) /\ P d).
Proof.
  apply h_value.
  - pose proof (r_u8 _ pre_eq). pose proof pre_eq. unfold read_magic. rel; auto.
  - intros s a s' B E N. unfold read_magic in E.
    assert (H : hoare (fun _ => True) (read_magic code_new) (fun c d => exists v, 2 <= v <= 5 /\ c = set_version v code_new)).
    { unfold read_magic. eapply h_bind with (Q := fun _ _ => True); [repeat intro; exact I|good| |].
      { intros. good. }
      intros h. eapply h_bind with (Q := fun _ _ => True); [repeat intro; exact I|good|intros; good|].
      intros [|]; [intros ? ? ? ? ? E1; discriminate|].
      eapply h_bind with (Q := fun v _ => 0 <= v); [|good|intros; good|].
      - apply h_unwrap_mapped. intros s1 v s2 B1 _ E1 _. unfold decode_u8, decode_unsigned, bind in E1.
        destruct (read_bytes 1 s1) as [[bs|e|p] s3] eqn:E2; inversion E1; subst.
        unfold read_bytes in E2. destruct (_ <? _); inversion E2; subst. apply from_le_bound. exact (bytes_firstn 1 _ B1).
      - intros v. destruct (Z.leb_spec v 1), (Z.ltb_spec 5 v); cbn [orb];
          try (intros ? ? ? ? ? E1; discriminate). apply h_ret. intros _ _. exists v. split; [lia|reflexivity]. }
    eapply H; eauto.
Qed.

Lemma h_read_count P set c :
  hoare P (read_count set c) (fun c' d => (exists n, 0 <= n < 2 ^ 31 /\ c' = set n c) /\ P d).
Proof.
  unfold read_count. eapply h_bind; [apply h_ok; [apply UINDEX_rec|apply h_UINDEX_b]|good|intros; good|].
  intros o. cbv beta. intros s a s' B (x & -> & Hx & HP) E N. inversion E; subst. split; [eauto|auto].
Qed.

Definition post_header (c : code) : Prop := tables_empty c /\ counts_ok c /\ c_ustrings c = [] /\ c_bytes c = [] /\ counts_small c.

Lemma h_bind_val {A B} P (m : M A) (V : A -> Prop) (k : A -> M B) R :
  hoare P m (fun a d => V a /\ P d) -> Good true m -> (forall a, Good true (k a)) ->
  (forall a, V a -> hoare P (k a) R) -> hoare P (bind m k) R.
Proof.
  intros Hm Gm Gk Hk. eapply h_bind; [exact Hm|auto|auto|].
  intros a s b s' B0 [HV HP] E N. eapply (Hk a HV); eauto.
Qed.
Ltac count n H := eapply h_bind_val; [apply h_read_count|good|intros; cbv zeta; good|];
  let c := fresh "c" in intros c [n [H ->]].

Lemma h_read_counts P v : 2 <= v <= 5 ->
  hoare P (read_counts (set_version v code_new)) (fun c d => post_header c /\ P d).
Proof.
  intros Hv. unfold read_counts.
  eapply h_bind_val with (V := fun o => exists a, o = Some a /\ 0 <= a).
  { eapply h_conseq; [apply h_ok; [apply UINDEX_rec|apply h_UINDEX]|intros d H; exact H|].
    cbn. intros o d (x & -> & Hx & HP). eauto. }
  { good. } { intros; cbv zeta; good. }
  intros fl (flags & -> & Hfl). cbv zeta.
  count n1 H1. count n2 H2. count n3 H3.
  eapply h_bind_val with (V := fun c' => exists n4, 0 <= n4 < 2 ^ 31 /\ (v < 5 -> n4 = 0) /\
     c' = set_nbytes n4 (set_nstrings n3 (set_nfloats n2 (set_nints n1 (set_version v code_new))))).
  { cbn [c_version set_nstrings set_nfloats set_nints set_version]. destruct (Z.leb_spec 5 v).
    - eapply h_conseq; [apply h_read_count|intros d H0; exact H0|]. cbn. intros c d [(n & Hn & ->) HP].
      split; [exists n|exact HP]. split; [auto|split; [lia|reflexivity]].
    - apply h_ret. intros d HP. split; [|exact HP]. exists 0. split; [lia|split; [auto|]]. reflexivity. }
  { good. } { intros; cbv zeta; good. }
  intros c4 (n4 & H4 & H4' & ->).
  count n5 H5. count n6 H6. count n7 H7. count n8 H8.
  cbn [c_version set_nstrings set_nfloats set_nints set_version set_nbytes set_ntypes set_nglobals set_nnatives
       set_nfunctions set_nconstants].
  eapply h_bind_val with (V := fun c' => exists n9, 0 <= n9 < 2 ^ 31 /\ (v < 4 -> n9 = 0) /\
     c' = set_nconstants n9 (set_nfunctions n8 (set_nnatives n7 (set_nglobals n6 (set_ntypes n5
            (set_nbytes n4 (set_nstrings n3 (set_nfloats n2 (set_nints n1 (set_version v code_new)))))))))).
  { destruct (Z.leb_spec 4 v).
    - eapply h_conseq; [apply h_read_count|intros d H0; exact H0|]. cbn. intros c d [(n & Hn & ->) HP].
      split; [exists n|exact HP]. split; [auto|split; [lia|reflexivity]].
    - apply h_ret. intros d HP. split; [|exact HP]. exists 0. split; [lia|split; [auto|]]. reflexivity. }
  { good. } { intros; cbv zeta; good. }
  intros c9 (n9 & H9 & H9' & ->). count n10 H10.
  eapply h_bind; [apply h_check_error|good|intros; good|]. intros u0. cbv beta.
  apply h_ret. intros d HP. split; [|exact HP].
  assert (Hd : Z.land flags 1 = 0 \/ Z.land flags 1 = 1).
  { change (Z.land flags 1) with (Z.land flags (Z.ones 1)). rewrite Z.land_ones by lia. change (2 ^ 1) with 2.
    pose proof (Z.mod_pos_bound flags 2 ltac:(lia)). lia. }
  unfold post_header, tables_empty, counts_ok. cbn - [Z.pow].
  repeat match goal with |- _ /\ _ => split end; auto; try lia. unfold counts_small. cbn - [Z.pow]. repeat constructor; lia.
Qed.

(** * String tables *)
(** [s] is a well-formed piece of [text]. *)
Definition piece_of (text s : str) : Prop := utf8 s /\ exists a b, text = a ++ s ++ b.

Lemma unwrap_ok {A} (m : M A) s a s' : unwrap m s = (Ok a, s') -> m s = (Ok a, s').
Proof. unfold unwrap. destruct (m s) as [[]]; congruence. Qed.
Lemma unwrap_mapped_ok {A} (m : M A) s a s' : unwrap_mapped m s = (Ok a, s') -> m s = (Ok a, s').
Proof. unfold unwrap_mapped. destruct (m s) as [[]]; congruence. Qed.
Lemma bind_ok {A B} (m : M A) (k : A -> M B) s b s' : bind m k s = (Ok b, s') ->
  exists a s1, m s = (Ok a, s1) /\ k a s1 = (Ok b, s').
Proof. unfold bind. destruct (m s) as [[a|e|p] s1]; try discriminate. eauto. Qed.
Lemma expect_ok {A} p (o : option A) s a s' : expect p o s = (Ok a, s') -> o = Some a /\ s' = s.
Proof. destruct o; cbn; intros E; inversion E; auto. Qed.

Lemma strings_loop_spec (text : str) : utf8 text -> forall n cur ss0 ls0 s r s', 0 <= cur ->
  strings_loop n text cur ss0 ls0 s = (Ok r, s') ->
  exists ss : list str, fst r = ss0 ++ ss /\ snd r = ls0 ++ map zlen ss /\ (length ss <= n)%nat /\ Forall (piece_of text) ss.
Proof.
  intros Ut. induction n as [|n IH]; intros cur ss0 ls0 s r s' Hc E.
  - inversion E; subst. exists []. cbn. rewrite !app_nil_r. auto.
  - cbn [strings_loop] in E. apply bind_ok in E as (sz & s1 & E1 & E). apply unwrap_ok, UINDEX_nonneg in E1.
    apply bind_ok in E as (tl & s2 & E2 & E). apply expect_ok in E2 as [E2 ->].
    apply bind_ok in E as (t & s3 & E3 & E). apply expect_ok in E3 as [E3 ->].
    cbv zeta in E.
    assert (Utl : utf8 tl) by (eapply str_from_utf8; eauto).
    pose proof (proj1 (str_to_utf8 _ _ _ Utl E3 E1)) as Uts.
    assert (Pc : piece_of text t).
    { split; [exact Uts|]. unfold str_from in E2. destruct (is_char_boundary text cur); inversion E2; subst.
      unfold str_to in E3. destruct (is_char_boundary _ sz); inversion E3; subst.
      exists (firstn (Z.to_nat cur) text), (skipn (Z.to_nat sz) (skipn (Z.to_nat cur) text)).
      now rewrite !firstn_skipn. }
    destruct (zlen text <=? cur + sz).
    + inversion E; subst. exists [t]. cbn. repeat split; auto. lia.
    + apply IH in E as (ss & F1 & F2 & F3 & F4); [|lia].
      exists (t :: ss). rewrite F1, F2, <- !app_assoc. cbn. repeat split; auto. lia.
Qed.

Lemma le_from_le bs : bytes bs -> le_bytes (length bs) (from_le bs) = bs.
Proof.
  induction 1 as [|b r Hb F IH]; [reflexivity|]. cbn [length le_bytes from_le]. unfold is_byte in Hb.
  replace (b + 256 * from_le r) with (b + from_le r * 256) by lia.
  rewrite Z.mod_add, Z.div_add, Z.mod_small, Z.div_small, Z.add_0_l by lia.
  now rewrite IH.
Qed.
Lemma enc_le_signed bs : bytes bs -> length bs = 4%nat -> enc_le 4 (to_signed 32 (from_le bs)) = bs.
Proof.
  intros B L. unfold enc_le. pose proof (from_le_bound bs B) as R. rewrite L in R.
  change (256 ^ Z.of_nat 4) with (2 ^ 32) in *.
  replace (to_signed 32 (from_le bs) mod 2 ^ 32) with (from_le bs); [rewrite <- L; now apply le_from_le|].
  unfold to_signed. destruct (_ <? _); [now rewrite Z.mod_small|].
  replace (from_le bs - 2 ^ 32) with (from_le bs + (-1) * 2 ^ 32) by lia. rewrite Z.mod_add by lia. now rewrite Z.mod_small.
Qed.

Lemma read_strings_spec n lens s ss lens' s' : bytes (d_buf s) -> 0 <= n ->
  read_strings n lens s = (Ok (ss, lens'), s') ->
  exists size raw rest text, d_buf s = enc_le 4 size ++ raw ++ rest /\ zlen raw = size mod 2 ^ 64 /\ lossy_of raw text /\
    lens' = lens ++ map zlen ss /\ zlen ss <= n /\ Forall (piece_of text) ss.
Proof.
  intros B Hn E. unfold read_strings in E. apply bind_ok in E as (size & s1 & E1 & E).
  apply unwrap_ok in E1. pose proof (decode_i32_range _ _ _ B E1) as R.
  unfold decode_i32, decode_signed in E1. apply bind_ok in E1 as (bs & s2 & E1 & E2).
  unfold read_bytes in E1. destruct (Z.ltb_spec (zlen (d_buf s)) 4) as [|L4]; [discriminate|].
  change (Z.to_nat 4) with 4%nat in E1.
  assert (bs = firstn 4 (d_buf s)) by congruence. assert (d_buf s2 = skipn 4 (d_buf s)) by (inversion E1; reflexivity).
  assert (s1 = s2) by (inversion E2; congruence). assert (Es : size = to_signed 32 (from_le bs)) by (inversion E2; reflexivity).
  clear E1 E2. subst s1.
  assert (Bb : bytes bs) by (subst bs; now apply bytes_firstn).
  assert (Lb : length bs = 4%nat) by (subst bs; rewrite firstn_length; unfold zlen in L4; lia).
  cbv zeta in E. apply bind_ok in E as (raw & s3 & E2 & E).
  destruct (Z.ltb_spec (zlen (d_buf s2)) (i32_as_usize size)) as [|Lr]; [discriminate|].
  assert (Er : raw = firstn (Z.to_nat (i32_as_usize size)) (d_buf s2)) by congruence. clear E2.
  assert (P : i32_as_usize size = size mod 2 ^ 64).
  { unfold i32_as_usize. destruct (Z.ltb_spec size 0); [|now rewrite Z.mod_small by lia].
    replace size with (size + 2 ^ 64 + (-1) * 2 ^ 64) at 2 by lia. rewrite Z.mod_add by lia. rewrite Z.mod_small; lia. }
  pose proof (Z.mod_pos_bound size (2 ^ 64) ltac:(lia)).
  apply bind_ok in E as (u & s4 & E3 & E). clear E3.
  assert (Bs2 : bytes (d_buf s2)) by (rewrite H0; now apply bytes_skipn).
  assert (Braw : bytes raw) by (subst raw; now apply bytes_firstn).
  pose proof (lossy_spec raw Braw) as Lo. pose proof (lossy_utf8 raw Braw) as Ut.
  apply (strings_loop_spec _ Ut) in E as (ss1 & F1 & F2 & F3 & F4); [|lia].
  cbn [fst snd app] in F1, F2. subst ss1.
  exists size, raw, (skipn (Z.to_nat (i32_as_usize size)) (d_buf s2)), (from_utf8_lossy raw).
  split.
  { rewrite app_assoc, <- app_assoc. rewrite Er, firstn_skipn, H0, Es, enc_le_signed by auto.
    subst bs. now rewrite firstn_skipn. }
  split. { rewrite Er. unfold zlen. rewrite firstn_length. unfold zlen in Lr. lia. }
  repeat split; auto. unfold zlen. lia.
Qed.
