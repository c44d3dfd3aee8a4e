(** Every error and every crash of the reader is explained by the bytes of the file. *)
From Verif Require Import Prelude StdModel BrassTypes DecoderModel CodeModel FormatSpec ReaderSpec ErrSpec.
From Verif Require Import CodeGenericProofs FormatProofs StringsProofs ReaderPost ReaderTables.
From Coq Require Import Lia ZifyBool.
Ltac Zify.zify_post_hook ::= Z.div_mod_to_equations.

(** * Exact semantics of [read_index] *)
Lemma u8_cons s x t : d_buf s = x :: t -> decode_u8 s = (Ok x, after s 1).
Proof.
  intros E. unfold decode_u8, decode_unsigned, bind, read_bytes. rewrite E, zlen_cons.
  pose proof (zlen_nonneg t). destruct (Z.ltb_spec (1 + zlen t) 1); [lia|].
  unfold ret, after. rewrite E. f_equal. f_equal. change (firstn (Z.to_nat 1) (x :: t)) with [x]. cbn [from_le]. lia.
Qed.
Lemma u8_nil s : d_buf s = [] -> decode_u8 s = (Err (with_info NoMoreData (d_pos s)), s).
Proof. intros E. unfold decode_u8, decode_unsigned, bind, read_bytes. rewrite E. reflexivity. Qed.
Lemma after_buf s x t : d_buf s = x :: t -> d_buf (after s 1) = t.
Proof. intros E. unfold after. rewrite E. reflexivity. Qed.
Lemma after_after s n m : 0 <= n -> 0 <= m -> after (after s n) m = after s (n + m).
Proof.
  intros Hn Hm. unfold after; cbn. f_equal; [|lia]. rewrite Z2Nat.inj_add by lia.
  rewrite Nat.add_comm. generalize (Z.to_nat n) (Z.to_nat m) (d_buf s). intros a b l. revert l.
  induction a as [|a IH]; intros l; [now rewrite Nat.add_0_r|]. rewrite Nat.add_succ_r. destruct l; cbn; [now destruct b|]. apply IH.
Qed.

Lemma read_index_exact s : bytes (d_buf s) ->
  (exists enc v rest, d_buf s = enc ++ rest /\ index_value enc = Some v /\
     read_index s = (Ok v, after s (zlen enc)) /\ d_buf (after s (zlen enc)) = rest) \/
  (zlen (d_buf s) < 4 /\ (forall enc rest v, d_buf s = enc ++ rest -> index_value enc <> Some v) /\
   exists n, 0 <= n <= zlen (d_buf s) /\
     ((exists e, read_index s = (Err e, after s n)) \/ read_index s = (Panic PUnwrap, after s n))).
Proof.
  intros B. destruct (d_buf s) as [|b r] eqn:E.
  { right. split; [cbn; lia|]. split. { intros [|b r] rest v X; [discriminate|destruct r; discriminate]. }
    exists 0. split; [cbn; lia|]. left. eexists. unfold read_index, bind. rewrite u8_nil by auto.
    f_equal. unfold after. rewrite Z.add_0_r. cbn. now rewrite st_eta. }
  apply Forall_cons_iff in B. destruct B as [Hb Br]. unfold is_byte in Hb.
  assert (R1 : read_index s = read_index s) by reflexivity. unfold read_index at 2 in R1. unfold bind at 1 in R1.
  rewrite (u8_cons _ _ _ E), byte_bit7 in R1 by lia. pose proof (after_buf _ _ _ E) as E1.
  assert (N1 : forall enc rest v, b :: r = enc ++ rest -> index_value enc = Some v -> exists t, enc = b :: t).
  { intros [|x t] rest v X V; [discriminate|]. injection X as -> _. now exists t. }
  destruct (Z.ltb_spec b 128) as [L|L].
  { left. exists [b], b, r. split; [reflexivity|]. cbn [index_value]. destruct (Z.ltb_spec b 128); [|lia].
    split; [reflexivity|]. split; [|exact E1]. rewrite R1, byte_low7, Z.mod_small by lia. reflexivity. }
  rewrite byte_bit6 in R1 by lia. destruct (Z.ltb_spec b 192) as [L2|L2].
  { replace (b mod 128 <? 64) with true in R1 by lia.
    destruct r as [|x t].
    - right. split; [cbn; lia|]. split.
      { intros enc rest v X V. destruct (N1 _ _ _ X V) as [t ->]. injection X as X. destruct t; [|discriminate].
        cbn in V. destruct (Z.ltb_spec b 128); [lia|discriminate]. }
      exists 1. split; [cbn; lia|]. right. rewrite R1. unfold bind, unwrap. rewrite u8_nil by auto. reflexivity.
    - left. apply Forall_cons_iff in Br. destruct Br as [Hx _]. unfold is_byte in Hx.
      exists [b; x], (if b <? 160 then (b - 128) * 256 + x else - ((b - 160) * 256 + x)), t.
      split; [reflexivity|]. cbn [index_value]. replace ((128 <=? b) && (b <? 192)) with true by lia.
      split; [reflexivity|]. change (zlen [b; x]) with 2.
      assert (S2 : after (after s 1) 1 = after s 2) by (rewrite after_after by lia; reflexivity).
      split; [|rewrite <- S2; eapply after_buf; eauto]. rewrite R1. unfold bind, unwrap. rewrite (u8_cons _ _ _ E1).
      unfold ret. cbv zeta. rewrite S2, byte_low5, lor_shift, byte_bit5 by lia. f_equal. f_equal.
      destruct (Z.ltb_spec (b mod 64) 32), (Z.ltb_spec b 160); lia. }
  replace (b mod 128 <? 64) with false in R1 by lia.
  assert (N4 : forall enc rest v, b :: r = enc ++ rest -> index_value enc = Some v -> 4 <= zlen (b :: r)).
  { intros enc rest v X V. destruct (N1 _ _ _ X V) as [t ->]. rewrite X, zlen_app. pose proof (zlen_nonneg rest).
    cbn in V. destruct t as [|x [|y [|z [|]]]]; try discriminate.
    - destruct (Z.ltb_spec b 128); [lia|discriminate].
    - replace ((128 <=? b) && (b <? 192)) with false in V by lia. discriminate.
    - rewrite !zlen_cons. change (zlen (@nil Z)) with 0. lia. }
  assert (Sh : forall n, zlen (b :: r) < 4 -> 0 <= n <= zlen (b :: r) ->
     ((exists e, read_index s = (Err e, after s n)) \/ read_index s = (Panic PUnwrap, after s n)) ->
     zlen (b :: r) < 4 /\ (forall enc rest v, b :: r = enc ++ rest -> index_value enc <> Some v) /\
     exists n, 0 <= n <= zlen (b :: r) /\
     ((exists e, read_index s = (Err e, after s n)) \/ read_index s = (Panic PUnwrap, after s n))).
  { intros n H4 Hn Hr. split; [auto|]. split; [|eauto]. intros enc rest v X V. pose proof (N4 _ _ _ X V). lia. }
  destruct r as [|x r]. { right. apply (Sh 1); [cbn; lia|cbn; lia|]. left. rewrite R1. unfold bind. rewrite u8_nil by auto. eauto. }
  assert (S2 : after (after s 1) 1 = after s 2) by (rewrite after_after by lia; reflexivity).
  pose proof (after_buf _ _ _ E1) as E2. rewrite S2 in E2.
  unfold bind at 1 in R1. rewrite (u8_cons _ _ _ E1), S2 in R1.
  destruct r as [|y r]. { right. apply (Sh 2); [cbn; lia|cbn; lia|]. left. rewrite R1. unfold bind. rewrite u8_nil by auto. eauto. }
  assert (S3 : after (after s 2) 1 = after s 3) by (rewrite after_after by lia; reflexivity).
  pose proof (after_buf _ _ _ E2) as E3. rewrite S3 in E3.
  unfold bind at 1 in R1. rewrite (u8_cons _ _ _ E2), S3 in R1.
  destruct r as [|z r]. { right. apply (Sh 3); [cbn; lia|cbn; lia|]. left. rewrite R1. unfold bind. rewrite u8_nil by auto. eauto. }
  assert (S4 : after (after s 3) 1 = after s 4) by (rewrite after_after by lia; reflexivity).
  pose proof (after_buf _ _ _ E3) as E4. rewrite S4 in E4.
  unfold bind at 1 in R1. rewrite (u8_cons _ _ _ E3), S4 in R1. unfold ret in R1.
  left. exists [b; x; y; z]. eexists. exists r. split; [reflexivity|]. cbn [index_value].
  replace (192 <=? b) with true by lia. split; [reflexivity|]. change (zlen [b; x; y; z]) with 4. split; [|exact E4].
  rewrite R1. f_equal. f_equal. unfold to_signed. cbn [from_le]. change (2 ^ (32 - 1)) with 2147483648. change (2 ^ 32) with 4294967296.
  replace (b + 256 * (x + 256 * (y + 256 * (z + 256 * 0)))) with (b + 256 * x + 65536 * y + 16777216 * z) by lia. reflexivity.
Qed.

Section Err.
Context (file : list Z) (Hf : bytes file) (old : option derr).
Definition known (e : derr) : Prop := error_explained file e \/ old = Some e.

(** The decoder is at a position of [file]; the error cell holds an explained error. *)
Definition J (s : st) : Prop :=
  0 <= d_pos s <= zlen file /\ d_buf s = skipn (Z.to_nat (d_pos s)) file /\
  errs s = kept old (d_log s) /\ Forall (error_explained file) (d_log s) /\ in_order (d_log s) (d_pos s).
Lemma in_order_le l p q : in_order l p -> p <= q -> in_order l q.
Proof. induction l as [|e l IH]; cbn; [auto|]. intros (H1 & H2 & H3) L. split; [lia|]. split; [auto|]. now apply IH. Qed.
Lemma in_order_snoc l e p : in_order l p -> e_pos e = p -> in_order (l ++ [e]) p.
Proof.
  induction l as [|x l IH]; cbn; intros H L; [repeat split; [lia|constructor]|]. destruct H as (H1 & H2 & H3). split; [lia|].
  split; [|now apply IH]. apply Forall_app. split; [auto|]. repeat constructor. lia.
Qed.
Lemma kept_app l e : forall c, kept c (l ++ [e]) =
  match kept c l with Some e0 => if never_replaces (e_kind e) then Some e0 else Some e | None => Some e end.
Proof. induction l as [|x l IH]; intros c; cbn; [reflexivity|apply IH]. Qed.
Lemma kept_in l : forall c e, kept c l = Some e -> In e l \/ c = Some e.
Proof.
  induction l as [|x l IH]; cbn; intros c e H; [auto|]. apply IH in H. destruct H as [H|H]; [auto|].
  destruct c as [e0|]; [destruct (never_replaces _)|]; injection H as <-; auto.
Qed.
(** the same after a crash *)
Definition Jx (s : st) : Prop :=
  0 <= d_pos s <= zlen file /\ d_buf s = skipn (Z.to_nat (d_pos s)) file /\
  errs s = kept old (d_log s) /\ Forall (error_left file) (d_log s) /\ in_order (d_log s) (d_pos s).
Lemma J_Jx s : J s -> Jx s.
Proof. intros (P & E & K & F & O). repeat (split; [assumption|]). split; [|auto]. eapply Forall_impl; [|exact F]. intros e H. now left. Qed.
Hint Resolve J_Jx : core.
Lemma J_known s : J s -> forall e, errs s = Some e -> known e.
Proof.
  intros (_ & _ & K & F & _) e H. rewrite K in H. apply kept_in in H. destruct H as [H|H]; [left|right; auto].
  rewrite Forall_forall in F. auto.
Qed.

Lemma J_bytes s : J s -> bytes (d_buf s).
Proof. intros (_ & E & _). rewrite E. now apply bytes_skipn. Qed.
Lemma J_len s : J s -> zlen (d_buf s) = zlen file - d_pos s.
Proof. intros (P & E & _). rewrite E. unfold zlen in *. rewrite skipn_length. lia. Qed.
Lemma J_split s : J s -> file = firstn (Z.to_nat (d_pos s)) file ++ d_buf s /\ zlen (firstn (Z.to_nat (d_pos s)) file) = d_pos s.
Proof.
  intros (P & E & _). rewrite E, firstn_skipn. split; [reflexivity|]. unfold zlen in *. rewrite firstn_length_le by lia. lia.
Qed.
Lemma J_after s n : J s -> 0 <= n <= zlen (d_buf s) -> J (after s n).
Proof.
  intros H Hn. pose proof (J_len s H). destruct H as (P & E & X). unfold J, after; cbn. split; [lia|]. split; [|destruct X as (X1 & X2 & X3); split; [exact X1|]; split; [exact X2|]; eapply in_order_le; [exact X3|lia]].
  rewrite E. rewrite Z2Nat.inj_add by lia. generalize (Z.to_nat (d_pos s)) (Z.to_nat n). intros a b. clear.
  revert a; induction file as [|x l IH]; intros [|a]; cbn; try reflexivity; [now destruct b|apply IH].
Qed.
Lemma J_errs s s' : J s -> d_buf s' = d_buf s -> d_pos s' = d_pos s -> errs s' = errs s -> d_log s' = d_log s -> J s'.
Proof. intros (P & E & X) Eb Ep Ee El. unfold J. rewrite Eb, Ep, Ee, El. auto. Qed.

Definition tr {A} (D : code -> Prop) (E : derr -> st -> Prop) (m : M A) (V : A -> code -> Prop) : Prop :=
  forall s r s', J s -> D (d_code s) -> m s = (r, s') ->
  match r with
  | Ok a => J s' /\ V a (d_code s')
  | Err e => J s' /\ E e s'
  | Panic p => crash_explained file p (d_pos s') /\ Jx s'
  end.
Definition none : derr -> st -> Prop := fun _ _ => False.
Definition cr : derr -> st -> Prop := fun e s => crash_explained file PUnwrap (d_pos s) /\
  error_explained file e /\ e = with_info NoMoreData (d_pos s).

Lemma tr_ret {A} (D : code -> Prop) E (a : A) (V : A -> code -> Prop) : (forall d, D d -> V a d) -> tr D E (ret a) V.
Proof. intros H s r s' Hs HD X. inversion X; subst. auto. Qed.
Lemma tr_bind {A B} D E (m : M A) V (k : A -> M B) W : tr D E m V -> (forall a, tr (V a) E (k a) W) -> tr D E (bind m k) W.
Proof.
  intros Hm Hk s r s' Hs HD X. unfold bind in X. destruct (m s) as [[a|e|p] s1] eqn:Em; pose proof (Hm _ _ _ Hs HD Em) as H; cbn in H.
  - destruct H as [J1 V1]. eapply Hk; eauto.
  - inversion X; subst; auto.
  - inversion X; subst; auto.
Qed.
Lemma tr_conseq {A} (D D' : code -> Prop) E (m : M A) (V V' : A -> code -> Prop) : tr D E m V -> (forall d, D' d -> D d) -> (forall a d, V a d -> V' a d) -> tr D' E m V'.
Proof.
  intros H HD HV s r s' Hs H' X. pose proof (H _ _ _ Hs (HD _ H') X) as Y. destruct r; auto. destruct Y; auto.
Qed.
Lemma tr_err {A} D (E E' : derr -> st -> Prop) (m : M A) V : tr D E m V -> (forall e s, J s -> E e s -> E' e s) -> tr D E' m V.
Proof. intros H HE s r s' Hs H' X. pose proof (H _ _ _ Hs H' X) as Y. destruct r; auto. destruct Y; auto. Qed.
Lemma tr_any {A} D E (m : M A) V : tr D none m V -> tr D E m V.
Proof. intros H. eapply tr_err; [exact H|]. intros e s _ []. Qed.
Lemma tr_unwrap {A} D E (m : M A) V : tr D cr m V -> tr D E (unwrap m) V.
Proof.
  intros H s r s' Hs HD X. unfold unwrap in X. destruct (m s) as [[a|e|p] s1] eqn:Em; pose proof (H _ _ _ Hs HD Em) as Y; cbn in Y; inversion X; subst; auto.
  destruct Y as (Y1 & Y2 & _). auto.
Qed.
Lemma J_log s s' e : J s -> d_buf s' = d_buf s -> d_pos s' = d_pos s -> e_pos e = d_pos s -> error_explained file e ->
  errs s' = match errs s with Some e0 => if never_replaces (e_kind e) then Some e0 else Some e | None => Some e end ->
  d_log s' = d_log s ++ [e] -> J s'.
Proof.
  intros (P & E & K & F & O) Eb Ep Pe He Ee El. unfold J. rewrite Eb, Ep, El, kept_app, Ee, K. split; [auto|]. split; [auto|]. split; [auto|].
  split; [apply Forall_app; split; [auto|constructor; auto]|]. now apply in_order_snoc.
Qed.
Lemma J_map s e : J s -> e_pos e = d_pos s -> error_explained file e -> never_replaces (e_kind e) = true -> J (snd (map_err e s)).
Proof. intros Hs P H Q. apply J_log with s e; auto. rewrite Q. cbn. destruct (errs s); reflexivity. Qed.
Lemma crash_nodata s : J s -> zlen (d_buf s) < 8 -> error_explained file (with_info NoMoreData (d_pos s)).
Proof. intros Hs L. pose proof (J_len s Hs). split; [apply Hs|]. cbn. lia. Qed.
Lemma tr_unwrap_mapped {A} D E (m : M A) V : tr D cr m V -> tr D E (unwrap_mapped m) V.
Proof.
  intros H s r s' Hs HD X. unfold unwrap_mapped in X. destruct (m s) as [[a|e|p] s1] eqn:Em; pose proof (H _ _ _ Hs HD Em) as Y; cbn in Y.
  - inversion X; subst; auto.
  - destruct Y as (Y1 & Y2 & Y3 & ->). assert (r = Panic PUnwrap) as -> by congruence.
    assert (s' = snd (map_err (with_info NoMoreData (d_pos s1)) s1)) as -> by congruence.
    split; [exact Y2|]. apply J_Jx. now apply J_map.
  - inversion X; subst; auto.
Qed.
Lemma tr_ok {A} D E (m : M A) V : tr D none m V -> tr D E (ok m) (fun o d => exists a, o = Some a /\ V a d).
Proof.
  intros H s r s' Hs HD X. unfold ok in X. destruct (m s) as [[a|e|p] s1] eqn:Em; pose proof (H _ _ _ Hs HD Em) as Y; cbn in Y; inversion X; subst; auto.
  - destruct Y; eauto.
  - destruct Y as [_ []].
Qed.
Lemma tr_ok_mapped {A} D E (m : M A) V : tr D none m V -> tr D E (ok_mapped m) (fun o d => exists a, o = Some a /\ V a d).
Proof.
  intros H s r s' Hs HD X. unfold ok_mapped in X. destruct (m s) as [[a|e|p] s1] eqn:Em; pose proof (H _ _ _ Hs HD Em) as Y; cbn in Y; inversion X; subst; auto.
  - destruct Y; eauto.
  - destruct Y as [_ []].
Qed.
Lemma tr_get_code D E : tr D E get_code (fun c d => c = d /\ D d).
Proof. intros s r s' Hs HD X. inversion X; subst. auto. Qed.
Lemma tr_get_pos D E : tr D E get_pos (fun _ d => D d).
Proof. intros s r s' Hs HD X. inversion X; subst. auto. Qed.
Lemma tr_put_code D E c : tr D E (put_code c) (fun _ d => d = c).
Proof. intros s r s' Hs HD X. inversion X; subst. cbn. split; [|reflexivity]. apply J_errs with s; auto. Qed.
Lemma tr_some {A} D E p (o : option A) a : o = Some a -> tr D E (expect p o) (fun x d => x = a /\ D d).
Proof. intros -> s r s' Hs HD X. inversion X; subst. auto. Qed.
Lemma tr_insert {A} D E (l : list A) i x : 0 <= i <= zlen l -> tr D E (vec_insert l i x) (fun l' d => zlen l' = zlen l + 1 /\ D d).
Proof.
  intros H s r s' Hs HD X. destruct (zinsert_some l i x H) as [l' L]. unfold vec_insert in X. rewrite L in X. inversion X; subst.
  split; [auto|]. split; [eapply zinsert_len; eauto|auto].
Qed.
Lemma tr_check (D : code -> Prop) : tr D (fun e _ => known e) check_error (fun _ d => D d).
Proof.
  intros s r s' Hs HD X. unfold check_error in X. destruct (errs s) eqn:Q; inversion X; subst; auto. split; [auto|]. apply (J_known s'); auto.
Qed.
Lemma tr_ok_check (D : code -> Prop) E : tr D E (ok check_error) (fun _ d => D d).
Proof.
  intros s r s' Hs HD X. unfold ok, check_error in X. destruct (errs s) eqn:Q; inversion X; subst; auto.
Qed.
Lemma tr_for_loop {A} E (Inv : Z -> A -> code -> Prop) (body : Z -> A -> M A) n : forall i acc,
  (forall j a, i <= j < i + Z.of_nat n -> tr (Inv j a) E (body j a) (Inv (j + 1))) ->
  tr (Inv i acc) E (for_loop n i body acc) (Inv (i + Z.of_nat n)).
Proof.
  induction n as [|n IH]; intros i acc H.
  - cbn [for_loop]. rewrite Z.add_0_r. apply tr_ret. auto.
  - cbn [for_loop]. eapply tr_bind; [apply H; lia|]. intros a. cbv beta.
    replace (i + Z.of_nat (S n)) with (i + 1 + Z.of_nat n) by lia. apply IH. intros j b Hj. apply H. lia.
Qed.
Lemma tr_for {A} E (Inv : Z -> A -> code -> Prop) (body : Z -> A -> M A) n acc : 0 <= n ->
  (forall j a, 0 <= j < n -> tr (Inv j a) E (body j a) (Inv (j + 1))) -> tr (Inv 0 acc) E (for_range n body acc) (Inv n).
Proof.
  intros Hn H. unfold for_range. pose proof (tr_for_loop E Inv body (Z.to_nat n) 0 acc) as L. rewrite Z2Nat.id in L by lia. now apply L.
Qed.
(** the most common loop: values with a property, appended or inserted at the loop index *)
Lemma tr_fill {A} D E (m : M A) (V : A -> Prop) n l0 : 0 <= n ->
  tr D E m (fun a d => V a /\ D d) ->
  tr D E (for_range n (fun i l => x <- m ;; vec_insert l i x) l0) (fun l d => zlen l = zlen l0 + n /\ D d).
Proof.
  intros Hn Hm. eapply tr_conseq; [apply (tr_for E (fun j l d => zlen l = zlen l0 + j /\ D d)); auto| |].
  - intros j a Hj. apply tr_bind with (V := fun x d => (zlen a = zlen l0 + j) /\ D d).
    + intros s r s' Hs [L HD] X. pose proof (Hm _ _ _ Hs HD X) as Y. destruct r; auto. tauto.
    + intros x. pose proof (zlen_nonneg l0).
      assert (Q : forall s, tr (fun d => zlen a = zlen l0 + j /\ D d) s (vec_insert a j x) (fun l d => zlen l = zlen l0 + (j + 1) /\ D d)).
      { intros Es s r s' Hs [L HD] X. pose proof (tr_insert D Es a j x ltac:(lia) _ _ _ Hs HD X) as Y. destruct r; auto.
        destruct Y as [Y1 [Y2 Y3]]. split; [auto|]. split; [lia|auto]. }
      apply Q.
  - cbn. intros d HD. split; [lia|auto].
  - cbn. tauto.
Qed.

(** * Leaf functions *)
Lemma index_ends s enc v : J s -> (exists rest, d_buf s = enc ++ rest) -> index_value enc = Some v ->
  index_ending file (d_pos s + zlen enc) v.
Proof.
  intros Hs [rest E] V. destruct (J_split s Hs) as [S L]. exists (firstn (Z.to_nat (d_pos s)) file), enc, rest.
  rewrite <- E. split; [auto|]. split; [lia|auto].
Qed.
Lemma index_value_range enc v : bytes enc -> index_value enc = Some v -> i32_range v.
Proof.
  intros B V. unfold i32_range. change (2 ^ 31) with 2147483648. unfold index_value in V.
  destruct enc as [|b [|x [|y [|z [|]]]]]; try discriminate; repeat (apply Forall_cons_iff in B; destruct B as [? B]); unfold is_byte in *.
  - destruct (Z.ltb_spec b 128); [|discriminate]. injection V as <-. lia.
  - destruct (Z.leb_spec 128 b), (Z.ltb_spec b 192); try discriminate. cbn [andb] in V. injection V as <-. destruct (Z.ltb_spec b 160); lia.
  - destruct (Z.leb_spec 192 b); [|discriminate]. cbv zeta in V. set (w := b + 256 * x + 65536 * y + 16777216 * z) in *. assert (0 <= w < 4294967296) by (unfold w; lia). clearbody w. destruct (Z.ltb_spec w 2147483648); inversion V; lia.
Qed.
Lemma short_crash s : J s -> zlen (d_buf s) < 4 -> crash_explained file PUnwrap (d_pos s).
Proof. intros Hs L. pose proof (J_len s Hs). destruct Hs as [P _]. split; [lia|]. left. lia. Qed.
Lemma INDEX_st s r s' : J s -> INDEX s = (r, s') ->
  match r with
  | Ok v => J s' /\ d_code s' = d_code s /\ errs s' = errs s /\ index_ending file (d_pos s') v /\ i32_range v /\
      exists enc, d_buf s = enc ++ d_buf s' /\ index_value enc = Some v
  | Err _ => False
  | Panic p => crash_explained file p (d_pos s') /\ Jx s'
  end.
Proof.
  intros Hs X. unfold INDEX, unwrap in X. pose proof (J_bytes s Hs) as B.
  destruct (read_index_exact s B) as [(enc & v & rest & E & V & R & Rb)|(L & N & n & Hn & R)].
  - rewrite R in X. inversion X; subst. assert (Hn : 0 <= zlen enc <= zlen (d_buf s)).
    { rewrite E, zlen_app. pose proof (zlen_nonneg enc). pose proof (zlen_nonneg (d_buf (after s (zlen enc)))). lia. }
    split; [now apply J_after|]. split; [reflexivity|]. split; [reflexivity|]. split; [apply (index_ends s enc); eauto|].
    split; [|eauto]. apply (index_value_range enc); [|auto]. rewrite E in B. now apply Forall_app in B.
  - assert (J1 : J (after s n)) by now apply J_after.
    assert (L1 : zlen (d_buf (after s n)) < 4). { rewrite (J_len _ J1). pose proof (J_len _ Hs). unfold after. cbn [d_pos]. lia. }
    destruct R as [[e R]|R]; rewrite R in X; inversion X; subst; exact (conj (short_crash _ J1 L1) (J_Jx _ J1)).
Qed.
Lemma tr_INDEX D E : tr D E INDEX (fun v d => i32_range v /\ D d).
Proof.
  intros s r s' Hs HD X. pose proof (INDEX_st _ _ _ Hs X) as Y. destruct r; [|contradiction|auto].
  destruct Y as (Y1 & Y2 & _ & _ & Y3 & _). rewrite Y2. auto.
Qed.
Lemma explained_known e : error_explained file e -> known e. Proof. now left. Qed.
Lemma J_record s e : J s -> error_explained file e -> e_pos e = d_pos s -> never_replaces (e_kind e) = false -> J (snd (record_error e s)).
Proof. intros Hs H P Q. apply J_log with s e; auto. rewrite Q. cbn. destruct (errs s); reflexivity. Qed.
Lemma UINDEX_st s r s' : J s -> UINDEX s = (r, s') ->
  match r with
  | Ok u => J s' /\ d_code s' = d_code s /\ 0 <= u <= I32_MAX /\ exists v enc, index_ending file (d_pos s') v /\
      d_buf s = enc ++ d_buf s' /\ index_value enc = Some v /\ u = Z.max 0 v
  | Err _ => False
  | Panic p => crash_explained file p (d_pos s') /\ Jx s'
  end.
Proof.
  intros Hs X. unfold UINDEX, bind, unwrap_mapped in X. destruct (INDEX s) as [[v|e|p] s1] eqn:E; pose proof (INDEX_st _ _ _ Hs E) as Y; cbn in Y.
  - destruct Y as (Y1 & Y2 & Y0 & Y3 & Y4 & enc & Y5 & Y6). unfold i32_range in Y4. unfold I32_MAX. destruct (Z.ltb_spec v 0).
    + cbn in X. inversion X; subst. cbn [d_code d_pos d_buf]. split.
      { apply (J_record s1 (with_info NegativeIndex (d_pos s1)) Y1); [|reflexivity|reflexivity]. split; [apply Y1|]. cbn. eauto. }
      split; [auto|]. split; [lia|]. exists v, enc. repeat split; auto. lia.
    + unfold ret in X. assert (r = Ok v) as -> by congruence. assert (s' = s1) as -> by congruence.
      split; [auto|]. split; [auto|]. split; [lia|]. exists v, enc. repeat split; auto. lia.
  - contradiction.
  - inversion X; subst. auto.
Qed.
Lemma tr_UINDEX D E : tr D E UINDEX (fun v d => 0 <= v <= I32_MAX /\ D d).
Proof.
  intros s r s' Hs HD X. pose proof (UINDEX_st _ _ _ Hs X) as Y. destruct r; [|contradiction|auto].
  destruct Y as (Y1 & Y2 & Y3 & _). rewrite Y2. auto.
Qed.
Lemma u8_st s r s' : J s -> decode_u8 s = (r, s') ->
  match r with
  | Ok b => J s' /\ s' = after s 1 /\ 0 <= b < 256 /\ znth file (d_pos s' - 1) = Some b
  | Err e => s' = s /\ crash_explained file PUnwrap (d_pos s') /\ error_explained file e /\ e = with_info NoMoreData (d_pos s')
  | Panic _ => False
  end.
Proof.
  intros Hs X. pose proof (J_bytes s Hs) as B. destruct (d_buf s) as [|b t] eqn:E.
  - rewrite u8_nil in X by auto. inversion X; subst. split; [auto|]. assert (L : zlen (d_buf s') < 4) by (rewrite E; cbn; lia).
    split; [now apply short_crash|]. split; [|reflexivity]. apply crash_nodata; [auto|lia].
  - rewrite (u8_cons _ _ _ E) in X. inversion X; subst. apply Forall_cons_iff in B. destruct B as [Hb _].
    split; [apply J_after; auto; rewrite E, zlen_cons; pose proof (zlen_nonneg t); lia|]. split; [auto|]. split; [exact Hb|].
    destruct (J_split s Hs) as [S L]. rewrite S, E, znth_app_r by (cbn; lia). cbn. rewrite L. replace (d_pos s + 1 - 1 - d_pos s) with 0 by lia. reflexivity.
Qed.
Lemma tr_u8 D : tr D cr decode_u8 (fun b d => 0 <= b < 256 /\ D d).
Proof.
  intros s r s' Hs HD X. pose proof (u8_st _ _ _ Hs X) as Y. destruct r as [b|e|p].
  - destruct Y as (Y1 & -> & Y3 & _). auto.
  - destruct Y as [-> Y]. auto.
  - contradiction.
Qed.
Lemma fixed_st n (f : list Z -> Z) s r s' : 0 <= n -> J s -> bind (read_bytes n) (fun bs => ret (f bs)) s = (r, s') ->
  match r with
  | Ok v => J s' /\ s' = after s n /\ n <= zlen (d_buf s) /\ v = f (firstn (Z.to_nat n) (d_buf s))
  | Err e => s' = s /\ e = with_info NoMoreData (d_pos s) /\ zlen (d_buf s) < n
  | Panic _ => False
  end.
Proof.
  intros Hn Hs X. unfold bind, read_bytes in X. destruct (Z.ltb_spec (zlen (d_buf s)) n) as [L|L].
  - inversion X; subst. auto.
  - inversion X; subst. split; [|auto]. now apply (J_after s n); auto.
Qed.
Lemma firstn4 (l : list Z) : 4 <= zlen l -> exists a b c d r, l = a :: b :: c :: d :: r.
Proof.
  intros H. destruct l as [|a [|b [|c [|d r]]]]; try (cbn in H; lia). now exists a, b, c, d, r.
Qed.
Lemma i32_st s r s' : J s -> decode_i32 s = (r, s') ->
  match r with
  | Ok v => J s' /\ d_code s' = d_code s /\ word_ending file (d_pos s') v
  | Err e => s' = s /\ e = with_info NoMoreData (d_pos s) /\ zlen (d_buf s) < 4
  | Panic _ => False
  end.
Proof.
  intros Hs X. pose proof (fixed_st 4 (fun bs => to_signed (8 * 4) (from_le bs)) s r s' ltac:(lia) Hs X) as Y. destruct r; auto.
  destruct Y as (Y1 & -> & Y3 & Y4). split; [auto|]. split; [auto|].
  destruct (firstn4 _ Y3) as (x & b & c & d & rest & E). destruct (J_split s Hs) as [S L].
  exists (firstn (Z.to_nat (d_pos s)) file), x, b, c, d, rest. split; [rewrite S at 1; rewrite E; reflexivity|].
  split; [cbn; lia|]. rewrite Y4, E. cbv zeta. change (firstn (Z.to_nat 4) (x :: b :: c :: d :: rest)) with [x; b; c; d].
  cbn [from_le]. unfold to_signed. change (2 ^ (8 * 4 - 1)) with 2147483648. change (2 ^ (8 * 4)) with 4294967296.
  replace (x + 256 * (b + 256 * (c + 256 * (d + 256 * 0)))) with (x + 256 * b + 65536 * c + 16777216 * d) by lia. reflexivity.
Qed.

(** * Names, types, opcodes *)
Definition good_code (c : code) : Prop :=
  declares_strings file (c_nstrings c) /\ declares_types file (c_ntypes c) /\
  0 <= c_nstrings c <= I32_MAX /\ 0 <= c_ntypes c <= I32_MAX /\ 0 <= c_ndebugfiles c <= I32_MAX /\
  znth file 3 = Some (c_version c).
Definition full (c : code) : Prop :=
  good_code c /\ c_ntypes c <= zlen (c_types c) /\ c_nstrings c <= zlen (c_ustrings c).
(** The decoder's copy of the module: the one being built, or (in a file without types) the empty one. *)
Definition D2 (c : code) : Prop :=
  full c \/ (c = code_new /\ declares_types file 0 /\ exists n, declares_strings file n).

Lemma to_i32_ok x s : x <= I32_MAX -> to_i32 x s = (Ok x, s).
Proof. intros H. unfold to_i32. destruct (Z.ltb_spec I32_MAX x); [lia|reflexivity]. Qed.

Lemma tr_get_type E : tr D2 E get_type (fun _ d => D2 d).
Proof.
  intros s r s' Hs HD X. unfold get_type in X. unfold bind at 1, unwrap in X.
  destruct (INDEX s) as [[v|e|p] s1] eqn:E1; pose proof (INDEX_st _ _ _ Hs E1) as Y; cbn in Y; [|contradiction|inversion X; subst; auto].
  destruct Y as (Y1 & Y2 & Y0 & Y3 & Y4 & _). unfold bind at 1 in X. cbn [get_code] in X. rewrite Y2 in X.
  assert (N : c_ntypes (d_code s) <= I32_MAX). { destruct HD as [[(_ & _ & _ & H & _) _]|[-> _]]; cbn; unfold I32_MAX in *; lia. }
  unfold bind at 1 in X. rewrite to_i32_ok in X by auto.
  destruct ((v <? 0) || (c_ntypes (d_code s) <=? v)) eqn:Q.
  - cbn [bind get_pos record_error] in X.
    set (s2 := {| d_buf := d_buf s1; d_pos := d_pos s1; d_code := d_code s1; errs := Some (with_info InvalidTypeIndex (d_pos s1)); d_log := _ |}) in X.
    assert (J2 : J s2).
    { apply (J_record s1 (with_info InvalidTypeIndex (d_pos s1)) Y1); [|reflexivity|reflexivity]. split; [apply Y1|]. cbn.
      destruct HD as [[G [T U]]|[C [T _]]]; [exists v, (c_ntypes (d_code s))|exists v, 0].
      - split; [auto|]. split; [apply G|]. lia.
      - split; [auto|]. split; [auto|]. lia. }
    destruct HD as [[G [T U]]|[C [T _]]].
    + destruct (znth (c_types (d_code s)) 0) as [t|] eqn:Z0.
      * cbn [expect] in X. inversion X; subst. split; [exact J2|]. cbn. rewrite Y2. left. split; auto.
      * cbn [expect] in X. inversion X; subst. split; [|exact (J_Jx _ J2)]. split; [apply Y1|]. right; left. exists v. split; [auto|]. right.
        assert (L : c_types (d_code s) = []) by (destruct (c_types (d_code s)); [auto|discriminate]).
        rewrite L in T. change (zlen (@nil vtype)) with 0 in T. destruct G as (_ & G & _ & G2 & _). replace 0 with (c_ntypes (d_code s)) by lia. auto.
    + rewrite C in X. cbn in X. inversion X; subst. split; [|exact (J_Jx _ J2)]. split; [apply Y1|]. right; left. exists v. auto.
  - destruct HD as [[G [T U]]|[C [T _]]].
    + destruct (znth (c_types (d_code s)) v) as [t|] eqn:Z0.
      * cbn [expect] in X. inversion X; subst. split; [auto|]. rewrite Y2. left. split; auto.
      * exfalso. rewrite (znth_nth _ _ vt_default) in Z0 by lia. discriminate.
    + rewrite C in Q. cbn in Q. lia.
Qed.

Lemma tr_read_string E : tr D2 E read_string (fun _ d => D2 d).
Proof.
  intros s r s' Hs HD X. unfold read_string in X. unfold bind at 1, unwrap_mapped in X.
  destruct (INDEX s) as [[v|e|p] s1] eqn:E1; pose proof (INDEX_st _ _ _ Hs E1) as Y; cbn in Y; [|contradiction|inversion X; subst; auto].
  destruct Y as (Y1 & Y2 & Y0 & Y3 & Y4 & _). unfold bind at 1 in X. cbn [get_code] in X. rewrite Y2 in X.
  assert (N : c_nstrings (d_code s) <= I32_MAX). { destruct HD as [[(_ & _ & H & _) _]|[-> _]]; cbn; unfold I32_MAX in *; lia. }
  unfold bind at 1 in X. rewrite to_i32_ok in X by auto.
  destruct ((v <? 0) || (c_nstrings (d_code s) <=? v)) eqn:Q.
  - cbn [bind get_pos record_error ret] in X. inversion X; subst. cbn [d_code]. rewrite Y2. split; [|auto].
    apply (J_record s1 (with_info InvalidStringIndex (d_pos s1)) Y1); [|reflexivity|reflexivity]. split; [apply Y1|]. cbn.
    destruct HD as [[G [T U]]|[C [T [n S]]]].
    + exists v, (c_nstrings (d_code s)). split; [auto|]. split; [apply G|]. lia.
    + exists v, n. auto.
  - destruct (znth (c_strings (d_code s)) v) as [t|] eqn:Z0; cbn [expect] in X; inversion X; subst.
    + rewrite Y2. auto.
    + split; [|auto]. split; [apply Y1|]. right; left. exists v. split; [auto|]. lia.
Qed.

Lemma D2_ustrings c u : full c -> zlen (c_ustrings c) <= zlen u -> full (set_ustrings u c).
Proof. intros (G & T & U) L. split; [exact G|]. split; [exact T|]. cbn. lia. Qed.
Lemma tr_read_ustring E : tr D2 E read_ustring (fun _ d => D2 d).
Proof.
  intros s r s' Hs HD X. unfold read_ustring in X. unfold bind at 1, unwrap in X.
  destruct (INDEX s) as [[v|e|p] s1] eqn:E1; pose proof (INDEX_st _ _ _ Hs E1) as Y; cbn in Y; [|contradiction|inversion X; subst; auto].
  destruct Y as (Y1 & Y2 & Y0 & Y3 & Y4 & _). unfold bind at 1 in X. cbn [get_code] in X. rewrite Y2 in X.
  assert (N : c_nstrings (d_code s) <= I32_MAX). { destruct HD as [[(_ & _ & H & _) _]|[-> _]]; cbn; unfold I32_MAX in *; lia. }
  unfold bind at 1 in X. rewrite to_i32_ok in X by auto.
  destruct ((v <? 0) || (c_nstrings (d_code s) <=? v)) eqn:Q.
  - cbn [bind get_pos record_error ret] in X. inversion X; subst. cbn [d_code]. rewrite Y2. split; [|auto].
    apply (J_record s1 (with_info InvalidStringIndex (d_pos s1)) Y1); [|reflexivity|reflexivity]. split; [apply Y1|]. cbn.
    destruct HD as [[G [T U]]|[C [T [n S]]]].
    + exists v, (c_nstrings (d_code s)). split; [auto|]. split; [apply G|]. lia.
    + exists v, n. auto.
  - destruct HD as [[G [T U]]|[C _]]; [|rewrite C in Q; cbn in Q; lia].
    assert (F : full (d_code s)) by (split; auto).
    assert (R : 0 <= v < zlen (c_ustrings (d_code s))) by lia.
    assert (GU : exists x c', get_ustring (d_code s) v = Ok (x, c') /\ full c').
    { unfold get_ustring. rewrite (znth_nth _ _ None) by lia. destruct (nth _ _ None) as [x|]; [eauto|].
      destruct (znth (c_strings (d_code s)) v) as [x|];
        [destruct (zinsert_some (c_ustrings (d_code s)) v (Some x) ltac:(lia)) as [u Hu]
        |destruct (zinsert_some (c_ustrings (d_code s)) v None ltac:(lia)) as [u Hu]];
        rewrite Hu; eexists _, _; (split; [reflexivity|apply D2_ustrings; [auto|rewrite (zinsert_len _ _ _ _ Hu); lia]]). }
    destruct GU as (x & c' & GU & F'). rewrite GU in X. cbn in X. inversion X; subst. cbn. split; [|left; exact F'].
    apply J_errs with s1; auto.
Qed.

Create HintDb tr.
Hint Resolve tr_get_type tr_read_string tr_read_ustring : tr.

Lemma tr_gt E : tr D2 E (unwrap get_type) (fun _ d => D2 d). Proof. apply tr_unwrap, tr_get_type. Qed.
Lemma tr_us E : tr D2 E (unwrap read_ustring) (fun _ d => D2 d). Proof. apply tr_unwrap, tr_read_ustring. Qed.
Lemma tr_ui D E : tr D E (unwrap UINDEX) (fun v d => 0 <= v <= I32_MAX /\ D d). Proof. apply tr_unwrap, tr_UINDEX. Qed.
Lemma tr_uim D E : tr D E (unwrap_mapped UINDEX) (fun v d => 0 <= v <= I32_MAX /\ D d). Proof. apply tr_unwrap_mapped, tr_UINDEX. Qed.
Lemma tr_ix D E : tr D E (unwrap INDEX) (fun v d => i32_range v /\ D d). Proof. apply tr_unwrap, tr_INDEX. Qed.
Lemma tr_b8 D E : tr D E (unwrap decode_u8) (fun v d => 0 <= v < 256 /\ D d). Proof. apply tr_unwrap, tr_u8. Qed.

(** [bind] with a pure fact about the value. *)
Lemma tr_bindV {A B} D E (m : M A) (P : A -> Prop) (k : A -> M B) W :
  tr D E m (fun a d => P a /\ D d) -> (forall a, P a -> tr D E (k a) W) -> tr D E (bind m k) W.
Proof.
  intros Hm Hk. eapply tr_bind; [exact Hm|]. intros a s r s' Hs [HP HD] X. eapply Hk; eauto.
Qed.
Lemma tr_bind0 {A B} D E (m : M A) (k : A -> M B) W :
  tr D E m (fun _ d => D d) -> (forall a, tr D E (k a) W) -> tr D E (bind m k) W.
Proof. intros Hm Hk. eapply tr_bind; [exact Hm|]. auto. Qed.
(** Loops whose body gives one element at the loop index. *)
Lemma tr_loop1 {A} D E (body : Z -> list A -> M (list A)) n : 0 <= n ->
  (forall j l, 0 <= j < n -> zlen l = j -> tr D E (body j l) (fun l' d => zlen l' = zlen l + 1 /\ D d)) ->
  tr D E (for_range n body []) (fun l d => zlen l = n /\ D d).
Proof.
  intros Hn H. eapply tr_conseq; [apply (tr_for E (fun j l d => zlen l = j /\ D d)); auto| |].
  - intros j l Hj s r s' Hs [L HD] X. pose proof (H j l Hj L _ _ _ Hs HD X) as Y. destruct r; auto.
    destruct Y as (Y1 & Y2 & Y3). split; [auto|]. split; [lia|auto].
  - cbn. intros d HD. auto.
  - cbn. auto.
Qed.
Lemma tr_read_fields E n : 0 <= n -> tr D2 E (read_fields n) (fun _ d => D2 d).
Proof.
  intros Hn. unfold read_fields. eapply tr_conseq; [apply (tr_loop1 D2 E); [auto|]|auto|cbn; tauto]. intros j l Hj Hl.
  apply tr_bind0; [apply tr_us|]. intros x. apply tr_bind0; [apply tr_gt|]. intros t. apply tr_insert. lia.
Qed.
Lemma tr_read_protos E n : 0 <= n -> tr D2 E (read_protos n) (fun _ d => D2 d).
Proof.
  intros Hn. unfold read_protos. eapply tr_conseq; [apply (tr_loop1 D2 E); [auto|]|auto|cbn; tauto]. intros j l Hj Hl.
  apply tr_bind0; [apply tr_us|]. intros x. eapply tr_bindV; [apply tr_ui|]. cbv beta; intros f _.
  eapply tr_bindV; [apply tr_ix|]. cbv beta; intros p _. apply tr_insert. lia.
Qed.
Lemma tr_read_type_refs E n : 0 <= n -> tr D2 E (read_type_refs n) (fun _ d => D2 d).
Proof.
  intros Hn. unfold read_type_refs. eapply tr_conseq; [apply (tr_loop1 D2 E); [auto|]|auto|cbn; tauto]. intros j l Hj Hl.
  apply tr_bind0; [apply tr_gt|]. intros t. apply tr_insert. lia.
Qed.
Lemma tr_read_constructs E n : 0 <= n -> tr D2 E (read_constructs n) (fun _ d => D2 d).
Proof.
  intros Hn. unfold read_constructs. eapply tr_conseq; [apply (tr_loop1 D2 E); [auto|]|auto|cbn; tauto]. intros j l Hj Hl.
  apply tr_bind0; [apply tr_us|]. intros x. eapply tr_bindV; [apply tr_ui|]. cbv beta; intros np Hnp.
  apply tr_bind0; [apply tr_read_type_refs; lia|]. intros ps. apply tr_insert. lia.
Qed.
Lemma tr_read_bindings E n : 0 <= n -> tr D2 E (read_bindings n) (fun _ d => D2 d).
Proof.
  intros Hn. unfold read_bindings. eapply tr_conseq; [apply (tr_for E (fun j l d => zlen l = 2 * j /\ D2 d)); auto| |].
  - intros j l Hj s r s' Hs [L HD] X. revert s r s' Hs HD X.
    change (tr D2 E (a <- unwrap UINDEX ;; l1 <- vec_insert l (2 * j) a ;; b <- unwrap UINDEX ;; vec_insert l1 (2 * j + 1) b) (fun l d => zlen l = 2 * (j + 1) /\ D2 d)).
    eapply tr_bindV; [apply tr_ui|]. cbv beta; intros a _. eapply tr_bindV; [apply tr_insert; lia|]. cbv beta; intros l1 L1.
    eapply tr_bindV; [apply tr_ui|]. cbv beta; intros b _. eapply tr_conseq; [apply (tr_insert D2 E); lia|auto|]. cbv beta. intros l2 d [L2 HD]. split; [lia|auto].
  - cbn. auto.
  - cbn. tauto.
Qed.
(** the super type *)
Lemma tr_super E : tr D2 E (i <- unwrap INDEX ;; c <- get_code ;;
    (if i <? 0 then ret vt_default else expect PUnwrap (znth (c_types c) i))) (fun _ d => D2 d).
Proof.
  intros s r s' Hs HD X. unfold bind at 1, unwrap in X.
  destruct (INDEX s) as [[v|e|p] s1] eqn:E1; pose proof (INDEX_st _ _ _ Hs E1) as Y; cbn in Y; [|contradiction|inversion X; subst; auto].
  destruct Y as (Y1 & Y2 & Y0 & Y3 & Y4 & _). unfold bind at 1 in X. cbn [get_code] in X. rewrite Y2 in X.
  destruct (Z.ltb_spec v 0).
  - inversion X; subst. rewrite Y2. auto.
  - destruct (znth (c_types (d_code s)) v); cbn [expect] in X; inversion X; subst.
    + rewrite Y2. auto.
    + split; [|auto]. split; [apply Y1|]. right; left. exists v. auto.
Qed.
Lemma bind_assoc {A B C} (m : M A) (k : A -> M B) (h : B -> M C) s : bind (bind m k) h s = bind m (fun a => bind (k a) h) s.
Proof. unfold bind. destruct (m s) as [[]]; reflexivity. Qed.
Lemma tr_eq {A} D E (m m' : M A) V : (forall s, m s = m' s) -> tr D E m' V -> tr D E m V.
Proof. intros H T s r s' Hs HD X. rewrite H in X. eapply T; eauto. Qed.

Lemma tr_super_bind {B} E (k : vtype -> M B) W : (forall t, tr D2 E (k t) W) ->
  tr D2 E (i <- unwrap INDEX ;; c <- get_code ;;
    super <- (if i <? 0 then ret vt_default else expect PUnwrap (znth (c_types c) i)) ;; k super) W.
Proof.
  intros H. apply tr_eq with (m' := bind (i <- unwrap INDEX ;; c <- get_code ;; (if i <? 0 then ret vt_default else expect PUnwrap (znth (c_types c) i))) k); [|apply tr_bind0; [apply tr_super|exact H]]. intros s. unfold bind, get_code.
  destruct (unwrap INDEX s) as [[i|e|p] s1]; try reflexivity.
Qed.

Lemma tr_read_type E : tr D2 E read_type (fun _ d => D2 d).
Proof.
  intros s r s' Hs HD X. unfold read_type in X. unfold bind at 1, unwrap at 1 in X.
  destruct (decode_u8 s) as [[v|e|p] s1] eqn:E1; pose proof (u8_st _ _ _ Hs E1) as Y; cbn in Y;
    [|inversion X; subst; destruct Y as [-> [Y _]]; auto|contradiction].
  destruct Y as (Y1 & Ys & Y2 & Y3).
  assert (HD1 : D2 (d_code s1)) by (rewrite Ys; exact HD).
  destruct (Z.leb_spec HLAST v) as [L|L].
  { unfold bind, get_pos, map_err, ret in X. inversion X; subst r s'. cbn [d_code]. split; [|auto].
    apply (J_map s1 (with_info InvalidType (d_pos s1)) Y1); [reflexivity| |reflexivity]. split; [apply Y1|]. cbn. exists v. auto. }
  clear E1 Ys HD Hs. revert s1 r s' Y1 X Y3 HD1.
  match goal with |- forall s1 r s', _ -> ?m s1 = _ -> _ => assert (T : tr D2 E m (fun _ d => D2 d)) end.
  2:{ intros s1 r s' Y1 X _ HD1. exact (T s1 r s' Y1 HD1 X). }
  destruct ((v =? HFUN) || (v =? HMETHOD)).
  { eapply tr_bindV; [apply tr_b8|]. cbv beta; intros n Hn. apply tr_bind0; [apply tr_read_type_refs; lia|]. intros args.
    apply tr_bind0; [apply tr_gt|]. intros t. apply tr_ret. auto. }
  destruct ((v =? HOBJ) || (v =? HSTRUCT)).
  { apply tr_bind0; [apply tr_us|]. intros name.
    apply tr_super_bind. intros super.
    eapply tr_bindV; [apply tr_ui|]. cbv beta; intros g _. eapply tr_bindV; [apply tr_ui|]. cbv beta; intros nf Hnf.
    eapply tr_bindV; [apply tr_ui|]. cbv beta; intros np Hnp. eapply tr_bindV; [apply tr_ui|]. cbv beta; intros nb Hnb.
    apply tr_bind0; [apply tr_read_fields; lia|]. intros fs. apply tr_bind0; [apply tr_read_protos; lia|]. intros ps.
    apply tr_bind0; [apply tr_read_bindings; lia|]. intros bs. apply tr_ret. auto. }
  destruct (v =? HREF). { apply tr_bind0; [apply tr_gt|]. intros t. apply tr_ret. auto. }
  destruct (v =? HVIRTUAL).
  { eapply tr_bindV; [apply tr_ui|]. cbv beta; intros nf Hnf. apply tr_bind0; [apply tr_read_fields; lia|]. intros fs. apply tr_ret. auto. }
  destruct (v =? HABSTRACT). { apply tr_bind0; [apply tr_us|]. intros t. apply tr_ret. auto. }
  destruct (v =? HENUM).
  { apply tr_bind0; [apply tr_us|]. intros name. eapply tr_bindV; [apply tr_ui|]. cbv beta; intros g _.
    eapply tr_bindV; [apply tr_ui|]. cbv beta; intros nc Hnc. apply tr_bind0; [apply tr_read_constructs; lia|]. intros cs. apply tr_ret. auto. }
  destruct ((v =? HNULL) || (v =? HPACKED)). { apply tr_bind0; [apply tr_gt|]. intros t. apply tr_ret. auto. }
  apply tr_ret. auto.
Qed.

(** * String tables *)
Lemma tr_strings_loop D E n : forall text cur ss ls, tr D E (strings_loop n text cur ss ls) (fun _ d => D d).
Proof.
  induction n as [|n IH]; intros text cur ss ls; cbn [strings_loop]; [apply tr_ret; auto|].
  intros s r s' Hs HD X. unfold bind at 1, unwrap in X.
  destruct (UINDEX s) as [[v|e|p] s1] eqn:E1; pose proof (UINDEX_st _ _ _ Hs E1) as Y; cbn in Y; [|contradiction|inversion X; subst; auto].
  destruct Y as (Y1 & Y2 & Y3 & w & enc & Y4 & _).
  assert (P : crash_explained file PSlice (d_pos s1)) by (split; [apply Y1|]; left; eauto).
  unfold bind at 1 in X. destruct (str_from text cur) as [tl|]; cbn [expect] in X; [|inversion X; subst; auto].
  unfold bind at 1, ret at 1 in X. destruct (str_to tl v) as [x|]; cbn [expect] in X; [|inversion X; subst; auto].
  unfold ret at 1 in X. cbv zeta in X. destruct (_ <=? _).
  - inversion X; subst. rewrite Y2. auto.
  - eapply (IH text (cur + v + 1)); [exact Y1| |exact X]. now rewrite Y2.
Qed.
Lemma tr_read_strings D E n ls : tr D E (read_strings n ls) (fun _ d => D d).
Proof.
  intros s r s' Hs HD X. unfold read_strings in X. unfold bind at 1, unwrap at 1 in X.
  destruct (decode_i32 s) as [[v|e|p] s1] eqn:E1; pose proof (i32_st _ _ _ Hs E1) as Y; cbn in Y;
    [|inversion X; subst; destruct Y as (-> & _ & Y); split; [now apply short_crash|auto]|contradiction].
  destruct Y as (Y1 & Y2 & Y3). cbv zeta in X. unfold bind at 1 in X. pose proof (J_len _ Y1) as L.
  assert (Hv : i32_as_usize v = (if v <? 0 then v + 18446744073709551616 else v)) by reflexivity.
  assert (Rv : -2147483648 <= v).
  { destruct Y3 as (pre & a & b & c & d & rest & Ef & _ & V). rewrite Ef in Hf. apply Forall_app in Hf. destruct Hf as [_ B4].
    apply Forall_app in B4. destruct B4 as [B4 _]. repeat (apply Forall_cons_iff in B4; destruct B4 as [? B4]). unfold is_byte in *.
    cbv zeta in V. set (w := a + 256 * b + 65536 * c + 16777216 * d) in *. assert (0 <= w) by (unfold w; lia). clearbody w. destruct (Z.ltb_spec w 2147483648); lia. }
  destruct (Z.ltb_spec (zlen (d_buf s1)) (i32_as_usize v)).
  - inversion X; subst. split; [|auto]. split; [apply Y1|]. right. exists v. split; [auto|]. destruct (Z.ltb_spec v 0); [auto|right; lia].
  - unfold bind at 1, advance in X. destruct (Z.ltb_spec (zlen (d_buf s1)) (i32_as_usize v)); [lia|].
    eapply (tr_strings_loop D E); [| |exact X]; [|cbn; rewrite Y2; exact HD].
    apply (J_after s1 (i32_as_usize v)); [auto|]. split; [|lia]. rewrite Hv. destruct (Z.ltb_spec v 0); lia.
Qed.

(** * Instructions *)
Lemma tr_read_extra D E m n (P : Z -> Prop) : 0 <= n -> (forall E, tr D E m (fun v d => P v /\ D d)) ->
  tr D E (read_extra m n) (fun _ d => D d).
Proof.
  intros Hn Hm. unfold read_extra. eapply tr_conseq; [apply (tr_fill D E (unwrap m) P); [auto|apply tr_unwrap, Hm]|auto|cbv beta; tauto].
Qed.
Lemma nargs_cases n : 0 <= n < 99 -> exists a, znth OP_NARGS n = Some a /\ -1 <= a <= 6 /\
  (a = -1 -> ((n =? OCallN) || (n =? OCallClosure) || (n =? OCallMethod) || (n =? OCallThis) || (n =? OMakeEnum) = true \/ (n =? OSwitch) = true)).
Proof.
  intros H.
  set (f := fun n => match znth OP_NARGS n with
    | Some a => (-1 <=? a) && (a <=? 6) && (negb (a =? -1) || ((n =? OCallN) || (n =? OCallClosure) || (n =? OCallMethod) || (n =? OCallThis) || (n =? OMakeEnum) || (n =? OSwitch)))
    | None => false end).
  assert (F : forallb f (map Z.of_nat (seq 0 99)) = true) by (vm_compute; reflexivity).
  rewrite forallb_forall in F. specialize (F n). assert (I : In n (map Z.of_nat (seq 0 99))).
  { apply in_map_iff. exists (Z.to_nat n). split; [lia|]. apply in_seq. lia. }
  specialize (F I). unfold f in F. destruct (znth OP_NARGS n) as [a|]; [|discriminate]. exists a. split; [reflexivity|].
  apply andb_true_iff in F. destruct F as [F1 F2]. split; [lia|]. intros ->. apply orb_true_iff in F2. destruct F2 as [F2|F2]; [discriminate|]. apply orb_true_iff in F2. exact F2.
Qed.
Lemma tr_opcode_args E n a : 0 <= n < 99 -> znth OP_NARGS n = Some a -> -1 <= a <= 6 ->
  (a = -1 -> ((n =? OCallN) || (n =? OCallClosure) || (n =? OCallMethod) || (n =? OCallThis) || (n =? OMakeEnum) = true \/ (n =? OSwitch) = true)) ->
  tr D2 E (
    nargs <- expect PUnwrap (znth OP_NARGS n) ;;
    if nargs =? 0 then ret (mkop n None None None [])
    else if nargs =? 1 then
      p1 <- unwrap INDEX ;; ret (mkop n (Some p1) None None [])
    else if nargs =? 2 then
      p1 <- unwrap INDEX ;; p2 <- unwrap INDEX ;; ret (mkop n (Some p1) (Some p2) None [])
    else if nargs =? 3 then
      p1 <- unwrap INDEX ;; p2 <- unwrap INDEX ;; p3 <- unwrap INDEX ;;
      ret (mkop n (Some p1) (Some p2) (Some p3) [])
    else if nargs =? 4 then
      p1 <- unwrap INDEX ;; p2 <- unwrap INDEX ;; p3 <- unwrap INDEX ;;
      x <- unwrap INDEX ;;
      ret (mkop n (Some p1) (Some p2) (Some p3) [x])
    else if nargs =? -1 then
      if (n =? OCallN) || (n =? OCallClosure) || (n =? OCallMethod) || (n =? OCallThis)
         || (n =? OMakeEnum) then
        p1 <- unwrap INDEX ;; p2 <- unwrap INDEX ;; p3 <- unwrap decode_u8 ;;
        extra <- read_extra INDEX p3 ;;
        ret (mkop n (Some p1) (Some p2) (Some p3) extra)
      else if n =? OSwitch then
        p1 <- unwrap UINDEX ;; p2 <- unwrap UINDEX ;;
        extra <- read_extra UINDEX p2 ;;
        p3 <- unwrap UINDEX ;;
        ret (mkop n (Some p1) (Some p2) (Some p3) extra)
      else p <- get_pos ;; throw (with_info CouldNotProcessOpcode p)
    else
      let size := nargs - 3 in
      p1 <- unwrap INDEX ;; p2 <- unwrap INDEX ;; p3 <- unwrap INDEX ;;
      (if size <? 0 then crash PTryInto else ret tt) ;;;
      extra <- read_extra INDEX size ;;
      ret (mkop n (Some p1) (Some p2) (Some p3) extra)) (fun _ d => D2 d).
Proof.
  intros Hn Ha Ra Va. eapply tr_bind; [apply (tr_some D2 E PUnwrap _ a Ha)|]. cbv beta. intros a'.
  intros s r s' Hs [-> HD]. revert s r s' Hs HD.
  match goal with |- forall s r s', _ -> _ -> ?m s = _ -> _ => change (tr D2 E m (fun _ d => D2 d)) end.
  assert (TI : forall E, tr D2 E INDEX (fun v d => i32_range v /\ D2 d)) by (intros; apply tr_INDEX).
  assert (TU : forall E, tr D2 E UINDEX (fun v d => 0 <= v <= I32_MAX /\ D2 d)) by (intros; apply tr_UINDEX).
  destruct (Z.eqb_spec a 0); [apply tr_ret; auto|].
  destruct (Z.eqb_spec a 1). { eapply tr_bindV; [apply tr_ix|]. cbv beta; intros p1 _. apply tr_ret; auto. }
  destruct (Z.eqb_spec a 2). { do 2 (eapply tr_bindV; [apply tr_ix|]; cbv beta; intros ? _). apply tr_ret; auto. }
  destruct (Z.eqb_spec a 3). { do 3 (eapply tr_bindV; [apply tr_ix|]; cbv beta; intros ? _). apply tr_ret; auto. }
  destruct (Z.eqb_spec a 4). { do 4 (eapply tr_bindV; [apply tr_ix|]; cbv beta; intros ? _). apply tr_ret; auto. }
  destruct (Z.eqb_spec a (-1)) as [M|M].
  - specialize (Va M). destruct (_ || (n =? OMakeEnum)).
    + do 2 (eapply tr_bindV; [apply tr_ix|]; cbv beta; intros ? _). eapply tr_bindV; [apply tr_b8|]. cbv beta; intros p3 H3.
      apply tr_bind0; [apply (tr_read_extra D2 E INDEX p3 i32_range); [lia|exact TI]|]. intros x. apply tr_ret; auto.
    + destruct Va as [Va| ->]; [discriminate|].
      eapply tr_bindV; [apply tr_ui|]; cbv beta; intros ? _. eapply tr_bindV; [apply tr_ui|]; cbv beta; intros p2 H2.
      apply tr_bind0; [apply (tr_read_extra D2 E UINDEX p2 (fun v => 0 <= v <= I32_MAX)); [lia|exact TU]|]. intros x.
      eapply tr_bindV; [apply tr_ui|]; cbv beta; intros ? _. apply tr_ret; auto.
  - cbv zeta. do 3 (eapply tr_bindV; [apply tr_ix|]; cbv beta; intros ? _).
    destruct (Z.ltb_spec (a - 3) 0); [lia|].
    apply tr_bind0; [apply tr_ret; auto|]. intros _.
    apply tr_bind0; [apply (tr_read_extra D2 E INDEX (a - 3) i32_range); [lia|exact TI]|]. intros x. apply tr_ret; auto.
Qed.
Lemma tr_read_opcode E : tr D2 E read_opcode (fun _ d => D2 d).
Proof.
  intros s r s' Hs HD X. unfold read_opcode in X. unfold bind at 1, unwrap at 1 in X.
  destruct (decode_u8 s) as [[v|e|p] s1] eqn:E1; pose proof (u8_st _ _ _ Hs E1) as Y; cbn in Y;
    [|inversion X; subst; destruct Y as [-> [Y _]]; auto|contradiction].
  destruct Y as (Y1 & Ys & Y2 & Y3).
  assert (HD1 : D2 (d_code s1)) by (rewrite Ys; exact HD).
  destruct (Z.leb_spec 99 v) as [L|L].
  { cbn [bind get_pos record_error ret] in X. inversion X; subst r s'. cbn [d_code]. split; [|auto].
    apply (J_record s1 (with_info InvalidOpcode (d_pos s1)) Y1); [|reflexivity|reflexivity]. split; [apply Y1|]. cbn. exists v. auto. }
  destruct (nargs_cases v ltac:(lia)) as (a & Ha & Ra & Va).
  eapply (tr_opcode_args E v a); try eassumption. lia.
Qed.
Lemma tr_read_function E : tr D2 E read_function (fun f d => 0 <= hf_nops f <= I32_MAX /\ D2 d).
Proof.
  unfold read_function. apply tr_bind0; [apply tr_gt|]. intros t.
  eapply tr_bindV; [apply tr_ui|]. cbv beta; intros fi _. eapply tr_bindV; [apply tr_ui|]. cbv beta; intros nr Hnr.
  eapply tr_bindV; [apply tr_ui|]. cbv beta; intros no Hno.
  apply tr_bind0.
  { eapply tr_conseq; [apply (tr_loop1 D2 E); [lia|]|auto|cbv beta; tauto]. intros j l Hj Hl.
    apply tr_bind0; [apply tr_unwrap_mapped, tr_get_type|]. intros x. apply tr_insert. lia. }
  intros regs. apply tr_bind0; [apply tr_ok_check|]. intros [u|].
  - apply tr_bind0.
    { eapply tr_conseq; [apply (tr_loop1 D2 E); [lia|]|auto|cbv beta; tauto]. intros j l Hj Hl.
      apply tr_bind0; [apply tr_unwrap, tr_read_opcode|]. intros x. apply tr_insert. lia. }
    intros ops. apply tr_ret. auto.
  - apply tr_ret. auto.
Qed.

(** * Debug information *)
Lemma D2_ndebug c : D2 c -> c_ndebugfiles c <= I32_MAX.
Proof. intros [[(_ & _ & _ & _ & H & _) _]|[-> _]]; cbn; unfold I32_MAX in *; lia. Qed.
Lemma zset_len {A} (l : list A) : forall i x l', zset l i x = Some l' -> zlen l' = zlen l.
Proof.
  induction l as [|y l IH]; intros i x l' H; [discriminate|]. cbn in H. destruct (i =? 0).
  - inversion H; subst. reflexivity.
  - destruct (zset l (i - 1) x) eqn:Q; inversion H; subst. rewrite !zlen_cons. now rewrite (IH _ _ _ Q).
Qed.
Lemma zset_some {A} (l : list A) : forall i x, 0 <= i < zlen l -> exists l', zset l i x = Some l'.
Proof.
  induction l as [|y l IH]; intros i x H; [cbn in H; lia|]. cbn. destruct (Z.eqb_spec i 0); [eauto|].
  rewrite zlen_cons in H. destruct (IH (i - 1) x ltac:(lia)) as [l' ->]. cbn. eauto.
Qed.
Lemma debug_store_st d i f l n s : zlen d = 2 * n -> 0 <= i < n -> exists d', debug_store d i f l s = (Ok d', s) /\ zlen d' = 2 * n.
Proof.
  intros L Hi. unfold debug_store, bind. destruct (zset_some d (2 * i) f ltac:(lia)) as [d1 H1]. rewrite H1. cbn [expect ret].
  pose proof (zset_len _ _ _ _ H1) as L1. destruct (zset_some d1 (2 * i + 1) l ltac:(lia)) as [d2 H2]. rewrite H2. cbn [expect ret].
  exists d2. split; [reflexivity|]. pose proof (zset_len _ _ _ _ H2). lia.
Qed.
Lemma shr_byte c k : 0 <= k -> Z.shiftr c k = c / 2 ^ k. Proof. apply Z.shiftr_div_pow2. Qed.
Lemma debug_loop_st fuel : forall nops i cf cl d s r s', J s -> D2 (d_code s) -> 0 <= i -> zlen d = 2 * nops ->
  0 <= cl <= 31 * d_pos s + 255 ->
  debug_loop fuel nops i cf cl d s = (r, s') ->
  match r with
  | Ok a => J s' /\ D2 (d_code s')
  | Err _ => False
  | Panic p => p = PFuel \/ (crash_explained file p (d_pos s') /\ Jx s')
  end.
Proof.
  induction fuel as [|fuel IH]; intros nops i cf cl d s r s' Hs HD Hi Hd Hcl X; cbn [debug_loop] in X; [inversion X; subst; auto|].
  destruct (Z.ltb_spec i nops) as [Hin|Hin]; [|inversion X; subst; auto].
  assert (B8 : forall s, J s -> (exists b, unwrap decode_u8 s = (Ok b, after s 1) /\ J (after s 1) /\ 0 <= b < 256 /\ znth file (d_pos s) = Some b) \/
     (unwrap decode_u8 s = (Panic PUnwrap, s) /\ (crash_explained file PUnwrap (d_pos s) /\ Jx s))).
  { clear - Hf. intros s Hs. unfold unwrap. destruct (decode_u8 s) as [[b|e|p] s1] eqn:E1; pose proof (u8_st _ _ _ Hs E1) as Y; cbn in Y.
    - left. destruct Y as (Y1 & -> & Y2 & Y3). exists b. cbn in Y3. replace (d_pos s + 1 - 1) with (d_pos s) in Y3 by lia. auto.
    - right. destruct Y as [-> [Y _]]. auto.
    - contradiction. }
  unfold bind at 1 in X. destruct (B8 s Hs) as [(c & E1 & J1 & Hc & F1)|[E1 P1]]; rewrite E1 in X; [|inversion X; subst; auto].
  assert (HD1 : D2 (d_code (after s 1))) by exact HD.
  assert (P1 : d_pos (after s 1) = d_pos s + 1) by reflexivity.
  assert (O : forall x s0, 0 <= x -> (i32_add cl x s0 = (Ok (cl + x), s0)) \/ (i32_add cl x s0 = (Panic POverflow, s0) /\ I32_MAX < cl + x)).
  { intros x s0 Hx. unfold i32_add. destruct (Z.ltb_spec I32_MAX (cl + x)); [right|left]; auto. }
  assert (OV : forall x, 0 <= x <= 31 -> I32_MAX < cl + x -> J (after s 1) -> crash_explained file POverflow (d_pos (after s 1))).
  { intros x Hx H HJ. split; [apply HJ|]. destruct HJ as [HJ _]. cbn in HJ. unfold I32_MAX in H. change (2 ^ 26) with 67108864. lia. }
  destruct (negb (Z.land c 1 =? 0)) eqn:Q1.
  { unfold bind at 1 in X. destruct (B8 _ J1) as [(b & E2 & J2 & Hb & F2)|[E2 P2]]; rewrite E2 in X; [|inversion X; subst; auto].
    unfold bind at 1 in X. cbn [get_code] in X. unfold bind at 1 in X. rewrite to_i32_ok in X by (apply D2_ndebug; exact HD).
    unfold bind at 1 in X. cbn [get_pos] in X.
    match type of X with bind ?m _ _ = _ => assert (T : exists s2, m (after (after s 1) 1) = (Ok tt, s2) /\ J s2 /\ D2 (d_code s2) /\ d_pos s2 = d_pos s + 2) end.
    { destruct (_ <=? _).
      - eexists. split; [reflexivity|]. split; [|split; [exact HD|cbn; lia]].
        apply (J_record _ (with_info InvalidDebugFile (d_pos (after (after s 1) 1))) J2); [|reflexivity|reflexivity]. split; [apply J2|]. cbn.
        exists c, b. replace (d_pos s + 1 + 1 - 2) with (d_pos s) by lia. replace (d_pos s + 1 + 1 - 1) with (d_pos s + 1) by lia.
        split; [auto|]. split; [exact F2|]. change 1 with (Z.ones 1) in Q1. rewrite Z.land_ones in Q1 by lia. rewrite <- Z.bit0_odd, Z.bit0_eqb.
        change (2 ^ 1) with 2 in Q1. lia.
      - eexists. split; [reflexivity|]. split; [auto|]. split; [exact HD|cbn; lia]. }
    destruct T as (s2 & T & J3 & HD3 & P3). unfold bind at 1 in X. rewrite T in X. eapply IH; [exact J3|exact HD3|exact Hi|exact Hd| |exact X]. lia. }
  destruct (negb (Z.land c 2 =? 0)) eqn:Q2.
  { cbv zeta in X. unfold bind at 1 in X. cbn [get_pos] in X.
    match type of X with bind ?m _ _ = _ => assert (T : exists s2, m (after s 1) = (Ok tt, s2) /\ J s2 /\ D2 (d_code s2) /\ d_pos s2 = d_pos s + 1) end.
    { destruct (Z.ltb_spec nops (i + Z.land (Z.shiftr c 2) 15)).
      - eexists. split; [reflexivity|]. split; [|split; [exact HD|cbn; lia]].
        apply (J_record _ (with_info OutsideRange (d_pos (after s 1))) J1); [|reflexivity|reflexivity]. split; [apply J1|]. cbn.
        exists c. replace (d_pos s + 1 - 1) with (d_pos s) by lia. split; [auto|].
        revert H. change 15 with (Z.ones 4). rewrite Z.land_ones, shr_byte by lia. change (2 ^ 2) with 4. change (2 ^ 4) with 16. intros H.
        split; [|lia].
        assert (K : implb (negb (negb (Z.land c 1 =? 0)) && negb (Z.land c 2 =? 0)) (c mod 4 =? 2) = true).
        { refine (byte_case (fun c => implb (negb (negb (Z.land c 1 =? 0)) && negb (Z.land c 2 =? 0)) (c mod 4 =? 2)) _ c Hc). vm_compute. reflexivity. }
        rewrite Q1, Q2 in K. cbn in K. lia.
      - eexists. split; [reflexivity|]. split; [auto|]. split; [exact HD|cbn; lia]. }
    destruct T as (s2 & T & J3 & HD3 & P3). unfold bind at 1 in X. rewrite T in X.
    assert (Hd6 : 0 <= Z.shiftr c 6 <= 3) by (rewrite shr_byte by lia; change (2 ^ 6) with 64; lia).
    unfold bind at 1 in X. destruct (O (Z.shiftr c 6) s2 ltac:(lia)) as [Q|[Q Q']]; rewrite Q in X.
    - eapply IH; [exact J3|exact HD3|exact Hi|exact Hd| |exact X]. lia.
    - inversion X; subst. right. split; [|auto]. rewrite P3, <- P1. apply (OV (Z.shiftr c 6)); auto. lia. }
  destruct (negb (Z.land c 4 =? 0)) eqn:Q3.
  { assert (Hd3 : 0 <= Z.shiftr c 3 <= 31) by (rewrite shr_byte by lia; change (2 ^ 3) with 8; lia).
    unfold bind at 1 in X. destruct (O (Z.shiftr c 3) (after s 1) ltac:(lia)) as [Q|[Q Q']]; rewrite Q in X.
    - unfold bind at 1 in X. destruct (debug_store_st d i cf (cl + Z.shiftr c 3) nops (after s 1) Hd ltac:(lia)) as (d' & Q' & L'). rewrite Q' in X.
      eapply (IH nops (i + 1) cf (cl + Z.shiftr c 3) d' (after s 1) r s' J1 HD1); [lia|exact L'| |exact X]. rewrite P1. lia.
    - inversion X; subst. right. split; [|auto]. apply (OV (Z.shiftr c 3)); auto. }
  unfold bind at 1 in X. destruct (B8 _ J1) as [(b2 & E2 & J2 & Hb2 & F2)|[E2 P2]]; rewrite E2 in X; [|inversion X; subst; auto].
  unfold bind at 1 in X. destruct (B8 _ J2) as [(b3 & E3 & J3 & Hb3 & F3)|[E3 P3]]; rewrite E3 in X; [|inversion X; subst; auto].
  cbv zeta in X.
  assert (V : 0 <= Z.lor (Z.lor (Z.shiftr c 3) (Z.shiftl b2 5 mod 256)) b3 < 256).
  { apply lor_byte; [apply lor_byte|lia]; [rewrite shr_byte by lia; change (2 ^ 3) with 8; lia|apply Z.mod_pos_bound; lia]. }
  unfold bind at 1 in X. match type of X with context [debug_store d i cf ?l ?s0] => destruct (debug_store_st d i cf l nops s0 Hd ltac:(lia)) as (d' & Q' & L') end.
  rewrite Q' in X. eapply (IH nops (i + 1) cf _ d' _ r s' J3 HD); [lia|exact L'| |exact X]. unfold after; cbn [d_pos]. destruct Hs as [Hs _]. lia.
Qed.
Lemma tr_debug_infos E nops : 0 <= nops -> tr D2 E (debug_infos nops) (fun _ d => D2 d).
Proof.
  intros Hn s r s' Hs HD X. unfold debug_infos in X.
  assert (L : zlen (zrepeat 0 (2 * nops)) = 2 * nops) by (apply zlen_repeat; lia).
  destruct Hs as [Hp Hs']. pose proof (conj Hp Hs' : J s) as Hs.
  pose proof (debug_loop_st (S (length (d_buf s))) nops 0 (-1) 0 (zrepeat 0 (2 * nops)) s r s' Hs HD ltac:(lia) L ltac:(lia) X) as Y. destruct r as [a|e|p]; auto.
  - contradiction.
  - destruct Y as [->|Y]; [|auto]. exfalso. pose proof (debug_loop_nofuel (S (length (d_buf s))) nops 0 (-1) 0 (zrepeat 0 (2 * nops)) s (J_bytes _ Hs) ltac:(lia)) as N.
    rewrite X in N. now apply N.
Qed.

(** * Phases *)
Definition KE : derr -> st -> Prop := fun e _ => known e.
Lemma tr_rel {A} (R : code -> code -> Prop) D E (m : M A) V c0 : rel_code R m -> tr D E m V ->
  tr (fun d => D d /\ d = c0) E m (fun a d => V a d /\ R c0 d).
Proof.
  intros HR H s r s' Hs [HD HC] X. pose proof (H _ _ _ Hs HD X) as Y. pose proof (HR _ _ _ X) as Z. rewrite HC in Z.
  destruct r; auto. tauto.
Qed.
(** the decoder and the header read so far *)
Definition at_header (v : Z) (ks : list Z) (s : st) : Prop :=
  J s /\ d_code s = code_new /\ exists encs, file = [72; 76; 66; v] ++ concat encs ++ d_buf s /\ map index_value encs = map Some ks.

Lemma header_start : J (start old file).
Proof.
  unfold J, start; cbn. pose proof (zlen_nonneg file). split; [lia|]. split; [reflexivity|]. auto.
Qed.
Lemma u8_step s : J s ->
  (exists b t, d_buf s = b :: t /\ d_buf (after s 1) = t /\ decode_u8 s = (Ok b, after s 1) /\ J (after s 1) /\ 0 <= b < 256) \/
  (decode_u8 s = (Err (with_info NoMoreData (d_pos s)), s) /\ (crash_explained file PUnwrap (d_pos s) /\ Jx s) /\ error_explained file (with_info NoMoreData (d_pos s))).
Proof.
  intros Hs. pose proof (J_bytes s Hs) as B. destruct (d_buf s) as [|b t] eqn:E.
  - right. rewrite u8_nil by auto. split; [reflexivity|]. assert (L : zlen (d_buf s) < 4) by (rewrite E; cbn; lia).
    split; [split; [now apply short_crash|auto]|]. apply crash_nodata; [auto|lia].
  - left. exists b, t. apply Forall_cons_iff in B. split; [auto|]. split; [now apply after_buf with b|]. split; [now apply u8_cons with t|].
    split; [|apply B]. apply J_after; auto. rewrite E, zlen_cons. pose proof (zlen_nonneg t). lia.
Qed.
Lemma magic_st r s' : read_magic code_new (start old file) = (r, s') ->
  match r with
  | Ok c => exists v, 2 <= v <= 5 /\ c = set_version v code_new /\ at_header v [] s'
  | Err e => J s' /\ known e
  | Panic p => crash_explained file p (d_pos s') /\ Jx s'
  end.
Proof.
  pose proof header_start as J0. intros X. unfold read_magic in X.
  assert (HE : forall s b, J s -> 1 <= d_pos s <= 3 -> (forall i, 0 <= i < d_pos s - 1 -> znth file i = znth [72; 76; 66] i) ->
    znth file (d_pos s - 1) = Some b -> Some b <> znth [72; 76; 66] (d_pos s - 1) -> known (with_info InvalidBytecodeHeader (d_pos s))).
  { intros s b Hs Hp Hl Hb Hn. left. split; [apply Hs|]. cbn. split; [auto|]. split; [|auto]. rewrite Hb. exact Hn. }
  unfold bind at 1, unwrap at 1 in X.
  destruct (u8_step _ J0) as [(b0 & t0 & E0 & T0 & R0 & J1 & B0)|(R0 & C & _)]; rewrite R0 in X; [|inversion X; subst; auto].
  cbn [d_buf start] in E0. set (s1 := after (start old file) 1) in *. assert (P1 : d_pos s1 = 1) by reflexivity.
  unfold bind at 1 in X. destruct (Z.eqb_spec b0 72) as [->|N0]; cbn [negb] in X.
  2:{ cbn [ret] in X. unfold bind, get_pos, throw in X. inversion X; subst. split; [auto|]. apply (HE s1 b0); auto; rewrite ?P1; try lia.
      - rewrite E0. reflexivity.
      - cbn. congruence. }
  unfold bind at 1, unwrap at 1 in X.
  destruct (u8_step _ J1) as [(b1 & t1 & E1 & T1 & R1 & J2 & B1)|(R1 & C & _)]; rewrite R1 in X; [|inversion X; subst; auto].
  rewrite T0 in E1. set (s2 := after s1 1) in *. assert (P2 : d_pos s2 = 2) by reflexivity.
  destruct (Z.eqb_spec b1 76) as [->|N1]; cbn [negb] in X.
  2:{ cbn [ret] in X. unfold bind, get_pos, throw in X. inversion X; subst r s'. split; [auto|]. apply (HE s2 b1); auto; rewrite ?P2; try lia.
      - intros i Hi. assert (i = 0) as -> by lia. rewrite E0. reflexivity.
      - rewrite E0, E1. reflexivity.
      - cbn. congruence. }
  unfold bind at 1, unwrap at 1 in X.
  destruct (u8_step _ J2) as [(b2 & t2 & E2 & T2 & R2 & J3 & B2)|(R2 & C & _)]; rewrite R2 in X; [|inversion X; subst; auto].
  rewrite T1 in E2. set (s3 := after s2 1) in *. assert (P3 : d_pos s3 = 3) by reflexivity.
  cbn [ret] in X. destruct (Z.eqb_spec b2 66) as [->|N2]; cbn [negb] in X.
  2:{ unfold bind, get_pos, throw in X. inversion X; subst r s'. split; [auto|]. apply (HE s3 b2); auto; rewrite ?P3; try lia.
      - intros i Hi. assert (i = 0 \/ i = 1) as [-> | ->] by lia; rewrite E0, ?E1; reflexivity.
      - rewrite E0, E1, E2. reflexivity.
      - cbn. congruence. }
  unfold bind at 1, unwrap_mapped at 1 in X.
  destruct (u8_step _ J3) as [(v & t3 & E3 & T3 & R3 & J4 & B3)|(R3 & [C _] & C')]; rewrite R3 in X; [|assert (r = Panic PUnwrap) as -> by congruence; assert (s' = snd (map_err (with_info NoMoreData (d_pos s3)) s3)) as -> by congruence; split; [exact C|]; apply J_Jx; now apply J_map].
  rewrite T2 in E3. set (s4 := after s3 1) in *. assert (P4 : d_pos s4 = 4) by reflexivity.
  assert (F : file = [72; 76; 66; v] ++ t3) by (rewrite E0, E1, E2, E3; reflexivity).
  destruct ((v <=? 1) || (5 <? v)) eqn:Q.
  - unfold bind, get_pos, throw in X. inversion X; subst r s'. split; [auto|]. left. split; [apply J4|]. cbn. split; [reflexivity|].
    exists v, t3. split; [exact F|lia].
  - unfold ret in X. assert (r = Ok (set_version v code_new)) as -> by congruence. assert (s' = s4) as -> by congruence.
    exists v. split; [lia|]. split; [reflexivity|]. split; [auto|]. split; [reflexivity|]. exists []. split; [|reflexivity].
    cbn [concat]. rewrite T3. exact F.
Qed.

Lemma count_st v ks s r s' : at_header v ks s -> ok UINDEX s = (r, s') ->
  match r with
  | Ok o => exists k, o = Some (Z.max 0 k) /\ at_header v (ks ++ [k]) s' /\ 0 <= Z.max 0 k <= I32_MAX
  | Err _ => False
  | Panic p => crash_explained file p (d_pos s') /\ Jx s'
  end.
Proof.
  intros (Hs & HC & encs & F & M) X. unfold ok in X.
  destruct (UINDEX s) as [[u|e|p] s1] eqn:E1; pose proof (UINDEX_st _ _ _ Hs E1) as Y; cbn in Y; [|contradiction|inversion X; subst; auto].
  destruct Y as (Y1 & Y2 & Y3 & k & enc & _ & Y4 & Y5 & ->). assert (r = Ok (Some (Z.max 0 k))) as -> by congruence. assert (s' = s1) as -> by congruence.
  exists k. split; [auto|]. split; [|auto]. split; [auto|]. split; [congruence|]. exists (encs ++ [enc]). rewrite concat_app, !map_app. cbn [map concat].
  rewrite app_nil_r. split; [|congruence]. rewrite F, Y4 at 1. now rewrite <- app_assoc.
Qed.
Lemma read_count_st v ks set c s r s' : at_header v ks s -> read_count set c s = (r, s') ->
  match r with
  | Ok c' => exists k, c' = set (Z.max 0 k) c /\ at_header v (ks ++ [k]) s' /\ 0 <= Z.max 0 k <= I32_MAX
  | Err _ => False
  | Panic p => crash_explained file p (d_pos s') /\ Jx s'
  end.
Proof.
  intros H X. unfold read_count, bind in X. destruct (ok UINDEX s) as [[o|e|p] s1] eqn:E1; pose proof (count_st _ _ _ _ _ H E1) as Y; cbn in Y;
    [|contradiction|inversion X; subst; auto].
  destruct Y as (k & -> & Y2 & Y3). assert (r = Ok (set (Z.max 0 k) c)) as -> by (unfold ret in X; congruence). assert (s' = s1) as -> by (unfold ret in X; congruence). eauto.
Qed.

Definition early (c : code) : Prop :=
  good_code c /\ 2 <= c_version c <= 5 /\ c_bytes_pos c = [] /\ c_functions c = [] /\ c_constants c = [] /\
  Forall (fun n => 0 <= n <= I32_MAX) [c_nints c; c_nfloats c; c_nbytes c; c_nglobals c; c_nnatives c; c_nfunctions c; c_nconstants c].
Ltac cstep X H k H' B :=
  unfold bind at 1 in X;
  match type of X with context [read_count ?set ?c ?s] =>
    let E := fresh "E" in let Y := fresh "Y" in
    destruct (read_count set c s) as [[?|?|?] ?] eqn:E; pose proof (read_count_st _ _ _ _ _ _ _ H E) as Y; cbn beta iota in Y; clear E;
    [destruct Y as (k & -> & H' & B)|contradiction|inversion X; subst; exact Y]
  end.
Ltac all_counts := repeat (match goal with |- Forall _ (_ :: _) => apply Forall_cons; [unfold I32_MAX in *; lia|] end); apply Forall_nil.
Lemma counts_st v s r s' : 2 <= v <= 5 -> at_header v [] s -> read_counts (set_version v code_new) s = (r, s') ->
  match r with
  | Ok c => J s' /\ d_code s' = code_new /\ early c
  | Err e => J s' /\ known e
  | Panic p => crash_explained file p (d_pos s') /\ Jx s'
  end.
Proof.
  intros Hv H0 X. unfold read_counts in X.
  unfold bind at 1 in X. destruct (ok UINDEX s) as [[o|e|p] s1] eqn:E1; pose proof (count_st _ _ _ _ _ H0 E1) as Y; cbn beta iota in Y;
    [|contradiction|inversion X; subst; auto]. destruct Y as (k0 & -> & H1 & B0). clear E1.
  cbv zeta in X.
  cstep X H1 k1 H2 B1. cstep X H2 k2 H3 B2. cstep X H3 k3 H4 B3.
  cbn [c_version set_nstrings set_nfloats set_nints set_version] in X.
  assert (FIN : forall ks s c, at_header v ks s -> early c -> (check_error ;;; ret c) s = (r, s') ->
    match r with
    | Ok c => J s' /\ d_code s' = code_new /\ early c
    | Err e => J s' /\ known e
    | Panic p => crash_explained file p (d_pos s') /\ Jx s'
    end).
  { clear. intros ks s c (Hs & HC & _) He X. unfold bind, check_error in X. destruct (errs s) eqn:Q; inversion X; subst; auto.
    split; [auto|]. apply (J_known s'); auto. }
  assert (G : forall ks s kt, at_header v ks s -> znth ks 3 = Some k3 -> znth ks (if 5 <=? v then 5 else 4) = Some kt ->
    declares_strings file (Z.max 0 k3) /\ declares_types file (Z.max 0 kt) /\ znth file 3 = Some v).
  { clear. intros ks s kt (_ & _ & encs & F & M) Z3 Zt. assert (HH : header_counts file v ks) by (exists encs, (d_buf s); auto).
    split; [exists v, ks, k3; auto|]. split; [exists v, ks, kt; auto|]. rewrite F. reflexivity. }
  destruct (Z.leb_spec 5 v) as [V5|V5].
  - cstep X H4 kb H5 B4. cstep X H5 k5 H6 B5. cstep X H6 k6 H7 B6. cstep X H7 k7 H8 B7. cstep X H8 k8 H9 B8.
    cbv zeta in X. rewrite (proj2 (Z.leb_le 4 _)) in X by (cbn; lia).
    cstep X H9 k9 H10 B9. cstep X H10 k10 H11 B10. eapply FIN; [exact H11| |exact X].
    destruct (G _ _ k5 H11 eq_refl) as (G1 & G2 & G3). { reflexivity. }
    unfold early, good_code. cbn. assert (GG : 0 <= 0 <= I32_MAX) by (unfold I32_MAX; lia). split; [repeat (split; [assumption|]); assumption|]. repeat (split; [first [lia|reflexivity]|]).
    all_counts.
  - unfold bind at 1 in X. unfold ret at 1 in X.
    cstep X H4 k5 H6 B5. cstep X H6 k6 H7 B6. cstep X H7 k7 H8 B7. cstep X H8 k8 H9 B8.
    cbv zeta in X. cbn [c_version set_nconstants set_nfunctions set_nnatives set_nglobals set_ntypes set_nstrings set_nfloats set_nints set_version] in X.
    destruct (Z.leb_spec 4 v) as [V4|V4].
    + cstep X H9 k9 H10 B9. cstep X H10 k10 H11 B10. eapply FIN; [exact H11| |exact X].
      destruct (G _ _ k5 H11 eq_refl) as (G1 & G2 & G3). { reflexivity. }
      unfold early, good_code. cbn. assert (GG : 0 <= 0 <= I32_MAX) by (unfold I32_MAX; lia). split; [repeat (split; [assumption|]); assumption|]. repeat (split; [first [lia|reflexivity]|]).
      all_counts.
    + unfold bind at 1 in X. unfold ret at 1 in X. cstep X H9 k10 H11 B10. eapply FIN; [exact H11| |exact X].
      destruct (G _ _ k5 H11 eq_refl) as (G1 & G2 & G3). { reflexivity. }
      unfold early, good_code. cbn. assert (GG : 0 <= 0 <= I32_MAX) by (unfold I32_MAX; lia). split; [repeat (split; [assumption|]); assumption|]. repeat (split; [first [lia|reflexivity]|]).
      all_counts.
Qed.

(** ** Number tables *)
Lemma table_loop_st (dec : M Z) w : 0 < w <= 8 ->
  (forall s r s', J s -> dec s = (r, s') ->
    match r with
    | Ok _ => J s' /\ d_code s' = d_code s /\ w <= zlen (d_buf s)
    | Err e => s' = s /\ e = with_info NoMoreData (d_pos s) /\ zlen (d_buf s) < w
    | Panic _ => False
    end) ->
  forall n i l s r s', J s -> 0 <= i -> (zlen l = i \/ zlen (d_buf s) < w) ->
    for_loop n i (fun i l => r <- ok_mapped dec ;; match r with Some x => vec_insert l i x | None => ret l end) l s = (r, s') ->
    match r with Ok _ => J s' /\ d_code s' = d_code s | _ => False end.
Proof.
  intros Hw Hd. induction n as [|n IH]; intros i l s r s' Hs Hi Hl X; cbn [for_loop] in X; [inversion X; subst; auto|].
  unfold bind at 1 in X. unfold bind at 1, ok_mapped at 1 in X. destruct (dec s) as [[x|e|p] s1] eqn:E1; pose proof (Hd _ _ _ Hs E1) as Y; cbn beta iota in Y.
  - destruct Y as (Y1 & Y2 & Y3). destruct Hl as [Hl|Hl]; [|lia]. destruct (zinsert_some l i x ltac:(lia)) as [l' L].
    unfold vec_insert at 1 in X. rewrite L in X. cbn [expect] in X. unfold ret at 1 in X.
    pose proof (zinsert_len _ _ _ _ L) as L'. rewrite <- Y2.
    apply (IH (i + 1) l' s1 r s'); auto; [lia|left; lia].
  - destruct Y as (-> & -> & Y3). unfold ret at 1 in X.
    set (s2 := snd (map_err (with_info NoMoreData (d_pos s)) s)) in *.
    assert (J2 : J s2) by (apply J_map; auto; apply crash_nodata; [auto|lia]).
    change (d_code s) with (d_code s2). apply (IH (i + 1) l s2 r s'); auto. lia.
  - contradiction.
Qed.
Lemma tr_table (dec : M Z) w D E n : 0 < w <= 8 ->
  (forall s r s', J s -> dec s = (r, s') ->
    match r with
    | Ok _ => J s' /\ d_code s' = d_code s /\ w <= zlen (d_buf s)
    | Err e => s' = s /\ e = with_info NoMoreData (d_pos s) /\ zlen (d_buf s) < w
    | Panic _ => False
    end) -> tr D E (read_table dec n) (fun _ d => D d).
Proof.
  intros Hw Hd s r s' Hs HD X. unfold read_table, for_range in X.
  pose proof (table_loop_st dec w Hw Hd (Z.to_nat n) 0 [] s r s' Hs ltac:(lia) (or_introl eq_refl) X) as Y.
  destruct r; [|contradiction|contradiction]. destruct Y as [Y1 Y2]. rewrite Y2. auto.
Qed.
Lemma tr_ints D c : tr D KE (read_ints c) (fun c' d => (exists l, c' = set_ints l c) /\ D d).
Proof.
  unfold read_ints. apply tr_bind0.
  { apply (tr_table decode_i32 4); [lia|]. intros s r s' Hs X.
    pose proof (fixed_st 4 (fun bs => to_signed (8 * 4) (from_le bs)) s r s' ltac:(lia) Hs X) as Y. destruct r; auto.
    destruct Y as (Y1 & -> & Y3 & _). auto. }
  intros l. apply tr_bind0; [apply tr_check|]. intros _. apply tr_ret. eauto.
Qed.
Lemma tr_floats D c : tr D KE (read_floats c) (fun c' d => (exists l, c' = set_floats l c) /\ D d).
Proof.
  unfold read_floats. apply tr_bind0.
  { apply (tr_table decode_f64 8); [lia|]. intros s r s' Hs X.
    pose proof (fixed_st 8 (fun bs => from_le bs) s r s' ltac:(lia) Hs X) as Y. destruct r; auto.
    destruct Y as (Y1 & -> & Y3 & _). auto. }
  intros l. apply tr_bind0; [apply tr_check|]. intros _. apply tr_ret. eauto.
Qed.
Lemma tr_string_table (D : code -> Prop) c : tr D KE (read_string_table c)
  (fun c' d => (exists ss ls, c' = set_ustrings (zrepeat None (c_nstrings c)) (set_strings_lens ls (set_strings ss c))) /\ D d).
Proof.
  unfold read_string_table. eapply tr_bind; [apply tr_ok_mapped, (tr_read_strings D none)|]. cbv beta. intros o.
  apply tr_conseq with (D := fun d => (exists a, o = Some a) /\ D d)
    (V := fun c' d => (exists ss ls, c' = set_ustrings (zrepeat None (c_nstrings c)) (set_strings_lens ls (set_strings ss c))) /\ D d); [|intros d (a & ? & ?); eauto|auto].
  cbv zeta. apply tr_bind0; [apply tr_check|]. intros _. apply tr_ret. intros d [[[ss ls] ->] HD]. cbn. eauto.
Qed.
Lemma word_range p v : word_ending file p v -> - 2147483648 <= v <= 2147483647.
Proof.
  intros (pre & a & b & c & d & rest & Ef & _ & V). pose proof Hf as B4. rewrite Ef in B4. apply Forall_app in B4. destruct B4 as [_ B4].
  apply Forall_app in B4. destruct B4 as [B4 _]. repeat (apply Forall_cons_iff in B4; destruct B4 as [? B4]). unfold is_byte in *.
  cbv zeta in V. set (w := a + 256 * b + 65536 * c + 16777216 * d) in *. assert (0 <= w < 4294967296) by (unfold w; lia). clearbody w. destruct (Z.ltb_spec w 2147483648); lia.
Qed.
Lemma tr_bytes_section (D : code -> Prop) c : early c -> tr D KE (read_bytes_section c)
  (fun c' d => (exists bs ps, c' = set_bytes_pos ps (set_bytes bs c) \/ c' = c) /\ D d).
Proof.
  intros (G & V & BP & _ & _ & CS). unfold read_bytes_section. destruct (Z.leb_spec 5 (c_version c)) as [V5|V5].
  2:{ apply tr_ret. intros d HD. split; [exists [], []; now right|auto]. }
  assert (Hnb : 0 <= c_nbytes c). { inversion CS; subst. inversion H2; subst. inversion H4; subst. lia. }
  intros s r s' Hs HD X. unfold bind at 1 in X. destruct (decode_i32 s) as [[v|e|p] s1] eqn:E1; pose proof (i32_st _ _ _ Hs E1) as Y; cbn beta iota in Y.
  2:{ inversion X; subst. destruct Y as (-> & -> & Y). split; [auto|]. left. split; [apply Hs|]. cbn. pose proof (J_len s Hs). lia. }
  2: contradiction.
  destruct Y as (Y1 & Y2 & Y3). destruct (Z.ltb_spec v 0) as [Ng|Ng].
  { inversion X; subst. split; [|auto]. split; [apply Y1|]. split; [|eauto]. destruct G as (_ & _ & _ & _ & _ & G). rewrite G. f_equal. lia. }
  unfold bind at 1, ret at 1 in X. unfold bind at 1, unwrap_mapped at 1, read_bytes at 1 in X. pose proof (J_len _ Y1) as L.
  destruct (Z.ltb_spec (zlen (d_buf s1)) v) as [Lv|Lv].
  { cbv iota in X. inversion X; subst. split; [cbn [d_pos]; split; [apply Y1|]; right; right; exists v; split; [auto|lia]|].
    destruct Y1 as (P1 & B1 & K1 & F1 & O1). unfold Jx. cbn [d_pos d_buf errs d_log]. split; [exact P1|]. split; [exact B1|].
    split; [rewrite kept_app, <- K1; cbn; destruct (errs s1); reflexivity|]. split; [|now apply in_order_snoc].
    apply Forall_app. split; [eapply Forall_impl; [|exact F1]; intros e H; now left|]. constructor; [|constructor]. right. split; [reflexivity|].
    cbn. exists v. split; [auto|lia]. }
  set (s2 := {| d_buf := _; d_pos := _; d_code := _; errs := _; d_log := _ |}) in X. cbv iota in X.
  assert (J2 : J s2) by (apply (J_after s1 v); [auto|lia]).
  assert (HD2 : D (d_code s2)) by (cbn; rewrite Y2; auto). revert s2 J2 HD2 X. clear - Hf BP Hnb. intros s2 J2 HD2.
  rewrite BP. revert s2 J2 HD2. generalize (firstn (Z.to_nat v) (d_buf s1)). intros bs s2 J2 HD2 X.
  match type of X with ?m s2 = _ => assert (T : tr D KE m (fun c' d => (exists bs ps, c' = set_bytes_pos ps (set_bytes bs c) \/ c' = c) /\ D d)) end.
  { apply tr_bind0.
    - eapply tr_conseq; [apply (tr_loop1 D KE); [exact Hnb|]|auto|cbv beta; tauto]. intros j l Hj Hl.
      eapply tr_bind; [apply tr_ok_mapped, (tr_UINDEX D none)|]. cbv beta. intros o s r0 s0 Hs (a & -> & _ & HD) X0.
      pose proof (tr_insert D KE l j a ltac:(lia) _ _ _ Hs HD X0) as Y. exact Y.
    - intros ps. apply tr_bind0; [apply tr_check|]. intros _. apply tr_ret. eauto. }
  exact (T _ _ _ J2 HD2 X).
Qed.

(** ** After the string tables *)
Definition mid (c : code) : Prop :=
  good_code c /\ 2 <= c_version c <= 5 /\ c_functions c = [] /\ c_constants c = [] /\ c_nstrings c <= zlen (c_ustrings c) /\
  Forall (fun n => 0 <= n <= I32_MAX) [c_nglobals c; c_nnatives c; c_nfunctions c; c_nconstants c].

Lemma tr_debugfiles c : mid c -> tr (fun d => d = code_new) KE (read_debugfiles c) (fun c' d => mid c' /\ (d = code_new \/ d = c')).
Proof.
  intros Hm. unfold read_debugfiles. destruct (negb (c_hasdebug c =? 0)); [|apply tr_ret; auto].
  set (D := fun d : code => exists n, 0 <= n <= I32_MAX /\ d = set_ndebugfiles n c).
  assert (MS : forall n ss, 0 <= n <= I32_MAX -> mid (set_debugfiles ss (set_ndebugfiles n c))).
  { intros n ss Hn. destruct Hm as (G & R). split; [|exact R]. destruct G as (G1 & G2 & G3 & G4 & G5 & G6). repeat (split; [assumption|]). assumption. }
  assert (MS0 : forall n, 0 <= n <= I32_MAX -> mid (set_ndebugfiles n c)).
  { intros n Hn. destruct Hm as (G & R). split; [|exact R]. destruct G as (G1 & G2 & G3 & G4 & G5 & G6). repeat (split; [assumption|]). assumption. }
  eapply tr_bindV with (P := D).
  { unfold read_count. eapply tr_bind; [apply tr_ok, (tr_UINDEX (fun d => d = code_new) none)|]. cbv beta. intros o s r s' Hs (a & -> & Ha & HD) X.
    inversion X; subst. split; [auto|]. split; [|auto]. exists a. auto. }
  intros c1 [n [Hn ->]]. eapply tr_bind; [apply tr_put_code|]. cbv beta. intros _. cbn [c_ndebugfiles set_ndebugfiles c_debugfiles_lens].
  eapply tr_bind; [apply tr_ok_mapped, (tr_read_strings _ none)|]. cbv beta. intros o.
  eapply tr_bind; [apply tr_get_code|]. cbv beta. intros dc s r s' Hs (-> & [ss ls] & -> & HD) X.
  unfold bind at 1, put_code at 1 in X. unfold bind at 1, get_code at 1 in X. cbn [d_code] in X.
  set (s2 := {| d_buf := _; d_pos := _; d_code := _; errs := _; d_log := _ |}) in X.
  assert (J2 : J s2) by (apply J_errs with s; auto; apply Hs).
  unfold bind, check_error in X. destruct (errs s2) as [e|] eqn:Q; inversion X; subst.
  - split; [auto|]. apply (J_known s2); auto.
  - split; [auto|]. cbn [d_code s2]. split; [|auto]. rewrite HD. now apply MS.
Qed.

(** ** Types *)
Definition late (c : code) : Prop := mid c /\ full c.
Lemma D2_full d : D2 d -> c_version d <> 0 -> full d.
Proof. intros [H|[-> _]] V; [auto|]. now cbn in V. Qed.
Lemma cache_late c d : late c -> same_but_cache c d -> D2 d -> late d.
Proof.
  intros [(G & V & F & K & S & N) H] [u ->] HD. assert (Fd : full (set_ustrings u c)) by (apply D2_full; [auto|cbn; lia]).
  split; [|auto]. split; [exact G|]. split; [exact V|]. split; [exact F|]. split; [exact K|]. split; [apply Fd|exact N].
Qed.
Lemma late_types c ts : late c -> c_ntypes c <= zlen ts -> late (set_types ts c).
Proof.
  intros [(G & V & F & K & S & N) (G' & T & U)] L. split; [|split; [exact G|split; [exact L|exact U]]].
  split; [exact G|]. split; [exact V|]. split; [exact F|]. split; [exact K|]. split; [exact S|exact N].
Qed.
Lemma tr_read_type' c : late c -> tr (fun d => d = c) KE read_type (fun _ d => late d /\ same_but_cache c d).
Proof.
  intros L s r s' Hs HC X. assert (HD : D2 (d_code s)) by (rewrite HC; left; apply L). pose proof (tr_read_type KE s r s' Hs HD X) as Y.
  pose proof (rc_read_type s r s' X) as Z. rewrite HC in Z. destruct r; auto. destruct Y as [Y1 Y2]. split; [auto|]. split; [|auto]. eapply cache_late; eauto.
Qed.
Lemma tr_types c : mid c -> tr (fun d => d = code_new \/ d = c) KE (read_types c) (fun c' d => late c' /\ D2 d).
Proof.
  intros Hm. pose proof Hm as (G & V & F & K & S & N). unfold read_types.
  assert (Hn : 0 <= c_ntypes c) by apply G.
  set (c0 := set_types (zrepeat vt_default (c_ntypes c)) c).
  assert (L0 : late c0).
  { assert (LL : zlen (zrepeat vt_default (c_ntypes c)) = c_ntypes c) by (apply zlen_repeat; lia).
    split; [split; [exact G|repeat (split; [assumption|]); assumption]|]. split; [exact G|]. split; [cbn; lia|exact S]. }
  eapply tr_conseq; [apply (tr_for KE (fun j c1 d => late c1 /\ c_ntypes c1 = c_ntypes c /\ (d = c1 \/ j = 0 /\ (d = code_new \/ d = c)))); [exact Hn|]| |].
  - intros j c1 Hj s r s' Hs (L1 & N1 & _) X. unfold bind at 1, put_code at 1 in X.
    set (s1 := {| d_buf := _; d_pos := _; d_code := _; errs := _; d_log := _ |}) in X.
    assert (J1 : J s1) by (apply J_errs with s; auto; apply Hs).
    unfold bind at 1 in X. destruct (read_type s1) as [[t|e|p] s2] eqn:E2; pose proof (tr_read_type' c1 L1 _ _ _ J1 eq_refl E2) as Y; cbn beta iota in Y;
      [|inversion X; subst; auto|inversion X; subst; auto].
    destruct Y as (Y1 & L2 & u & Y2). assert (N2 : c_ntypes (d_code s2) = c_ntypes c) by (rewrite Y2; exact N1).
    unfold bind at 1, get_code at 1 in X.
    assert (T2 : c_ntypes (d_code s2) <= zlen (c_types (d_code s2))) by apply L2.
    unfold bind at 1 in X. unfold vec_insert in X. destruct (zinsert_some (c_types (d_code s2)) j t ltac:(lia)) as [ts Ts]. rewrite Ts in X.
    pose proof (zinsert_len _ _ _ _ Ts) as TL. unfold expect, ret at 1, bind, put_code, get_code in X. inversion X; subst r s'. cbn [d_code].
    split; [apply J_errs with s2; auto; apply Y1|]. split; [apply late_types; [auto|lia]|]. split; [exact N2|auto].
  - intros d Hd. split; [exact L0|]. split; [reflexivity|]. right. auto.
  - cbv beta. intros c1 d (L1 & N1 & [->|[Z0 [-> | ->]]]); split; auto.
    + left. apply L1.
    + right. split; [auto|]. split; [|exists (c_nstrings c); apply G]. rewrite <- Z0. apply G.
    + left. split; [exact G|]. split; [rewrite Z0; apply zlen_nonneg|exact S].
Qed.

(** ** Globals, natives *)
Lemma tr_globals c : late c -> tr D2 KE (read_globals c) (fun c' d => late c' /\ D2 d).
Proof.
  intros L0. pose proof L0 as ((G & V & F & K & S & N) & _). unfold read_globals.
  assert (Hn : 0 <= c_nglobals c) by (inversion N; lia).
  apply tr_bind with (V := fun c' d => late c' /\ D2 d).
  - eapply tr_conseq; [apply (tr_for KE (fun j c1 d => late c1 /\ c_nglobals c <= zlen (c_globals c1) /\ D2 d)); [exact Hn|]| |].
    + intros j c1 Hj s r s' Hs (L1 & N1 & _) X. unfold bind at 1, put_code at 1 in X.
      set (s1 := {| d_buf := _; d_pos := _; d_code := _; errs := _; d_log := _ |}) in X.
      assert (J1 : J s1) by (apply J_errs with s; auto; apply Hs).
      assert (HD1 : D2 (d_code s1)) by (left; apply L1).
      unfold bind at 1 in X. destruct (ok_mapped get_type s1) as [[o|e|p] s2] eqn:E2;
        pose proof (tr_ok_mapped D2 KE get_type (fun _ d => D2 d) (tr_get_type none) s1 _ _ J1 HD1 E2) as Y; cbn beta iota in Y;
        [|inversion X; subst; auto|inversion X; subst; auto].
      destruct Y as (Y1 & t & -> & Y2). pose proof (r_ok_mapped eq get_type (r_get_type eq pre_eq) _ _ _ E2) as Y3. cbn [d_code s1] in Y3.
      unfold bind at 1 in X. unfold bind at 1, get_code at 1 in X. rewrite <- Y3 in X.
      unfold bind at 1, vec_insert in X. destruct (zinsert_some (c_globals c1) j t ltac:(lia)) as [ts Ts]. rewrite Ts in X.
      pose proof (zinsert_len _ _ _ _ Ts) as TL. unfold expect, ret at 1, put_code, get_code in X. inversion X; subst r s'. cbn [d_code].
      assert (LL : late (set_globals ts c1)).
      { destruct L1 as [(G1 & V1 & F1 & K1 & S1 & Nn) FF]. split; [split; [exact G1|repeat (split; [assumption|]); assumption]|exact FF]. }
      split; [apply J_errs with s2; auto; apply Y1|]. split; [exact LL|]. split; [cbn; lia|left; apply LL].
    + intros d Hd. assert (LL : zlen (zrepeat vt_default (c_nglobals c)) = c_nglobals c) by (apply zlen_repeat; lia).
      split; [|split; [cbn; lia|auto]].
      destruct L0 as [(G1 & V1 & F1 & K1 & S1 & Nn) FF]. split; [split; [exact G1|repeat (split; [assumption|]); assumption]|exact FF].
    + cbv beta. tauto.
  - intros c1. apply tr_bind0; [apply tr_check|]. intros _. apply tr_ret. auto.
Qed.
Lemma tr_natives c : late c -> tr D2 KE (read_natives c) (fun c' d => late c' /\ D2 d).
Proof.
  intros L0. pose proof L0 as ((G & V & F & K & S & N) & _). unfold read_natives.
  assert (Hn : 0 <= c_nnatives c) by (inversion N; subst; inversion H2; lia).
  assert (SN : forall c ns, late c -> late (set_natives ns c)).
  { intros c1 ns [(G1 & V1 & F1 & K1 & S1 & Nn) FF]. split; [split; [exact G1|repeat (split; [assumption|]); assumption]|exact FF]. }
  apply tr_bind with (V := fun c' d => late c' /\ D2 d).
  - eapply tr_conseq; [apply (tr_for KE (fun j c1 d => late c1 /\ D2 d)); [exact Hn|]| |].
    + intros j c1 Hj. intros s r s' Hs [L1 HD] X. revert s r s' Hs HD X.
      match goal with |- forall s r s', _ -> _ -> ?m s = _ -> _ => change (tr D2 KE m (fun c' d => late c' /\ D2 d)) end.
      apply tr_bind0; [apply tr_unwrap_mapped, tr_read_string|]. intros lib.
      apply tr_bind0; [apply tr_unwrap_mapped, tr_read_string|]. intros name.
      apply tr_bind0; [apply tr_unwrap_mapped, tr_get_type|]. intros t.
      eapply tr_bindV; [apply tr_uim|]. cbv beta. intros fi _. cbv zeta.
      eapply tr_bind; [apply tr_put_code|]. cbv beta. intros _. apply tr_ret. intros d ->.
      pose proof (SN c1 (c_natives c1 ++ [{| n_lib := lib; n_name := name; n_t := t; n_findex := fi |}]) L1) as L2.
      split; [exact L2|]. left. apply L2.
    + intros d Hd. split; [apply SN; exact L0|auto].
    + auto.
  - intros c1. apply tr_bind0; [apply tr_check|]. intros _. apply tr_ret. auto.
Qed.

(** ** Functions *)
Lemma zset_full {A} (l : list A) i x : 0 <= i < zlen l -> exists l', zset l i x = Some l' /\ zlen l' = zlen l.
Proof. intros H. destruct (zset_some l i x H) as [l' L]. exists l'. split; [auto|]. eapply zset_len; eauto. Qed.
Definition withf (i : Z) (c : code) : Prop :=
  full c /\ 2 <= c_version c <= 5 /\ c_constants c = [] /\ zlen (c_functions c) = i /\ 0 <= c_nfunctions c /\ 0 <= c_nconstants c.
Lemma withf_set i c fs : withf i c -> withf (zlen fs) (set_functions fs c).
Proof. intros (Fu & V & K & _ & N). split; [exact Fu|]. split; [exact V|]. split; [exact K|]. split; [reflexivity|exact N]. Qed.
Lemma tr_skip_assigns D : tr D KE skip_assigns (fun _ d => D d).
Proof.
  unfold skip_assigns. eapply tr_bindV; [apply tr_uim|]. cbv beta. intros n Hn.
  eapply tr_conseq; [apply (tr_for KE (fun _ _ d => D d)); [lia|]|auto|auto]. intros j u Hj.
  eapply tr_bind; [apply tr_ok, (tr_UINDEX D none)|]. cbv beta. intros o.
  apply tr_conseq with (D := D) (V := fun _ d => D d); [|intros d (a & _ & _ & H); auto|auto].
  eapply tr_bind; [apply tr_ok, (tr_INDEX D none)|]. cbv beta. intros o2. apply tr_ret. intros d (a & _ & _ & H). auto.
Qed.
Lemma tr_function_entry i c : 0 <= i -> withf i c -> tr (fun _ => True) KE (read_function_entry i c) (fun c' d => withf (i + 1) c' /\ d = c').
Proof.
  intros Hi W s r s' Hs _ X. unfold read_function_entry in X. unfold bind at 1, put_code at 1 in X.
  set (s1 := {| d_buf := _; d_pos := _; d_code := _; errs := _; d_log := _ |}) in X.
  assert (J1 : J s1) by (apply J_errs with s; auto; apply Hs).
  assert (HD1 : D2 (d_code s1)) by (left; apply W).
  unfold bind at 1 in X. destruct (unwrap_mapped read_function s1) as [[f|e|p] s2] eqn:E2;
    pose proof (tr_unwrap_mapped D2 KE read_function _ (tr_read_function cr) s1 _ _ J1 HD1 E2) as Y; cbn beta iota in Y;
    [|inversion X; subst; exact Y|inversion X; subst; exact Y].
  destruct Y as (Y1 & Yn & Y2). pose proof (r_unwrap_mapped eq read_function (r_read_function eq pre_eq) _ _ _ E2) as Y3. cbn [d_code s1] in Y3.
  unfold bind at 1, get_code at 1 in X. unfold bind at 1, put_code at 1 in X. unfold bind at 1, get_code at 1 in X. cbn [d_code] in X. rewrite <- Y3 in X.
  set (c1 := set_functions (c_functions c ++ [f]) c) in *.
  set (s3 := {| d_buf := _; d_pos := _; d_code := _; errs := _; d_log := _ |}) in X.
  assert (J3 : J s3) by (apply J_errs with s2; auto; apply Y1).
  assert (ZL : zlen (c_functions c ++ [f]) = i + 1). { rewrite zlen_app. destruct W as (_ & _ & _ & W & _). rewrite W. reflexivity. }
  assert (W1 : withf (i + 1) c1) by (rewrite <- ZL; eapply withf_set; eauto).
  destruct (negb (c_hasdebug c1 =? 0)).
  2:{ unfold bind, ret, get_code in X. inversion X; subst. split; [auto|]. cbn. auto. }
  assert (ZN : znth (c_functions c1) i = Some f).
  { cbn [c1 c_functions set_functions]. destruct W as (_ & _ & _ & W & _). rewrite znth_app_r by lia. rewrite W, Z.sub_diag. reflexivity. }
  unfold bind at 1 in X. unfold bind at 1 in X. rewrite ZN in X. cbn [expect] in X. unfold ret at 1 in X.
  unfold bind at 1 in X. destruct (ok_mapped (debug_infos (hf_nops f)) s3) as [[o|e|p] s4] eqn:E4;
    pose proof (tr_ok_mapped D2 KE _ (fun _ d => D2 d) (tr_debug_infos none (hf_nops f) ltac:(lia)) s3 _ _ J3 (or_introl (proj1 W1)) E4) as Y; cbn beta iota in Y;
    [|inversion X; subst; exact Y|inversion X; subst; exact Y].
  destruct Y as (Y4 & dl & -> & Y5). pose proof (r_ok_mapped eq _ (r_debug_infos eq pre_eq (hf_nops f)) _ _ _ E4) as Y6. cbn [d_code s3] in Y6.
  unfold bind at 1 in X. unfold bind at 1, get_code at 1 in X. rewrite <- Y6 in X. unfold bind at 1 in X. rewrite ZN in X. cbn [expect] in X. unfold ret at 1 in X.
  destruct (zset_full (c_functions c1) i (hf_set_debug f dl)) as (fs & Zs & Zl). { destruct W1 as (_ & _ & _ & W1 & _). rewrite W1. lia. }
  unfold bind at 1 in X. rewrite Zs in X. cbn [expect] in X. unfold ret at 1, put_code at 1 in X.
  set (s5 := {| d_buf := _; d_pos := _; d_code := _; errs := _; d_log := _ |}) in X.
  assert (J5 : J s5) by (apply J_errs with s4; auto; apply Y4).
  assert (W2 : withf (i + 1) (set_functions fs c1)).
  { assert (Zf : zlen fs = i + 1) by (rewrite Zl; exact ZL). rewrite <- Zf. eapply withf_set; eauto. }
  destruct (3 <=? c_version c1).
  - destruct (skip_assigns s5) as [[u|e|p] s6] eqn:E6; pose proof (tr_skip_assigns (fun d => d = set_functions fs c1) s5 _ _ J5 eq_refl E6) as Y; cbn beta iota in Y;
      [|inversion X; subst; exact Y|inversion X; subst; exact Y].
    unfold get_code in X. inversion X; subst. destruct Y as [Z1 ->]. auto.
  - unfold ret, get_code in X. inversion X; subst. cbn [d_code s5]. auto.
Qed.
Lemma tr_functions c : late c -> tr D2 KE (read_functions c) (fun c' d => (exists i, withf i c')).
Proof.
  intros [(G & V & F & K & S & N) FF]. unfold read_functions.
  assert (Hn : 0 <= c_nfunctions c) by (inversion N; subst; inversion H2; subst; inversion H4; lia).
  assert (Hk : 0 <= c_nconstants c) by (inversion N; subst; inversion H2; subst; inversion H4; subst; inversion H6; lia).
  assert (W0 : withf 0 c). { split; [exact FF|]. split; [exact V|]. split; [exact K|]. rewrite F. auto. }
  eapply tr_bind with (V := fun c1 _ => withf (c_nfunctions c) c1); [eapply tr_conseq; [apply (tr_for KE (fun j c1 d => withf j c1)); [exact Hn|]|intros d _; exact W0|auto]|].
  - intros j c1 Hj s r s' Hs W X. pose proof (tr_function_entry j c1 ltac:(lia) W s r s' Hs I X) as Y. destruct r; auto. tauto.
  - cbv beta. intros c1 s r s' Hs W X. unfold bind, check_error in X. destruct (errs s) as [e|] eqn:Q; inversion X; subst.
    + split; [auto|]. apply (J_known s'); auto.
    + eauto.
Qed.
Lemma tr_constants c i : withf i c -> tr (fun _ => True) KE (read_constants c) (fun _ _ => True).
Proof.
  intros (_ & _ & K & _ & _ & Hn). unfold read_constants.
  eapply tr_conseq; [apply (tr_for KE (fun j c1 d => zlen (c_constants c1) = j)); [exact Hn|]| |auto].
  - intros j c1 Hj. apply tr_conseq with (D := fun _ => zlen (c_constants c1) = j) (V := fun c1 d => zlen (c_constants c1) = j + 1); [|auto|auto].
    eapply tr_bindV; [apply tr_uim|]. cbv beta. intros g _. eapply tr_bindV; [apply tr_uim|]. cbv beta. intros nf Hnf.
    apply tr_bind0.
    { eapply tr_conseq; [apply (tr_loop1 (fun _ => zlen (c_constants c1) = j) KE); [lia|]|auto|cbv beta; tauto]. intros k l Hk Hl.
      eapply tr_bindV; [apply tr_uim|]. cbv beta. intros x _. apply tr_insert. lia. }
    intros fs. apply tr_bind0; [apply tr_check|]. intros _.
    intros s r s' Hs HD X. unfold bind at 1 in X.
    destruct (zinsert_some (c_constants c1) j {| k_global := g; k_nfields := nf; k_fields := fs |} ltac:(lia)) as [ks Ks].
    unfold vec_insert in X. rewrite Ks in X. pose proof (zinsert_len _ _ _ _ Ks) as L. cbn [expect] in X.
    unfold ret at 1, put_code, bind, ret in X. inversion X; subst. split; [apply J_errs with s; auto; apply Hs|]. cbn. lia.
  - intros d _. rewrite K. reflexivity.
Qed.

Theorem code_read_explained r s' : code_read (start old file) = (r, s') ->
  match r with
  | Ok c => J s'
  | Err e => J s' /\ known e
  | Panic p => crash_explained file p (d_pos s') /\ Jx s'
  end.
Proof.
  intros X. unfold code_read in X. cbv zeta in X. unfold bind at 1 in X.
  destruct (read_magic code_new (start old file)) as [[c|e|p] s1] eqn:E1; pose proof (magic_st _ _ E1) as Y; cbn beta iota in Y; [|inversion X; subst; auto|inversion X; subst; auto].
  destruct Y as (v & Hv & -> & H1). unfold bind at 1 in X.
  destruct (read_counts (set_version v code_new) s1) as [[c|e|p] s2] eqn:E2; pose proof (counts_st _ _ _ _ Hv H1 E2) as Y; cbn beta iota in Y; [|inversion X; subst; auto|inversion X; subst; auto].
  destruct Y as (J2 & C2 & Hc).
  assert (T : tr (fun d => d = code_new) KE
    (c <- read_ints c ;; c <- read_floats c ;; c <- read_string_table c ;; c <- read_bytes_section c ;; c <- read_debugfiles c ;;
     c <- read_types c ;; c <- read_globals c ;; c <- read_natives c ;; c <- read_functions c ;; c <- read_constants c ;; get_code) (fun _ _ => True)).
  { eapply tr_bindV; [apply tr_ints|]. cbv beta. intros c1 [l1 ->].
    eapply tr_bindV; [apply tr_floats|]. cbv beta. intros c2 [l2 ->].
    eapply tr_bindV; [apply tr_string_table|]. cbv beta. intros c3 (ss & ls & ->).
    assert (He : early (set_ustrings (zrepeat None (c_nstrings (set_floats l2 (set_ints l1 c)))) (set_strings_lens ls (set_strings ss (set_floats l2 (set_ints l1 c)))))) by exact Hc.
    eapply tr_bindV; [apply tr_bytes_section; exact He|]. cbv beta. intros c4 H4.
    assert (Hm : mid c4).
    { destruct Hc as (G & V & BP & F & K & N). assert (LL : zlen (@zrepeat (option str) None (c_nstrings c)) = c_nstrings c) by (apply zlen_repeat; apply G).
      assert (N' : Forall (fun n => 0 <= n <= I32_MAX) [c_nglobals c; c_nnatives c; c_nfunctions c; c_nconstants c]).
      { do 3 (apply Forall_cons_iff in N; destruct N as [_ N]). exact N. }
      destruct H4 as (bs & ps & [-> | ->]); (split; [exact G|]; split; [exact V|]; split; [exact F|]; split; [exact K|]; split; [cbn; lia|exact N']). }
    eapply tr_bind; [apply tr_debugfiles; exact Hm|]. cbv beta. intros c5 s r0 s0 Hs [Hm5 HD] X0.
    match type of X0 with ?m s = _ => assert (T : tr (fun d => d = code_new \/ d = c5) KE m (fun _ _ => True)) end; [|exact (T _ _ _ Hs HD X0)].
    eapply tr_bind; [apply tr_types; exact Hm5|]. cbv beta. clear - Hf. intros c6 s r s' Hs [Hl HD] X.
    match type of X with ?m s = _ => assert (T : tr D2 KE m (fun _ _ => True)) end; [|exact (T _ _ _ Hs HD X)].
    eapply tr_bindV; [apply tr_globals; exact Hl|]. cbv beta. intros c7 Hl7.
    eapply tr_bindV; [apply tr_natives; exact Hl7|]. cbv beta. intros c8 Hl8.
    eapply tr_bind; [apply tr_functions; exact Hl8|]. cbv beta. intros c9 s1 r1 s1' Hs1 [i W] X1.
    match type of X1 with ?m s1 = _ => assert (T : tr (fun _ => True) KE m (fun _ _ => True)) end; [|exact (T _ _ _ Hs1 I X1)].
    eapply tr_bind; [apply (tr_constants c9 i); exact W|]. intros c10. intros s2 r2 s2' Hs2 _ X2. inversion X2; subst. auto. }
  pose proof (T _ _ _ J2 C2 X) as Y. destruct r; auto. apply Y.
Qed.
End Err.
