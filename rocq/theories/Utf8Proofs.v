(** The lossy UTF-8 conversion against the UTF-8 specification. *)
From Verif Require Import Prelude StdModel BrassTypes FormatSpec ReaderSpec CodeGenericProofs.
From Coq Require Import Lia.

Ltac zcase :=
  repeat (cbn [negb andb orb];
    match goal with
    | |- context [?a <? ?b] => first
        [ replace (a <? b) with true by (symmetry; apply Z.ltb_lt; lia)
        | replace (a <? b) with false by (symmetry; apply Z.ltb_ge; lia) ]
    | |- context [?a <=? ?b] => first
        [ replace (a <=? b) with true by (symmetry; apply Z.leb_le; lia)
        | replace (a <=? b) with false by (symmetry; apply Z.leb_gt; lia) ]
    | |- context [?a =? ?b] => first
        [ replace (a =? b) with true by (symmetry; apply Z.eqb_eq; lia)
        | replace (a =? b) with false by (symmetry; apply Z.eqb_neq; lia) ]
    end); cbn [negb andb orb].

Lemma utf8_char_len c : (1 <= length (utf8_char c) <= 4)%nat.
Proof. unfold utf8_char. repeat (destruct (_ <? _)); cbn; lia. Qed.

Lemma utf8_head_char c r : scalar c -> utf8_head (utf8_char c ++ r) = (true, length (utf8_char c)).
Proof.
  unfold scalar. intros H. unfold utf8_char.
  destruct (Z.ltb_spec c 128); [cbn; zcase; reflexivity|].
  destruct (Z.ltb_spec c 2048).
  { assert (2 <= c / 64 < 32) by (split; [apply Z.div_le_lower_bound|apply Z.div_lt_upper_bound]; lia).
    pose proof (Z.mod_pos_bound c 64 ltac:(lia)).
    cbn [app utf8_head nth length]. unfold is_cont, in_range. zcase. reflexivity. }
  destruct (Z.ltb_spec c 65536).
  { pose proof (Z.mod_pos_bound c 64 ltac:(lia)). pose proof (Z.mod_pos_bound (c / 64) 64 ltac:(lia)).
    assert (E : c / 64 = 64 * (c / 4096) + (c / 64) mod 64).
    { change 4096 with (64 * 64). rewrite <- Z.div_div by lia. apply Z.div_mod. lia. }
    assert (0 <= c / 4096 < 16) by (split; [apply Z.div_pos|apply Z.div_lt_upper_bound]; lia).
    assert (B : 32 <= c / 64) by (apply Z.div_le_lower_bound; lia).
    assert (S : c / 64 < 864 \/ 896 <= c / 64).
    { destruct H; [left; apply Z.div_lt_upper_bound; lia|right; apply Z.div_le_lower_bound; lia]. }
    cbn [app utf8_head nth length]. unfold is_cont, in_range.
    set (h := c / 4096) in *. set (m := (c / 64) mod 64) in *. set (l := c mod 64) in *.
    destruct (Z.eq_dec h 0); [zcase; reflexivity|].
    destruct (Z.eq_dec h 13); zcase; reflexivity. }
  { pose proof (Z.mod_pos_bound c 64 ltac:(lia)). pose proof (Z.mod_pos_bound (c / 64) 64 ltac:(lia)).
    pose proof (Z.mod_pos_bound (c / 4096) 64 ltac:(lia)).
    assert (E : c / 4096 = 64 * (c / 262144) + (c / 4096) mod 64).
    { change 262144 with (4096 * 64). rewrite <- Z.div_div by lia. apply Z.div_mod. lia. }
    assert (0 <= c / 262144 < 5) by (split; [apply Z.div_pos|apply Z.div_lt_upper_bound]; lia).
    assert (16 <= c / 4096 < 272) by (split; [apply Z.div_le_lower_bound|apply Z.div_lt_upper_bound]; lia).
    cbn [app utf8_head nth length]. unfold is_cont, in_range.
    set (h := c / 262144) in *. set (m := (c / 4096) mod 64) in *. set (l := (c / 64) mod 64) in *.
    destruct (Z.eq_dec h 0); [zcase; reflexivity|].
    destruct (Z.eq_dec h 4); zcase; reflexivity. }
Qed.

(** Conversely a character the scanner accepts is the encoding of a scalar value. *)
Lemma utf8_char2 x y : 194 <= x <= 223 -> 128 <= y <= 191 ->
  utf8_char ((x - 192) * 64 + (y - 128)) = [x; y] /\ scalar ((x - 192) * 64 + (y - 128)).
Proof.
  intros. set (c := _ + _).
  assert (D : c / 64 = x - 192) by (symmetry; apply Z.div_unique with (y - 128); lia).
  assert (R : c mod 64 = y - 128) by (symmetry; apply Z.mod_unique with (x - 192); lia).
  split; [|unfold scalar; lia]. unfold utf8_char. rewrite D, R. zcase. repeat f_equal; lia.
Qed.
Lemma utf8_char3 x y z : 224 <= x <= 239 -> 128 <= y <= 191 -> 128 <= z <= 191 ->
  (x = 224 -> 160 <= y) -> (x = 237 -> y <= 159) ->
  let c := (x - 224) * 4096 + (y - 128) * 64 + (z - 128) in
  utf8_char c = [x; y; z] /\ scalar c.
Proof.
  intros Hx Hy Hz H1 H2 c.
  assert (D : c / 4096 = x - 224) by (symmetry; apply Z.div_unique with ((y - 128) * 64 + (z - 128)); lia).
  assert (D1 : c / 64 = (x - 224) * 64 + (y - 128)) by (symmetry; apply Z.div_unique with (z - 128); lia).
  assert (R1 : (c / 64) mod 64 = y - 128) by (rewrite D1; symmetry; apply Z.mod_unique with (x - 224); lia).
  assert (R : c mod 64 = z - 128) by (symmetry; apply Z.mod_unique with ((x - 224) * 64 + (y - 128)); lia).
  split; [|unfold scalar; destruct (Z.eq_dec x 237); lia]. unfold utf8_char. rewrite D, R1, R.
  assert (2048 <= c) by (destruct (Z.eq_dec x 224); lia).
  zcase. repeat f_equal; lia.
Qed.
Lemma utf8_char4 w x y z : 240 <= w <= 244 -> 128 <= x <= 191 -> 128 <= y <= 191 -> 128 <= z <= 191 ->
  (w = 240 -> 144 <= x) -> (w = 244 -> x <= 143) ->
  let c := (w - 240) * 262144 + (x - 128) * 4096 + (y - 128) * 64 + (z - 128) in
  utf8_char c = [w; x; y; z] /\ scalar c.
Proof.
  intros Hw Hx Hy Hz H1 H2 c.
  assert (D : c / 262144 = w - 240) by (symmetry; apply Z.div_unique with ((x - 128) * 4096 + (y - 128) * 64 + (z - 128)); lia).
  assert (D2 : c / 4096 = (w - 240) * 64 + (x - 128)) by (symmetry; apply Z.div_unique with ((y - 128) * 64 + (z - 128)); lia).
  assert (D1 : c / 64 = (w - 240) * 4096 + (x - 128) * 64 + (y - 128)) by (symmetry; apply Z.div_unique with (z - 128); lia).
  assert (R2 : (c / 4096) mod 64 = x - 128) by (rewrite D2; symmetry; apply Z.mod_unique with (w - 240); lia).
  assert (R1 : (c / 64) mod 64 = y - 128) by (rewrite D1; symmetry; apply Z.mod_unique with ((w - 240) * 64 + (x - 128)); lia).
  assert (R : c mod 64 = z - 128) by (symmetry; apply Z.mod_unique with ((w - 240) * 4096 + (x - 128) * 64 + (y - 128)); lia).
  assert (65536 <= c) by (destruct (Z.eq_dec w 240); lia).
  split; [|unfold scalar; destruct (Z.eq_dec w 244); lia]. unfold utf8_char. rewrite D, R2, R1, R.
  zcase. repeat f_equal; lia.
Qed.

Ltac bcase :=
  repeat match goal with
  | H : context [if ?b then _ else _] |- _ => destruct b eqn:?; try discriminate
  | H : (_, _) = (_, _) |- _ => inversion H; clear H; subst
  end.
Ltac zb :=
  unfold is_cont, in_range in *;
  repeat match goal with
  | H : negb _ = _ |- _ => apply (f_equal negb) in H; rewrite negb_involutive in H; cbn in H
  | H : (_ && _)%bool = true |- _ => apply andb_true_iff in H; destruct H
  | H : (_ <=? _) = true |- _ => apply Z.leb_le in H
  | H : (_ <? _) = false |- _ => apply Z.ltb_ge in H
  | H : (_ <? _) = true |- _ => apply Z.ltb_lt in H
  | H : (_ =? _) = true |- _ => apply Z.eqb_eq in H
  | H : (_ =? _) = false |- _ => apply Z.eqb_neq in H
  end.

Lemma utf8_head_true s n : bytes s -> utf8_head s = (true, n) ->
  exists c, scalar c /\ s = utf8_char c ++ skipn n s /\ n = length (utf8_char c).
Proof.
  intros B E. destruct s as [|b0 r]; [discriminate|]. cbn [utf8_head] in E.
  inversion B as [|? ? Hb Br]; subst. unfold is_byte in Hb.
  assert (L : forall k, nth k r 0 <> 0 -> nth_error r k = Some (nth k r 0)).
  { intros k Hk. apply nth_error_nth'. destruct (Nat.lt_ge_cases k (length r)); [auto|].
    now rewrite nth_overflow in Hk by lia. }
  destruct (b0 <? 128) eqn:E0.
  { inversion E; subst. zb. exists b0. unfold utf8_char, scalar. zcase.
    split; [lia|]. split; reflexivity. }
  destruct (in_range 194 223 b0) eqn:E1.
  { destruct (is_cont (nth 0 r 0)) eqn:E2; inversion E; subst. zb.
    specialize (L 0%nat ltac:(lia)). destruct r as [|y r]; [discriminate|]. cbn in *.
    destruct (utf8_char2 b0 y) as [Q S]; [lia|lia|].
    eexists; split; [exact S|]. rewrite Q. split; reflexivity. }
  destruct (in_range 224 239 b0) eqn:E2.
  { assert (X : exists g, (if b0 =? 224 then in_range 160 191 (nth 0 r 0)
              else if b0 =? 237 then in_range 128 159 (nth 0 r 0) else is_cont (nth 0 r 0)) = g) by eauto.
    destruct X as [g X]. rewrite X in E.
    destruct g; cbn [negb] in E; [|discriminate].
    destruct (is_cont (nth 1 r 0)) eqn:E4; cbn [negb] in E; inversion E; subst.
    assert (128 <= nth 0 r 0 <= 191 /\ (b0 = 224 -> 160 <= nth 0 r 0) /\ (b0 = 237 -> nth 0 r 0 <= 159)) as (Y & Y1 & Y2)
      by (destruct (b0 =? 224) eqn:?; destruct (b0 =? 237) eqn:?; zb; lia).
    clear X. zb.
    pose proof (L 0%nat ltac:(lia)) as L0. pose proof (L 1%nat ltac:(lia)) as L1.
    destruct r as [|y [|z r]]; [discriminate|discriminate|]. cbn in *.
    destruct (utf8_char3 b0 y z) as [Q S]; try lia.
    eexists; split; [exact S|]. rewrite Q. split; reflexivity. }
  destruct (in_range 240 244 b0) eqn:E3; [|discriminate].
  { assert (X : exists g, (if b0 =? 240 then in_range 144 191 (nth 0 r 0)
              else if b0 =? 244 then in_range 128 143 (nth 0 r 0) else is_cont (nth 0 r 0)) = g) by eauto.
    destruct X as [g X]. rewrite X in E.
    destruct g; cbn [negb] in E; [|discriminate].
    destruct (is_cont (nth 1 r 0)) eqn:E4; cbn [negb] in E; [|discriminate].
    destruct (is_cont (nth 2 r 0)) eqn:E5; cbn [negb] in E; inversion E; subst.
    assert (128 <= nth 0 r 0 <= 191 /\ (b0 = 240 -> 144 <= nth 0 r 0) /\ (b0 = 244 -> nth 0 r 0 <= 143)) as (Y & Y1 & Y2)
      by (destruct (b0 =? 240) eqn:?; destruct (b0 =? 244) eqn:?; zb; lia).
    clear X. zb.
    pose proof (L 0%nat ltac:(lia)) as L0. pose proof (L 1%nat ltac:(lia)) as L1. pose proof (L 2%nat ltac:(lia)) as L2.
    destruct r as [|x [|y [|z r]]]; [discriminate|discriminate|discriminate|]. cbn in *.
    destruct (utf8_char4 b0 x y z) as [Q S]; try lia.
    eexists; split; [exact S|]. rewrite Q. split; reflexivity. }
Qed.

Lemma utf8_head_len s b n : s <> [] -> utf8_head s = (b, n) ->
  (1 <= n <= 4)%nat /\ (b = false -> (n <= 3)%nat).
Proof.
  intros N E. destruct s as [|b0 r]; [congruence|]. cbn [utf8_head] in E.
  repeat match type of E with
  | (if ?x then _ else _) = _ => destruct x
  end; inversion E; subst; split; try lia; discriminate.
Qed.
(** The parts replaced are maximal. *)
Lemma head_false_starts s n : bytes s -> s <> [] -> utf8_head s = (false, n) -> (n <= length s)%nat /\ (n = 1%nat \/ starts_char (firstn n s)).
Proof.
  intros B N E. destruct s as [|b0 r]; [congruence|]. clear N. cbn [utf8_head] in E. inversion B as [|? ? Hb Br]; subst. unfold is_byte in Hb.
  assert (L : forall k, nth k r 0 <> 0 -> nth_error r k = Some (nth k r 0)).
  { intros k Hk. apply nth_error_nth'. destruct (Nat.lt_ge_cases k (length r)); [auto|]. now rewrite nth_overflow in Hk by lia. }
  assert (One : forall m, (false, 1%nat) = (false, m) -> (m <= length (b0 :: r))%nat /\ (m = 1%nat \/ starts_char (firstn m (b0 :: r)))) by (intros m Q; inversion Q; cbn [length]; split; [lia|auto]).
  destruct (b0 <? 128) eqn:E0; [discriminate|]. destruct (in_range 194 223 b0) eqn:E1.
  { destruct (is_cont (nth 0 r 0)); [discriminate|]. now apply One. }
  destruct (in_range 224 239 b0) eqn:E2.
  { assert (X : exists g, (if b0 =? 224 then in_range 160 191 (nth 0 r 0)
              else if b0 =? 237 then in_range 128 159 (nth 0 r 0) else is_cont (nth 0 r 0)) = g) by eauto.
    destruct X as [g X]. rewrite X in E. destruct g; cbn [negb] in E; [|now apply One].
    destruct (is_cont (nth 1 r 0)) eqn:E4; cbn [negb] in E; inversion E; subst.
    assert (128 <= nth 0 r 0 <= 191 /\ (b0 = 224 -> 160 <= nth 0 r 0) /\ (b0 = 237 -> nth 0 r 0 <= 159)) as (Y & Y1 & Y2)
      by (destruct (b0 =? 224) eqn:?; destruct (b0 =? 237) eqn:?; zb; lia).
    clear X E4 E. zb. pose proof (L 0%nat ltac:(lia)) as L0. destruct r as [|y r]; [discriminate|]. cbn [nth length firstn] in *. split; [lia|]. right.
    destruct (utf8_char3 b0 y 128) as [Q S]; try lia. eexists _, [128]. split; [exact S|exact Q]. }
  destruct (in_range 240 244 b0) eqn:E3; [|now apply One].
  assert (X : exists g, (if b0 =? 240 then in_range 144 191 (nth 0 r 0)
              else if b0 =? 244 then in_range 128 143 (nth 0 r 0) else is_cont (nth 0 r 0)) = g) by eauto.
  destruct X as [g X]. rewrite X in E. destruct g; cbn [negb] in E; [|now apply One].
  assert (128 <= nth 0 r 0 <= 191 /\ (b0 = 240 -> 144 <= nth 0 r 0) /\ (b0 = 244 -> nth 0 r 0 <= 143)) as (Y & Y1 & Y2)
    by (destruct (b0 =? 240) eqn:?; destruct (b0 =? 244) eqn:?; zb; lia).
  clear X. pose proof (L 0%nat ltac:(lia)) as L0.
  destruct (is_cont (nth 1 r 0)) eqn:E4; cbn [negb] in E.
  - destruct (is_cont (nth 2 r 0)) eqn:E5; cbn [negb] in E; inversion E; subst. clear E E5. zb. pose proof (L 1%nat ltac:(lia)) as L1.
    destruct r as [|x [|y r]]; [discriminate|discriminate|]. cbn [nth length firstn] in *. split; [lia|]. right.
    destruct (utf8_char4 b0 x y 128) as [Q S]; try lia. eexists _, [128]. split; [exact S|exact Q].
  - inversion E; subst. clear E E4. zb. destruct r as [|x r]; [discriminate|]. cbn [nth length firstn] in *. split; [lia|]. right.
    destruct (utf8_char4 b0 x 128 128) as [Q S]; try lia. eexists _, [128; 128]. split; [exact S|exact Q].
Qed.
Lemma head_false_max s n : utf8_head s = (false, n) -> (n < length s)%nat -> ~ starts_char (firstn (S n) s).
Proof.
  intros E L (c & q & Sc & Ec). pose proof (utf8_head_char c [] Sc) as H. rewrite app_nil_r, Ec in H. clear Ec.
  destruct s as [|b0 r]; [cbn in L; lia|]. cbn [length] in L. cbn [utf8_head] in E. cbn [firstn app utf8_head] in H.
  destruct n as [|n]; [cbn in E; repeat match type of E with (if ?x then _ else _) = _ => destruct x end; discriminate|].
  destruct r as [|b1 r]; [cbn in L; lia|]. cbn [firstn app nth length] in *.
  destruct (b0 <? 128); [discriminate|]. destruct (in_range 194 223 b0); [destruct (is_cont b1); discriminate|].
  destruct (in_range 224 239 b0).
  { destruct (if b0 =? 224 then in_range 160 191 b1 else if b0 =? 237 then in_range 128 159 b1 else is_cont b1); cbn [negb] in *; [|discriminate].
    destruct (is_cont (nth 0 r 0)) eqn:Q; cbn [negb] in E; [discriminate|]. inversion E; subst n. destruct r as [|b2 r]; [cbn in L; lia|]. cbn [firstn app nth] in *. rewrite Q in H. discriminate. }
  destruct (in_range 240 244 b0); [|discriminate].
  destruct (if b0 =? 240 then in_range 144 191 b1 else if b0 =? 244 then in_range 128 143 b1 else is_cont b1); cbn [negb] in *; [|discriminate].
  destruct (is_cont (nth 0 r 0)) eqn:Q; cbn [negb] in E.
  - destruct (is_cont (nth 1 r 0)) eqn:Q2; cbn [negb] in E; [discriminate|]. inversion E; subst n. destruct r as [|b2 [|b3 r]]; [cbn in L; lia|cbn in L; lia|]. cbn [firstn app nth] in *. rewrite Q, Q2 in H. discriminate.
  - inversion E; subst n. destruct r as [|b2 r]; [cbn in L; lia|]. cbn [firstn app nth] in *. rewrite Q in H. discriminate.
Qed.
Lemma skipn_head_shorter (s : list Z) n : s <> [] -> (1 <= n)%nat -> (length (skipn n s) < length s)%nat.
Proof. intros. rewrite skipn_length. destruct s; [congruence|]. cbn [length]. lia. Qed.

(** * Lossy conversion as a relation between input and output *)

Lemma lossy_fuel_spec fuel : forall s, bytes s -> (length s <= fuel)%nat -> lossy_of s (lossy_fuel fuel s).
Proof.
  induction fuel; intros s B L.
  { destruct s; [constructor|cbn in L; lia]. }
  cbn [lossy_fuel]. destruct s as [|b0 r] eqn:Es; [constructor|]. rewrite <- Es in *.
  assert (N : s <> []) by congruence. clear Es b0 r.
  destruct (utf8_head s) as [[|] n] eqn:E; destruct (utf8_head_len _ _ _ N E) as [Ln Lf].
  - destruct (utf8_head_true _ _ B E) as (c & Sc & Es & En).
    assert (F : firstn n s = utf8_char c).
    { rewrite Es, En, firstn_app, Nat.sub_diag, firstn_all. cbn. apply app_nil_r. }
    rewrite F. rewrite Es at 1. constructor; [auto|]. apply IHfuel; [now apply bytes_skipn|].
    pose proof (skipn_head_shorter s n N ltac:(lia)). lia.
  - specialize (Lf eq_refl). change replacement with (utf8_char 65533).
    rewrite <- (firstn_skipn n s) at 1. constructor.
    + destruct s; [congruence|]. destruct n; [lia|discriminate].
    + destruct (head_false_starts _ _ B N E) as (Hn & [->|H]); [left; rewrite firstn_length; lia|right; exact H].
    + intros c r Sc X. rewrite firstn_skipn in X. rewrite X, utf8_head_char in E by auto. discriminate.
    + intros x r X. destruct (Nat.lt_ge_cases n (length s)) as [C|C]; [|rewrite skipn_all2 in X by lia; discriminate].
      pose proof (head_false_max _ _ E C) as H. replace (firstn (S n) s) with (firstn n s ++ [x]) in H; [exact H|]. 
      rewrite <- (firstn_skipn n s) at 2. rewrite X. rewrite firstn_app, firstn_firstn, firstn_length. replace (Nat.min (S n) n) with n by lia. replace (S n - Nat.min n (length s))%nat with 1%nat by lia. reflexivity.
    + apply IHfuel; [now apply bytes_skipn|]. pose proof (skipn_head_shorter s n N ltac:(lia)). lia.
Qed.
Lemma lossy_spec s : bytes s -> lossy_of s (from_utf8_lossy s).
Proof. intros. now apply lossy_fuel_spec. Qed.

(** The relation determines its output. *)
Lemma starts_prefix p q : starts_char (p ++ q) -> starts_char p.
Proof. intros (c & r & S & E). exists c, (q ++ r). split; [exact S|]. now rewrite E, app_assoc. Qed.
Lemma bad_head bad i : bytes (bad ++ i) -> bad <> [] -> (length bad = 1%nat \/ starts_char bad) ->
  (forall c r, scalar c -> bad ++ i <> utf8_char c ++ r) -> (forall x r, i = x :: r -> ~ starts_char (bad ++ [x])) ->
  utf8_head (bad ++ i) = (false, length bad).
Proof.
  intros B N O C X. assert (Ns : bad ++ i <> []) by (destruct bad; [congruence|discriminate]).
  destruct (utf8_head (bad ++ i)) as [[] n] eqn:E.
  { destruct (utf8_head_true _ _ B E) as (c & Sc & Es & _). exfalso. eapply C; eauto. }
  destruct (utf8_head_len _ _ _ Ns E) as (Ln & _). destruct (head_false_starts _ _ B Ns E) as (Hl & Hs). f_equal.
  destruct (Nat.lt_trichotomy n (length bad)) as [H|[H|H]]; [exfalso|exact H|exfalso].
  - destruct O as [O|O]; [lia|]. apply (head_false_max _ _ E); [rewrite app_length; lia|]. rewrite firstn_app. replace (S n - length bad)%nat with 0%nat by lia. rewrite firstn_O, app_nil_r.
    rewrite <- (firstn_skipn (S n) bad) in O. now apply starts_prefix in O.
  - rewrite app_length in Hl. destruct i as [|x r]; [cbn in Hl; lia|]. apply (X x r eq_refl). assert (Lb : (1 <= length bad)%nat) by (destruct bad; [congruence|cbn; lia]).
    destruct Hs as [Hs|Hs]; [lia|]. rewrite firstn_app in Hs. rewrite firstn_all2 in Hs by lia. replace (n - length bad)%nat with (S (n - length bad - 1)) in Hs by lia. cbn [firstn] in Hs.
    change (x :: firstn (n - length bad - 1) r) with ([x] ++ firstn (n - length bad - 1) r) in Hs. rewrite app_assoc in Hs. now apply starts_prefix in Hs.
Qed.
Lemma lossy_unique i o : lossy_of i o -> bytes i -> forall fuel, (length i <= fuel)%nat -> o = lossy_fuel fuel i.
Proof.
  intros H. induction H as [|c i o Sc H IH|bad i o N O C X H IH]; intros B fuel L.
  - destruct fuel; reflexivity.
  - pose proof (utf8_char_len c) as Lc. rewrite app_length in L. destruct fuel as [|f]; [lia|]. cbn [lossy_fuel]. rewrite utf8_head_char by auto.
    destruct (utf8_char c ++ i) eqn:E; [apply app_eq_nil in E as (E & _); rewrite E in Lc; cbn in Lc; lia|]. rewrite <- E in *.
    rewrite firstn_app, Nat.sub_diag, firstn_all, firstn_O, app_nil_r, skipn_app, Nat.sub_diag, skipn_all. cbn [app skipn]. f_equal. apply IH; [|lia].
    unfold bytes in B. now apply Forall_app in B as (_ & B).
  - pose proof (bad_head _ _ B N O C X) as Hh. assert (Lb : (1 <= length bad)%nat) by (destruct bad; [congruence|cbn; lia]). rewrite app_length in L. destruct fuel as [|f]; [lia|]. cbn [lossy_fuel]. rewrite Hh.
    destruct (bad ++ i) eqn:E; [apply app_eq_nil in E as (E & _); congruence|]. rewrite <- E in *. rewrite skipn_app, Nat.sub_diag, skipn_all. cbn [app skipn].
    change replacement with (utf8_char 65533). f_equal. apply IH; [|lia]. unfold bytes in B. now apply Forall_app in B as (_ & B).
Qed.

Lemma utf8_nil : utf8 [].
Proof. exists []. split; [constructor|reflexivity]. Qed.
Lemma utf8_cons c s : scalar c -> utf8 s -> utf8 (utf8_char c ++ s).
Proof. intros Sc (cs & F & ->). exists (c :: cs). split; [now constructor|reflexivity]. Qed.
Lemma utf8_app a b : utf8 a -> utf8 b -> utf8 (a ++ b).
Proof.
  intros (x & Fx & ->) (y & Fy & ->). exists (x ++ y). split; [now apply Forall_app|now rewrite flat_map_app].
Qed.
Lemma utf8_char_bytes c : scalar c -> bytes (utf8_char c).
Proof.
  unfold scalar, utf8_char, bytes, is_byte. intros H.
  pose proof (Z.mod_pos_bound c 64 ltac:(lia)). pose proof (Z.mod_pos_bound (c / 64) 64 ltac:(lia)).
  pose proof (Z.mod_pos_bound (c / 4096) 64 ltac:(lia)).
  repeat match goal with |- context [?a <? ?b] => destruct (Z.ltb_spec a b) end; repeat constructor; try lia.
  - apply Z.add_nonneg_nonneg; [lia|apply Z.div_pos; lia].
  - assert (c / 64 < 32) by (apply Z.div_lt_upper_bound; lia). lia.
  - apply Z.add_nonneg_nonneg; [lia|apply Z.div_pos; lia].
  - assert (c / 4096 < 16) by (apply Z.div_lt_upper_bound; lia). lia.
  - apply Z.add_nonneg_nonneg; [lia|apply Z.div_pos; lia].
  - assert (c / 262144 < 5) by (apply Z.div_lt_upper_bound; lia). lia.
Qed.
Lemma utf8_bytes s : utf8 s -> bytes s.
Proof.
  intros (cs & F & ->). induction F; cbn [flat_map]; [constructor|].
  apply Forall_app. split; [now apply utf8_char_bytes|auto].
Qed.
Lemma scalar_fffd : scalar 65533. Proof. unfold scalar. lia. Qed.

Lemma lossy_of_utf8 i o : lossy_of i o -> utf8 o.
Proof. induction 1; [apply utf8_nil| |]; apply utf8_cons; auto using scalar_fffd. Qed.
Lemma lossy_utf8 s : bytes s -> utf8 (from_utf8_lossy s).
Proof. intros. eapply lossy_of_utf8. now apply lossy_spec. Qed.

Lemma lossy_id_fuel fuel : forall s, utf8 s -> (length s <= fuel)%nat -> lossy_fuel fuel s = s.
Proof.
  induction fuel; intros s U L; [destruct s; [reflexivity|cbn in L; lia]|].
  destruct U as (cs & F & ->). destruct F as [|c cs Sc F]; [reflexivity|].
  cbn [flat_map] in *. pose proof (utf8_char_len c) as Lc.
  cbn [lossy_fuel]. destruct (utf8_char c ++ flat_map utf8_char cs) as [|b r] eqn:Es.
  { apply app_eq_nil in Es. destruct Es as [Es _]. rewrite Es in Lc. cbn in Lc; lia. }
  rewrite <- Es. rewrite utf8_head_char by auto.
  rewrite firstn_app, skipn_app, Nat.sub_diag, firstn_all, skipn_all. cbn [firstn skipn app].
  rewrite app_nil_r. f_equal. apply IHfuel; [exists cs; auto|].
  rewrite <- Es, app_length in L. lia.
Qed.
Lemma lossy_id s : utf8 s -> from_utf8_lossy s = s.
Proof. intros. now apply lossy_id_fuel. Qed.

(** * Slicing at character boundaries *)
Lemma char_conts c i : scalar c -> (1 <= i < length (utf8_char c))%nat ->
  exists b, nth_error (utf8_char c) i = Some b /\ is_cont b = true.
Proof.
  intros Sc H. unfold utf8_char in *. unfold is_cont, in_range.
  pose proof (Z.mod_pos_bound c 64 ltac:(lia)). pose proof (Z.mod_pos_bound (c / 64) 64 ltac:(lia)).
  pose proof (Z.mod_pos_bound (c / 4096) 64 ltac:(lia)).
  repeat match goal with |- context [?a <? ?b] => destruct (Z.ltb_spec a b) end; cbn [length] in H;
    (destruct i as [|[|[|[|i]]]]; [lia| | | |]); try lia; cbn [nth_error];
    (eexists; split; [reflexivity|]; zcase; reflexivity).
Qed.

Lemma nth_error_znth {A} (l : list A) i : znth l (Z.of_nat i) = nth_error l i.
Proof.
  revert i; induction l as [|x l IH]; intros [|i]; cbn [znth nth_error]; try reflexivity.
  replace (Z.of_nat (S i) =? 0) with false by (symmetry; apply Z.eqb_neq; lia).
  replace (Z.of_nat (S i) - 1) with (Z.of_nat i) by lia. apply IH.
Qed.

(** Every boundary of a well-formed string splits its list of characters. *)
Lemma boundary_split : forall cs i, Forall scalar cs ->
  is_char_boundary (flat_map utf8_char cs) (Z.of_nat i) = true ->
  exists a b, cs = a ++ b /\ firstn i (flat_map utf8_char cs) = flat_map utf8_char a /\
    skipn i (flat_map utf8_char cs) = flat_map utf8_char b /\ i = length (flat_map utf8_char a).
Proof.
  intros cs i F. revert i. induction F as [|c cs Sc F IH]; intros i H.
  - cbn in H. destruct i; [|cbn in H; discriminate]. exists [], []. auto.
  - cbn [flat_map] in *. pose proof (utf8_char_len c) as Lc.
    destruct (Nat.eq_dec i 0) as [->|Ni]; [exists [], (c :: cs); auto|].
    destruct (Nat.lt_ge_cases i (length (utf8_char c))) as [Lt|Ge].
    + exfalso. destruct (char_conts c i Sc ltac:(lia)) as (b & Nb & Cb).
      unfold is_char_boundary in H.
      replace (Z.of_nat i =? 0) with false in H by (symmetry; apply Z.eqb_neq; lia).
      replace (Z.of_nat i =? zlen (utf8_char c ++ flat_map utf8_char cs)) with false in H
        by (symmetry; apply Z.eqb_neq; rewrite zlen_app; unfold zlen; lia).
      rewrite nth_error_znth, nth_error_app1, Nb, Cb in H by lia. discriminate.
    + destruct (IH (i - length (utf8_char c))%nat) as (a & b & E & Ea & Eb & El).
      * unfold is_char_boundary in *.
        destruct (Z.eqb_spec (Z.of_nat (i - length (utf8_char c))) 0); [reflexivity|].
        destruct (Z.eqb_spec (Z.of_nat (i - length (utf8_char c))) (zlen (flat_map utf8_char cs))); [reflexivity|].
        replace (Z.of_nat i =? 0) with false in H by (symmetry; apply Z.eqb_neq; lia).
        replace (Z.of_nat i =? zlen (utf8_char c ++ flat_map utf8_char cs)) with false in H
          by (symmetry; apply Z.eqb_neq; rewrite zlen_app; unfold zlen in *; lia).
        rewrite nth_error_znth, nth_error_app2 in H by lia. now rewrite nth_error_znth.
      * exists (c :: a), b. subst cs. cbn [flat_map app].
        rewrite firstn_app, skipn_app, firstn_all2, skipn_all2 by lia. cbn [app].
        rewrite Ea, Eb. rewrite app_length. repeat split; auto. lia.
Qed.

Lemma str_from_utf8 s a t : utf8 s -> str_from s a = Some t -> 0 <= a -> utf8 t.
Proof.
  intros (cs & F & ->) H Ha. unfold str_from in H.
  destruct (is_char_boundary _ a) eqn:Bd; [|discriminate]. inversion H; subst; clear H.
  rewrite <- (Z2Nat.id a) in Bd by lia.
  destruct (boundary_split _ _ F Bd) as (x & y & E & _ & Es & _). rewrite Es. exists y.
  subst cs. apply Forall_app in F. now split.
Qed.
Lemma str_to_utf8 s n t : utf8 s -> str_to s n = Some t -> 0 <= n -> utf8 t /\ zlen t = n.
Proof.
  intros (cs & F & ->) H Hn. unfold str_to in H.
  destruct (is_char_boundary _ n) eqn:Bd; [|discriminate]. inversion H; subst; clear H.
  rewrite <- (Z2Nat.id n) in Bd by lia.
  destruct (boundary_split _ _ F Bd) as (x & y & E & Es & _ & El). rewrite Es.
  split; [exists x; subst cs; apply Forall_app in F; now split|]. unfold zlen. lia.
Qed.

(** Boundaries between well-formed pieces. *)
Lemma boundary_at a b : utf8 b -> is_char_boundary (a ++ b) (zlen a) = true.
Proof.
  intros (cs & F & ->). unfold is_char_boundary.
  destruct (Z.eqb_spec (zlen a) 0); [reflexivity|].
  destruct (Z.eqb_spec (zlen a) (zlen (a ++ flat_map utf8_char cs))) as [|N]; [reflexivity|].
  unfold zlen. rewrite nth_error_znth, nth_error_app2, Nat.sub_diag by lia.
  destruct F as [|c cs Sc F]; [cbn in N; rewrite app_nil_r in N; congruence|].
  cbn [flat_map]. rewrite nth_error_app1 by (pose proof (utf8_char_len c); lia).
  pose proof (utf8_head_char c [] Sc) as Hd. rewrite app_nil_r in Hd.
  destruct (utf8_char c) as [|b0 r] eqn:Ec; [pose proof (utf8_char_len c) as X; rewrite Ec in X; cbn in X; lia|].
  cbn [nth_error]. cbn [utf8_head] in Hd. unfold is_cont, in_range in *.
  destruct (Z.leb_spec 128 b0), (Z.leb_spec b0 191); cbn [andb negb]; try reflexivity. exfalso.
  revert Hd. zcase. discriminate.
Qed.
