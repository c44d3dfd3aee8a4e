(** Theorems C91: how far into a type its hash looks.  Model: HashModel.v.  Vocabulary: TypeBlindSpec.v, HashSpec.v. *)
From Verif Require Import Prelude StdModel BrassTypes DecoderModel CodeModel FormatSpec ReaderSpec AcceptSpec HashModel HashSpec FunHashSpec TypeBlindSpec.
From Verif Require Import CodeGenericProofs FormatProofs StringsProofs TypesProofs OpsProofs ReaderSizes ReaderTables AcceptProofs CrcProofs HashProofs HashAlloc HashPanics PropsModule PropsHash PropsFunHash BlindSpec PropsBlind.
From Coq Require Import Lia ZifyBool.

(** * Agreement gives equal serialisations *)
Definition like (d d' : vtype -> list Z) (a b : vtype) : Prop := d a = d' b.
Lemma like_flat d d' xs ys : Forall2 (like d d') xs ys -> flat_map d xs = flat_map d' ys.
Proof. intros F. induction F as [|x y xs ys E _ IH]; [reflexivity|]. cbn [flat_map]. rewrite IH. f_equal. exact E. Qed.
Lemma like_fields d d' (fs gs : list (obj_field vtype)) : map (@fd_hash vtype) fs = map (@fd_hash vtype) gs ->
  Forall2 (like d d') (map (@fd_t vtype) fs) (map (@fd_t vtype) gs) ->
  flat_map (fun f => enc_le 4 (fd_hash f) ++ d (fd_t f)) fs = flat_map (fun f => enc_le 4 (fd_hash f) ++ d' (fd_t f)) gs.
Proof.
  revert gs. induction fs as [|f fs IH]; intros [|g gs] E F; cbn [map] in *; try discriminate; [reflexivity|].
  injection E as E1 E2. inversion F; subst. cbn [flat_map]. rewrite (IH gs), E1 by auto. f_equal. f_equal. assumption.
Qed.
Lemma like_constructs d d' (cs bs : list (enum_construct vtype)) : map (@ec_name vtype) cs = map (@ec_name vtype) bs ->
  flat_map (fun c => [ec_nparams c; zlen (ec_params c)]) cs = flat_map (fun c => [ec_nparams c; zlen (ec_params c)]) bs ->
  Forall2 (like d d') (flat_map (@ec_params vtype) cs) (flat_map (@ec_params vtype) bs) ->
  flat_map (fun c => enc_le 8 (ec_nparams c) ++ ec_name c ++ flat_map d (ec_params c)) cs =
  flat_map (fun c => enc_le 8 (ec_nparams c) ++ ec_name c ++ flat_map d' (ec_params c)) bs.
Proof.
  revert bs. induction cs as [|x cs IH]; intros [|y bs] E N F; cbn [map flat_map app] in *; try discriminate; [reflexivity|].
  injection E as E1 E2. injection N as N1 N2 N3. apply forall2_app_len in F as [F1 F2]; [|unfold zlen in N2; lia].
  rewrite (IH bs), E1, N1 by auto. f_equal. f_equal. f_equal. now apply like_flat.
Qed.
Ltac kinds := unfold class, one_of in *; cbn [existsb] in *;
  repeat match goal with |- context [if ?b then _ else _] => destruct b eqn:? end.
Lemma class_cases k : 
  (one_of k [HFUN; HMETHOD] = true /\ class k = HFUN) \/
  (one_of k [HFUN; HMETHOD] = false /\ one_of k [HOBJ; HSTRUCT] = true /\ class k = HOBJ) \/
  (one_of k [HFUN; HMETHOD] = false /\ one_of k [HOBJ; HSTRUCT] = false /\ one_of k [HREF; HNULL] = true /\ class k = HREF) \/
  (one_of k [HFUN; HMETHOD] = false /\ one_of k [HOBJ; HSTRUCT] = false /\ one_of k [HREF; HNULL] = false /\ k = HVIRTUAL /\ class k = HVIRTUAL) \/
  (one_of k [HFUN; HMETHOD] = false /\ one_of k [HOBJ; HSTRUCT] = false /\ one_of k [HREF; HNULL] = false /\ k = HENUM /\ class k = HENUM) \/
  (one_of k [HFUN; HMETHOD] = false /\ one_of k [HOBJ; HSTRUCT] = false /\ one_of k [HREF; HNULL] = false /\ k = HABSTRACT /\ class k = HABSTRACT) \/
  (one_of k [HFUN; HMETHOD] = false /\ one_of k [HOBJ; HSTRUCT] = false /\ one_of k [HREF; HNULL] = false /\
     one_of k [HVIRTUAL] = false /\ one_of k [HENUM] = false /\ one_of k [HABSTRACT] = false /\ class k = HVOID).
Proof.
  unfold class. destruct (one_of k [HFUN; HMETHOD]) eqn:A; [auto|]. destruct (one_of k [HOBJ; HSTRUCT]) eqn:B; [auto 10|].
  destruct (one_of k [HREF; HNULL]) eqn:C; [auto 10|]. destruct (Z.eq_dec k HVIRTUAL) as [->|N1]; [do 3 right; left; auto 10|].
  destruct (Z.eq_dec k HENUM) as [->|N2]; [do 4 right; left; auto 10|]. destruct (Z.eq_dec k HABSTRACT) as [->|N3]; [do 5 right; left; auto 10|].
  do 6 right. apply Z.eqb_neq in N1, N2, N3. unfold one_of. cbn [existsb]. rewrite N1, N2, N3. auto 10.
Qed.
Lemma like_snoc d d' xs ys a b : Forall2 (like d d') (xs ++ [a]) (ys ++ [b]) -> flat_map d xs ++ d a = flat_map d' ys ++ d' b.
Proof. intros F. apply like_flat in F. rewrite !flat_map_app in F. cbn [flat_map] in F. now rewrite !app_nil_r in F. Qed.
Ltac ifs := repeat match goal with
  | |- context [if (?a =? ?b) || ?c then _ else _] => let v := eval vm_compute in ((a =? b) || c)%bool in change ((a =? b) || c)%bool with v; cbv iota
  | H : context [if (?a =? ?b) || ?c then _ else _] |- _ => let v := eval vm_compute in ((a =? b) || c)%bool in change ((a =? b) || c)%bool with v in H; cbv iota in H
  end.
Lemma same_shape d d' t u : same_surface t u -> Forall2 (like d d') (mentions t) (mentions u) -> shape d t = shape d' u.
Proof.
  intros (K & O & Nm) F. destruct t as [x xa xp k], u as [y ya yp l]. unfold shape, mentions, own, own_name in *. cbv zeta in *. cbn [vt_union vt_abs_name vt_tparam vt_kind] in *.
  destruct (class_cases k) as [C|[C|[C|[C|[C|[C|C]]]]]]; destruct (class_cases l) as [C'|[C'|[C'|[C'|[C'|[C'|C']]]]]];
    repeat match goal with H : _ /\ _ |- _ => destruct H end;
    try (match goal with A : class k = _, B : class l = _ |- _ => rewrite A, B in K; discriminate K end);
    repeat match goal with H : class _ = _ |- _ => rewrite H in *; revert H end;
    repeat match goal with H : one_of _ _ = _ |- _ => rewrite H in *; revert H end; intros; subst; cbn [one_of existsb orb Z.eqb] in *.
  - destruct x, y; try (discriminate || reflexivity). cbn in O. injection O as ->. f_equal. now apply like_snoc.
  - destruct x, y; try (discriminate || reflexivity). cbn in O. injection O as -> -> -> E. do 3 f_equal. now apply like_fields.
  - destruct xp, yp; try reflexivity; inversion F; subst; assumption.
  - destruct x, y; try (discriminate || reflexivity). cbn in O. injection O as -> E. ifs. f_equal. now apply like_fields.
  - destruct x, y; try (discriminate || reflexivity). cbn in O. injection O as -> E1 E2. ifs. f_equal. now apply like_constructs.
  - ifs. cbn in Nm. now subst.
  - reflexivity.
Qed.

Lemma forall2_weaken {A B} (R S : A -> B -> Prop) l k : (forall a b, R a b -> S a b) -> Forall2 R l k -> Forall2 S l k.
Proof. intros I F. induction F; constructor; auto. Qed.
Lemma agree_weaken n : forall t u, same_to (S n) t u -> same_to n t u.
Proof.
  induction n as [|n IH]; intros t u A; [exact I|]. destruct A as [Su F]. split; [exact Su|]. revert F. apply forall2_weaken. exact IH.
Qed.
Lemma agree_inner t u : same_to 1 t u -> inner_hash t = inner_hash u.
Proof.
  intros [Su F]. unfold inner_hash, inner_shape. f_equal. apply same_shape; auto. revert F. apply forall2_weaken. intros; reflexivity.
Qed.
Lemma agree_outer t u : same_to 2 t u -> outer_hash t = outer_hash u.
Proof.
  intros [Su F]. unfold outer_hash, outer_shape. f_equal. apply same_shape; auto. revert F. apply forall2_weaken.
  intros a b A. unfold like. f_equal. now apply agree_inner.
Qed.
Lemma virtual_class k : one_of k [HVIRTUAL] = (class k =? HVIRTUAL).
Proof.
  destruct (class_cases k) as [C|[C|[C|[C|[C|[C|C]]]]]]; repeat match goal with H : _ /\ _ |- _ => destruct H end;
    match goal with H : class k = _ |- _ => rewrite H end; try (subst k; reflexivity); try (match goal with H : one_of k [HVIRTUAL] = false |- _ => rewrite H; reflexivity end);
    destruct (one_of k [HVIRTUAL]) eqn:E; try reflexivity; unfold one_of in E; cbn [existsb] in E; rewrite orb_false_r in E; apply Z.eqb_eq in E; subst k; discriminate.
Qed.
Lemma agree_signature t u : same_to 3 t u -> signature t = signature u.
Proof.
  intros A. unfold signature. rewrite (agree_outer t u) by now apply agree_weaken. do 2 f_equal. destruct A as [(K & _) F]. unfold mixed.
  assert (E : one_of (vt_kind t) [HVIRTUAL] = one_of (vt_kind u) [HVIRTUAL]).
  { rewrite !virtual_class. now rewrite K. }
  rewrite E. destruct (one_of (vt_kind u) [HVIRTUAL]); [reflexivity|]. apply like_flat. revert F. apply forall2_weaken.
  intros a b A. unfold like. f_equal. now apply agree_outer.
Qed.

(** * The converse *)
Definition cuts (d d' : vtype -> list Z) (xs ys : list vtype) : Prop :=
  forall a b x y, In a xs -> In b ys -> d a ++ x = d' b ++ y -> d a = d' b /\ x = y.
Lemma flats_inj d d' : forall xs ys x y, length xs = length ys -> cuts d d' xs ys -> flat_map d xs ++ x = flat_map d' ys ++ y ->
  Forall2 (like d d') xs ys /\ x = y.
Proof.
  induction xs as [|a xs IH]; intros [|b ys] x y L C E; try discriminate; [split; [constructor|exact E]|].
  cbn [flat_map] in E. rewrite <- !app_assoc in E. apply C in E as [E1 E]; [|now left|now left].
  apply IH in E as [F ->]; [|now injection L|intros p q z w Ip Iq; apply C; now right]. split; [constructor; auto|reflexivity].
Qed.
Definition hash32 (f : obj_field vtype) : Prop := 0 <= fd_hash f < 2 ^ 32.
Lemma fields_inj d d' : forall (fs gs : list (obj_field vtype)), length fs = length gs -> Forall hash32 fs -> Forall hash32 gs ->
  cuts d d' (map (@fd_t vtype) fs) (map (@fd_t vtype) gs) ->
  flat_map (fun f => enc_le 4 (fd_hash f) ++ d (fd_t f)) fs = flat_map (fun f => enc_le 4 (fd_hash f) ++ d' (fd_t f)) gs ->
  map (@fd_hash vtype) fs = map (@fd_hash vtype) gs /\ Forall2 (like d d') (map (@fd_t vtype) fs) (map (@fd_t vtype) gs).
Proof.
  induction fs as [|f fs IH]; intros [|g gs] L Hf Hg C E; try discriminate; [split; [reflexivity|constructor]|].
  apply Forall_cons_iff in Hf as [Hf Hfs]. apply Forall_cons_iff in Hg as [Hg Hgs]. unfold hash32 in *.
  cbn [flat_map map] in *. rewrite <- !app_assoc in E. apply enc_le_app in E as [E1 E]. change (256 ^ Z.of_nat 4) with (2 ^ 32) in E1. rewrite !Z.mod_small in E1 by auto.
  apply C in E as [E2 E]; [|now left|now left]. apply IH in E as [E3 F]; auto; [|intros p q z w Ip Iq; apply C; now right].
  split; [congruence|constructor; auto].
Qed.
Lemma constructs_inj d d' : forall (cs bs : list (enum_construct vtype)),
  Forall (fun c => ec_nparams c = zlen (ec_params c) /\ ec_nparams c < 2 ^ 64) cs -> Forall (fun c => ec_nparams c = zlen (ec_params c) /\ ec_nparams c < 2 ^ 64) bs ->
  map (@ec_name vtype) cs = map (@ec_name vtype) bs ->
  cuts d d' (flat_map (@ec_params vtype) cs) (flat_map (@ec_params vtype) bs) ->
  flat_map (fun c => enc_le 8 (ec_nparams c) ++ ec_name c ++ flat_map d (ec_params c)) cs =
  flat_map (fun c => enc_le 8 (ec_nparams c) ++ ec_name c ++ flat_map d' (ec_params c)) bs ->
  flat_map (fun c => [ec_nparams c; zlen (ec_params c)]) cs = flat_map (fun c => [ec_nparams c; zlen (ec_params c)]) bs /\
  Forall2 (like d d') (flat_map (@ec_params vtype) cs) (flat_map (@ec_params vtype) bs).
Proof.
  induction cs as [|c cs IH]; intros [|b bs] Fc Fb En C E; try discriminate; [split; [reflexivity|constructor]|].
  apply Forall_cons_iff in Fc as [[Nc Lc] Fc]. apply Forall_cons_iff in Fb as [[Nb Lb] Fb]. cbn [map flat_map] in *. injection En as En1 En.
  rewrite <- !app_assoc in E. apply enc_le_app in E as [E1 E]. change (256 ^ Z.of_nat 8) with (2 ^ 64) in E1.
  pose proof (zlen_nonneg (ec_params c)). pose proof (zlen_nonneg (ec_params b)). rewrite !Z.mod_small in E1 by lia.
  rewrite En1 in E. apply app_inv_head in E. apply flats_inj in E as [F E]; [|unfold zlen in *; lia|intros p q z w Ip Iq; apply C; apply in_or_app; now left].
  apply IH in E as [E2 F2]; auto; [|intros p q z w Ip Iq; apply C; apply in_or_app; now right].
  split; [cbn [app]; rewrite E2, <- Nc, <- Nb, E1; reflexivity|]. clear - F F2. induction F; cbn [app]; [exact F2|constructor; auto].
Qed.
Lemma enc8_app v w x y : 0 <= v < 2 ^ 64 -> 0 <= w < 2 ^ 64 -> enc_le 8 v ++ x = enc_le 8 w ++ y -> v = w /\ x = y.
Proof.
  intros V W E. apply enc_le_app in E as [E ->]. change (256 ^ Z.of_nat 8) with (2 ^ 64) in E. rewrite !Z.mod_small in E by auto. auto.
Qed.
Lemma enc8_nonempty v x : enc_le 8 v ++ x <> [].
Proof. intros E. apply (f_equal zlen) in E. rewrite zlen_app, enc_le_len in E. pose proof (zlen_nonneg x). change (zlen []) with 0 in E. lia. Qed.
Lemma like_snoc_inv d d' xs ys a b : Forall2 (like d d') xs ys -> like d d' a b -> Forall2 (like d d') (xs ++ [a]) (ys ++ [b]).
Proof. intros F L. induction F; cbn [app]; constructor; auto. Qed.

Lemma shape_inj d d' t u : counted t -> counted u -> targeted t -> targeted u -> fits t -> fits u ->
  Forall hash32 (fields_of t) -> Forall hash32 (fields_of u) ->
  class (vt_kind t) = class (vt_kind u) -> fst (own t) = fst (own u) -> own_name t = own_name u ->
  cuts d d' (mentions t) (mentions u) -> shape d t = shape d' u -> own t = own u /\ Forall2 (like d d') (mentions t) (mentions u).
Proof.
  intros [Ct _] [Cu _] Tt Tu Ft Fu Ht Hu K O Nm C E. unfold fits in *. destruct t as [x xa xp k], u as [y ya yp l]. unfold shape, mentions, own, own_name, fits, targeted, fields_of in *.
  cbv zeta in *. cbn [vt_union vt_abs_name vt_tparam vt_kind] in *.
  destruct (class_cases k) as [D|[D|[D|[D|[D|[D|D]]]]]]; destruct (class_cases l) as [D'|[D'|[D'|[D'|[D'|[D'|D']]]]]];
    repeat match goal with H : _ /\ _ |- _ => match type of H with class _ = _ => fail | (one_of _ _ = _) /\ _ => destruct H | (_ = _) /\ (class _ = _) => destruct H end end;
    try (match goal with A : class k = _, B : class l = _ |- _ => rewrite A, B in K; discriminate K end).
  all: repeat match goal with H : class _ = _ |- _ => rewrite H in *; revert H end;
    repeat match goal with H : one_of _ _ = _ |- _ => rewrite H in *; revert H end; intros; subst; cbn [one_of existsb orb Z.eqb] in *.
  - destruct x, y; try (exfalso; cbn in E; ((symmetry in E; now apply enc8_nonempty in E) || now apply enc8_nonempty in E)); try (split; [reflexivity|constructor]).
    cbn [fst snd] in *. change (HFUN =? HFUN) with true in *. cbv iota in *. cbn [fst snd] in *. apply Forall_cons_iff in Ft as [Ft _]. apply Forall_cons_iff in Fu as [Fu _].
    apply enc8_app in E as [<- E]; auto.
    assert (L : length args = length args0) by (unfold zlen in *; lia).
    rewrite <- (app_nil_r (d ret)), <- (app_nil_r (d' ret0)) in E.
    apply flats_inj in E as [F E]; [|exact L|intros p q z w Ip Iq; apply C; apply in_or_app; now left].
    apply C in E as [E _]; [|apply in_or_app; right; now left|apply in_or_app; right; now left]. split; [reflexivity|]. now apply like_snoc_inv.
  - change (HOBJ =? HFUN) with false in *. change (HOBJ =? HOBJ) with true in *. change (HOBJ =? HVIRTUAL) with false in *. change (HOBJ =? HENUM) with false in *. cbv iota in *.
    destruct x, y; try discriminate; try (split; [reflexivity|constructor]). cbn [fst snd] in *. injection O as <-.
    apply Forall_cons_iff in Ft as [Ft1 Ft]. apply Forall_cons_iff in Fu as [Fu1 Fu]. apply Forall_cons_iff in Ft as [Ft2 _]. apply Forall_cons_iff in Fu as [Fu2 _].
    apply app_inv_head in E. apply enc8_app in E as [<- E]; auto. apply enc8_app in E as [<- E]; auto.
    apply fields_inj in E as [E F]; auto; [|unfold zlen in *; lia]. split; [congruence|exact F].
  - specialize (Tt eq_refl). specialize (Tu eq_refl). split; [destruct x, y; reflexivity|]. destruct xp as [p|], yp as [q|]; try congruence. constructor; [|constructor].
    rewrite <- (app_nil_r (d p)), <- (app_nil_r (d' q)) in E. apply C in E as [E _]; [exact E|now left|now left].
  - ifs. change (HVIRTUAL =? HFUN) with false in *. change (HVIRTUAL =? HOBJ) with false in *. change (HVIRTUAL =? HVIRTUAL) with true in *. change (HVIRTUAL =? HENUM) with false in *. cbv iota in *.
    destruct x, y; try (exfalso; ((symmetry in E; now apply enc8_nonempty in E) || now apply enc8_nonempty in E)); try (split; [reflexivity|constructor]).
    cbn [fst snd] in *. apply Forall_cons_iff in Ft as [Ft _]. apply Forall_cons_iff in Fu as [Fu _]. apply enc8_app in E as [<- E]; auto.
    apply fields_inj in E as [E F]; auto; [|unfold zlen in *; lia]. split; [congruence|exact F].
  - ifs. change (HENUM =? HFUN) with false in *. change (HENUM =? HOBJ) with false in *. change (HENUM =? HVIRTUAL) with false in *. change (HENUM =? HENUM) with true in *. cbv iota in *.
    destruct x, y; try discriminate; try (split; [reflexivity|constructor]). cbn [fst snd] in *. injection O as <- O. apply app_inv_head in E.
    assert (W : forall cs, Forall (fun c : enum_construct vtype => ec_nparams c = zlen (ec_params c)) cs -> Forall (fun x => 0 <= x < 2 ^ 64) (flat_map (fun c => [ec_nparams c; zlen (ec_params c)]) cs) ->
      Forall (fun c : enum_construct vtype => ec_nparams c = zlen (ec_params c) /\ ec_nparams c < 2 ^ 64) cs).
    { clear. intros cs. induction 1 as [|c cs Hc _ IH]; intros G; [constructor|]. cbn [flat_map app] in G. apply Forall_cons_iff in G as [G1 G]. apply Forall_cons_iff in G as [_ G]. constructor; [split; [exact Hc|lia]|auto]. }
    apply constructs_inj in E as [E F]; auto; [|apply W; tauto|apply W; tauto]. split; [congruence|exact F].
  - split; [destruct x, y; reflexivity|constructor].
  - split; [destruct x, y; reflexivity|]. ifs. unfold mentions in *. repeat match goal with |- context [if ?b then _ else _] => destruct b eqn:?; try (exfalso; unfold one_of in *; cbn [existsb] in *; lia) end; constructor.
Qed.

(** * C91 *)
(** Types that agree on one level have the same inner hash, on two levels the same hash, on three levels the same signature. *)
Theorem C91_levels t u :
  (same_to 1 t u -> inner_hash t = inner_hash u) /\ (same_to 2 t u -> outer_hash t = outer_hash u) /\ (same_to 3 t u -> signature t = signature u).
Proof. split; [apply agree_inner|]. split; [apply agree_outer|apply agree_signature]. Qed.
(** So for the results of [hash] and for the signatures kept by [CodeHash::alloc]: whatever is below the third level is not noticed. *)
Theorem C91_unnoticed e0 e0' buf buf' c c' ch ch' i j t u : bytes buf -> bytes buf' -> accepted e0 buf c -> accepted e0' buf' c' ->
  alloc c = Ok ch -> alloc c' = Ok ch' -> znth (declared c) i = Some t -> znth (declared c') j = Some u ->
  (same_to 1 t u -> vt_hash true t = vt_hash true u) /\ (same_to 2 t u -> vt_hash false t = vt_hash false u) /\
  (same_to 3 t u -> znth (ch_type_hashes ch) i = znth (ch_type_hashes ch') j).
Proof.
  intros B B' A A' E E' Z Z'. pose proof (znth_In _ _ _ Z) as I. pose proof (znth_In _ _ _ Z') as I'.
  destruct (C47_accepted e0 buf c t B A I) as [H1 H2], (C47_accepted e0' buf' c' u B' A' I') as [H1' H2'].
  rewrite H1, H2, H1', H2'. split; [intros S; f_equal; now apply agree_inner|]. split; [intros S; f_equal; now apply agree_outer|]. intros S.
  destruct (C57_order e0 e0 buf buf c c ch ch i i t B B A A E E Z Z) as [-> _]. destruct (C57_order e0' e0' buf' buf' c' c' ch' ch' j j u B' B' A' A' E' E' Z' Z') as [-> _].
  f_equal. now apply agree_signature.
Qed.

(** In particular two function types with as many arguments, all types primitive, have the same hashes and signature. *)
Lemma prim_surface t u : In (vt_kind t) prim_kinds -> In (vt_kind u) prim_kinds -> forall n, same_to n t u.
Proof.
  assert (P : forall t, In (vt_kind t) prim_kinds -> class (vt_kind t) = HVOID /\ own t = ([], []) /\ own_name t = None /\ mentions t = []).
  { intros [x a p k] H. unfold own, own_name, mentions. cbn [vt_union vt_abs_name vt_tparam vt_kind] in *. cbn in H.
    repeat destruct H as [<-|H]; [..|destruct H]; (split; [reflexivity|]; split; [destruct x; reflexivity|]; split; reflexivity). }
  intros Ht Hu [|n]; [exact I|]. destruct (P t Ht) as (K & O & N & M), (P u Hu) as (K' & O' & N' & M'). split; [|rewrite M, M'; constructor].
  split; [congruence|]. split; congruence.
Qed.
Theorem C91_functions_refuted args args' n r r' a a' p p' k k' : In k [HFUN; HMETHOD] -> In k' [HFUN; HMETHOD] -> length args = length args' ->
  Forall (fun t => In (vt_kind t) prim_kinds) (r :: args) -> Forall (fun t => In (vt_kind t) prim_kinds) (r' :: args') ->
  let t := VT (FuncType args n r) a p k in let u := VT (FuncType args' n r') a' p' k' in
  inner_hash t = inner_hash u /\ outer_hash t = outer_hash u /\ signature t = signature u.
Proof.
  intros Hk Hk' L F F' t u. assert (A : forall m, same_to (S m) t u).
  { intros m. assert (Kk : class k = HFUN /\ one_of k [HFUN; HMETHOD] = true /\ (k =? HABSTRACT) = false) by (cbn in Hk; destruct Hk as [<-|[<-|[]]]; auto).
    assert (Kk' : class k' = HFUN /\ one_of k' [HFUN; HMETHOD] = true /\ (k' =? HABSTRACT) = false) by (cbn in Hk'; destruct Hk' as [<-|[<-|[]]]; auto).
    destruct Kk as (K1 & K2 & K3), Kk' as (K1' & K2' & K3'). split.
    - unfold same_surface, own, own_name. cbn [t u vt_union vt_kind]. rewrite K1, K1', K3, K3'. auto.
    - unfold mentions. cbn [t u vt_union vt_kind]. rewrite K2, K2'. apply Forall_cons_iff in F as [Fr F]. apply Forall_cons_iff in F' as [Fr' F'].
      clear t u. revert args' L F'. induction args as [|x args IH]; intros [|y args'] L F'; try discriminate; cbn [app].
      + constructor; [now apply prim_surface|constructor].
      + apply Forall_cons_iff in F as [Fx F]. apply Forall_cons_iff in F' as [Fy F']. constructor; [now apply prim_surface|apply IH; auto]. }
  split; [apply agree_inner, A|]. split; [apply agree_outer, A|apply agree_signature, A].
Qed.

(** Conversely, for declared types of accepted modules, of the same class and with the same names: they serialise alike
    exactly if they have the same counts and field names and mention types with the same inner hashes. *)
Lemma declared_parts e0 buf c t : bytes buf -> accepted e0 buf c -> In t (declared c) ->
  counted t /\ targeted t /\ Forall named (mentions t) /\ Forall hash32 (fields_of t).
Proof.
  intros B A I. destruct (accepted_alloc e0 buf c B A) as [CO SO]. destruct (declared_types c CO t I) as (C & T & _ & O).
  assert (Fs : Forall utf8 (c_strings c)) by (unfold contents_ok in CO; tauto).
  split; [exact C|]. split; [exact T|]. split.
  - destruct (type_ok_counted _ _ _ O) as (_ & M & _). revert M. apply Forall_impl. intros u [E|Iu]; apply (pool_named c); auto.
  - assert (W : forall T l, Forall (field_ok (c_strings c) T) l -> Forall hash32 l).
    { intros T' l. apply Forall_impl. intros f (N & H & _). unfold hash32. rewrite H. apply crc32_range. eapply utf8_entry; eauto. }
    destruct t as [x a p k]. unfold fields_of. cbn [vt_union]. destruct x; try constructor; destruct a, p; cbn [type_ok] in O; try tauto;
      try (match type of O with match ?r with Some _ => _ | None => _ end => destruct r end; try tauto); eapply W; apply O.
Qed.
Theorem C91_exact e0 e0' buf buf' c c' t u : bytes buf -> bytes buf' -> accepted e0 buf c -> accepted e0' buf' c' ->
  In t (declared c) -> In u (declared c') -> fits t -> fits u ->
  class (vt_kind t) = class (vt_kind u) -> fst (own t) = fst (own u) -> own_name t = own_name u ->
  (inner_shape t = inner_shape u <-> own t = own u /\ length (mentions t) = length (mentions u)) /\
  (outer_shape t = outer_shape u <-> own t = own u /\ Forall2 (fun a b => inner_hash a = inner_hash b) (mentions t) (mentions u)).
Proof.
  intros B B' A A' I I' Ft Fu K O Nm. destruct (declared_parts e0 buf c t B A I) as (C & T & M & H), (declared_parts e0' buf' c' u B' A' I') as (C' & T' & M' & H').
  split; split.
  - intros E. destruct (shape_inj (fun _ => []) (fun _ => []) t u) as [Eo F]; auto; [intros a b x y _ _ E'; auto|]. split; [exact Eo|].
    clear - F. induction F; cbn [length]; congruence.
  - intros [Eo L]. apply same_shape; [split; auto|]. clear - L. revert L. generalize (mentions u). induction (mentions t) as [|a l IH]; intros [|b m] L; try discriminate; constructor; [reflexivity|auto].
  - assert (X : forall a b, In a (mentions t) -> In b (mentions u) -> enc_le 4 (inner_hash a) = enc_le 4 (inner_hash b) -> inner_hash a = inner_hash b).
    { intros a b Ia Ib E. rewrite Forall_forall in M, M'. apply enc_le_mod in E. change (256 ^ Z.of_nat 4) with (2 ^ 32) in E.
      rewrite !Z.mod_small in E; auto; apply inner_range; auto. }
    intros E. destruct (shape_inj (fun v => enc_le 4 (inner_hash v)) (fun v => enc_le 4 (inner_hash v)) t u) as [Eo F]; auto.
    { intros a b x y _ _ E'. apply app_split in E'; [exact E'|unfold enc_le; now rewrite !le_bytes_length]. }
    split; [exact Eo|]. clear - F X. induction F as [|a b l m E F IH]; constructor; [apply X; [now left|now left|exact E]|]. apply IH. intros; apply X; auto; now right.
  - intros [Eo F]. apply same_shape; [split; auto|]. revert F. apply forall2_weaken. intros a b E. unfold like. now rewrite E.
Qed.
Theorem C91_hash e0 e0' buf buf' c c' t u : bytes buf -> bytes buf' -> accepted e0 buf c -> accepted e0' buf' c' ->
  In t (declared c) -> In u (declared c') -> fits t -> fits u ->
  class (vt_kind t) = class (vt_kind u) -> fst (own t) = fst (own u) -> own_name t = own_name u ->
  vt_hash false t = vt_hash false u ->
  (own t = own u /\ Forall2 (fun a b => inner_hash a = inner_hash b) (mentions t) (mentions u)) \/
  (outer_shape t <> outer_shape u /\ crc32 (outer_shape t) = crc32 (outer_shape u)).
Proof.
  intros B B' A A' I I' Ft Fu K O Nm E. destruct (C47_accepted e0 buf c t B A I) as [_ H], (C47_accepted e0' buf' c' u B' A' I') as [_ H'].
  destruct (list_eq_dec Z.eq_dec (outer_shape t) (outer_shape u)) as [Q|Q].
  - left. now apply (C91_exact e0 e0' buf buf' c c' t u).
  - right. split; [exact Q|]. rewrite H, H' in E. injection E as E. exact E.
Qed.

(** A virtual type under three references: its field is [x], or [E]. *)
Definition ex_deep (field : Z) : amod := {|
  am_version := 5; am_debug := false; am_ints := []; am_floats := []; am_strings := [[69]; [67]; [120]]; am_bytes := []; am_bytes_pos := []; am_debugfiles := [];
  am_types := [APrim HVOID; APrim HI32; AFun false [] 0; AAbstract 2; AVirtual [(field, 1)]; AParam HREF 4; AParam HREF 5; AParam HREF 6];
  am_globals := [3]; am_natives := [(0, 1, 2, 1)];
  am_functions := [{| af_type := 2; af_findex := 0; af_regs := [1]; af_ops := [IFixed 67 [0]]; af_debug := []; af_assigns := [] |}];
  am_constants := []; am_entrypoint := 0 |}.
Definition ex_type (field i : Z) : vtype := nth (Z.to_nat i) (declared (loaded (ex_deep field))) vt_default.
Example C91_met : Forall (fun f => let m := ex_deep f in bytes (enc_module m) /\ accepted None (enc_module m) (loaded m) /\ alloc (loaded m) = Ok (hashed (loaded m)) /\
    Forall fits (declared (loaded m))) [0; 2].
Proof.
  repeat (constructor; [split; [apply byte_forallb; vm_compute; reflexivity|]; split; [vm_compute; reflexivity|]; split; [vm_compute; reflexivity|];
    assert (X : forall l, forallb (fun t => forallb (fun x => (0 <=? x) && (x <? 2 ^ 64)) (snd (own t))) l = true -> Forall fits l);
    [intros l E; rewrite forallb_forall in E; apply Forall_forall; intros t It; specialize (E t It); rewrite forallb_forall in E; apply Forall_forall; intros x Ix; specialize (E x Ix); lia|];
    apply X; vm_compute; reflexivity|]). constructor.
Qed.
(** The type of three references agrees on three levels and has the same signature; that of two references has not. *)
Example C91_ex : same_to 3 (ex_type 0 7) (ex_type 2 7) /\ ~ same_to 4 (ex_type 0 7) (ex_type 2 7) /\
  signature (ex_type 0 7) = signature (ex_type 2 7) /\ signature (ex_type 0 6) <> signature (ex_type 2 6) /\
  map (fun f => nth 7 (ch_type_hashes (hashed (loaded (ex_deep f)))) (-1)) [0; 2] = [1147535477; 1147535477].
Proof.
  split. { vm_compute. repeat (split || constructor). }
  split.
  { intros S. vm_compute in S. repeat match goal with H : _ /\ _ |- _ => destruct H | H : Forall2 _ (_ :: _) (_ :: _) |- _ => inversion H; clear H; subst end; discriminate. }
  split; [vm_compute; reflexivity|]. split; [vm_compute; discriminate|]. vm_compute. reflexivity.
Qed.
(** The pairs of types at positions 4 and 7 meet the hypotheses of [C91_exact]; only the second pair hashes alike. *)
Example C91_met_exact : Forall (fun i => In (ex_type 0 i) (declared (loaded (ex_deep 0))) /\ In (ex_type 2 i) (declared (loaded (ex_deep 2))) /\
    class (vt_kind (ex_type 0 i)) = class (vt_kind (ex_type 2 i)) /\ fst (own (ex_type 0 i)) = fst (own (ex_type 2 i)) /\ own_name (ex_type 0 i) = own_name (ex_type 2 i)) [4; 7] /\
  map (fun i => vt_hash false (ex_type 0 i)) [4; 7] = [Ok 1442666315; Ok 558161692] /\
  map (fun i => vt_hash false (ex_type 2 i)) [4; 7] = [Ok 2323869902; Ok 558161692].
Proof.
  split.
  { repeat (constructor; [split; [apply nth_In; apply Nat.ltb_lt; vm_compute; reflexivity|]; split; [apply nth_In; apply Nat.ltb_lt; vm_compute; reflexivity|]; split; [vm_compute; reflexivity|]; split; vm_compute; reflexivity|]). constructor. }
  split; vm_compute; reflexivity.
Qed.
