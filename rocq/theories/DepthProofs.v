(** How deep the derived functions recurse. *)
From Verif Require Import Prelude StdModel BrassTypes DecoderModel FormatProofs HashProofs DepthSpec.
From Verif Require HashModel.
From Verif Require Import TypeDepthModel.
From Coq Require Import Lia ZifyBool.

Definition depth (t : vtype) : Z := snd (vt_clone t).
Definition maxv {A} (V : A -> Z) (l : list A) : Z := fold_right (fun x n => Z.max (V x) n) 0 l.
Lemma maxv_nonneg {A} (V : A -> Z) l : 0 <= maxv V l. Proof. unfold maxv. induction l; cbn [fold_right]; lia. Qed.
Lemma maxv_in {A} (V : A -> Z) l x : In x l -> V x <= maxv V l.
Proof. induction l as [|y l IH]; intros []; [subst; cbn; lia|]. specialize (IH H). change (maxv V (y :: l)) with (Z.max (V y) (maxv V l)). lia. Qed.
Lemma maxv_attained {A} (V : A -> Z) l : 0 < maxv V l -> exists x, In x l /\ maxv V l = V x.
Proof.
  induction l as [|y l IH]; intros H; [cbn in H; lia|]. change (maxv V (y :: l)) with (Z.max (V y) (maxv V l)) in *.
  destruct (Z.leb_spec (maxv V l) (V y)); [exists y; split; [now left|lia]|]. destruct IH as (x & I & E); [lia|]. exists x. split; [now right|lia].
Qed.
Lemma maxv_le {A} (V : A -> Z) l n : 0 <= n -> (forall x, In x l -> V x <= n) -> maxv V l <= n.
Proof. intros N H. destruct (Z.ltb_spec 0 (maxv V l)) as [L|L]; [|lia]. destruct (maxv_attained V l L) as (x & I & ->). auto. Qed.

Lemma s_list_clone {A} (f : A -> D A) l : snd (list_clone f l) = maxv (fun x => snd (f x)) l.
Proof.
  induction l as [|x l IH]; [reflexivity|]. pose proof (maxv_nonneg (fun x => snd (f x)) l) as N. rewrite <- IH in N.
  change (maxv (fun x => snd (f x)) (x :: l)) with (Z.max (snd (f x)) (maxv (fun x => snd (f x)) l)). rewrite <- IH.
  change (Z.max (snd (f x)) (Z.max (snd (list_clone f l)) 0) = Z.max (snd (f x)) (snd (list_clone f l))). lia.
Qed.
Lemma maxv_ext {A} (V W : A -> Z) l : (forall x, In x l -> V x = W x) -> maxv V l = maxv W l.
Proof. intros H. induction l as [|x l IH]; [reflexivity|]. unfold maxv in *. cbn [fold_right]. rewrite (H x (or_introl eq_refl)), IH; [reflexivity|]. intros; apply H; now right. Qed.
Definition parts_depth (u : vtu vtype) : Z :=
  match u with
  | FuncType args _ r => Z.max (maxv depth args) (depth r)
  | ObjType _ s fs _ _ _ _ _ _ _ => Z.max (depth s) (maxv (fun f => depth (fd_t f)) fs)
  | VirtualType _ fs => maxv (fun f => depth (fd_t f)) fs
  | EnumType _ _ cs _ => maxv (fun c => maxv depth (ec_params c)) cs
  | URef a => depth a
  | _ => 0
  end.

Lemma depth_unfold u n p k : depth (VT u n p k) = 1 + Z.max (parts_depth u) (match p with Some q => depth q | None => 0 end).
Proof.
  unfold depth. cbn [vt_clone]. unfold call, dbind, dret. cbn [fst snd]. f_equal.
  assert (P : snd (option_clone vt_clone p) = match p with Some q => snd (vt_clone q) | None => 0 end /\ 0 <= snd (option_clone vt_clone p) \/ exists q, p = Some q) by (destruct p; [right; eauto|left; cbn; lia]).
  assert (U : snd (vtu_clone vt_clone u) = Z.max 0 (parts_depth u)).
  { pose proof (fun A (V : A -> Z) l => maxv_nonneg V l) as N. destruct u; cbn [vtu_clone parts_depth]; unfold dbind, dret; cbn [fst snd]; rewrite ?s_list_clone.
    - change (fun x => snd (vt_clone x)) with depth. specialize (N _ depth args). change (snd (vt_clone ret)) with (depth ret). lia.
    - rewrite (maxv_ext (fun x => snd (field_clone vt_clone x)) (fun f => Z.max 0 (depth (fd_t f)))) by (intros [a b c] _; cbn [field_clone dbind dret fst snd fd_t]; unfold depth; lia).
      assert (E : maxv (fun f => Z.max 0 (depth (fd_t f))) fields = maxv (fun f => depth (fd_t f)) fields) by (clear; induction fields as [|f l IH]; [reflexivity|]; unfold maxv in *; cbn [fold_right]; rewrite IH; pose proof (maxv_nonneg (fun f => depth (fd_t f)) l); unfold maxv in *; lia).
      rewrite E. specialize (N _ (fun f : obj_field vtype => depth (fd_t f)) fields). change (snd (vt_clone super_type)) with (depth super_type). lia.
    - rewrite (maxv_ext (fun x => snd (field_clone vt_clone x)) (fun f => Z.max 0 (depth (fd_t f)))) by (intros [a b c] _; cbn [field_clone dbind dret fst snd fd_t]; unfold depth; lia).
      assert (E : maxv (fun f => Z.max 0 (depth (fd_t f))) fields = maxv (fun f => depth (fd_t f)) fields) by (clear; induction fields as [|f l IH]; [reflexivity|]; unfold maxv in *; cbn [fold_right]; rewrite IH; pose proof (maxv_nonneg (fun f => depth (fd_t f)) l); unfold maxv in *; lia).
      rewrite E. lia.
    - rewrite (maxv_ext (fun x => snd (construct_clone vt_clone x)) (fun c => maxv depth (ec_params c))); [lia|]. intros [a b ps d e f] _. cbn [construct_clone ec_params]. unfold dbind, dret. cbn [fst snd]. rewrite s_list_clone. change (fun x => snd (vt_clone x)) with depth. pose proof (N _ depth ps). lia.
    - unfold depth. lia.
    - lia.
    - lia.
    - lia. }
  rewrite U. destruct p as [q|]; cbn [option_clone]; unfold dbind, dret; cbn [fst snd]; [|lia].
  assert (1 <= snd (vt_clone q)) by (destruct q as [u' n' p' k']; cbn [vt_clone]; unfold call, dbind, dret; cbn [fst snd]; lia). lia.
Qed.
Lemma depth_pos t : 1 <= depth t.
Proof. destruct t as [u n p k]. unfold depth. cbn [vt_clone]. unfold call, dbind, dret. cbn [fst snd]. lia. Qed.
Lemma parts_nonneg u : 0 <= parts_depth u.
Proof. destruct u; cbn [parts_depth]; repeat match goal with |- context [maxv ?V ?l] => lazymatch goal with H : 0 <= maxv V l |- _ => fail | _ => pose proof (maxv_nonneg V l) end end; try lia. pose proof (depth_pos t). lia. Qed.
Lemma owns_depth t s : owns t s -> depth s < depth t.
Proof.
  intros []; rewrite depth_unfold; cbn [parts_depth].
  - pose proof (parts_nonneg u). lia.
  - apply (maxv_in depth) in H. lia.
  - lia.
  - lia.
  - apply (maxv_in (fun f : obj_field vtype => depth (fd_t f))) in H. lia.
  - apply (maxv_in (fun f : obj_field vtype => depth (fd_t f))) in H. lia.
  - apply (maxv_in depth) in H0. pose proof (maxv_in (fun c : enum_construct vtype => maxv depth (ec_params c)) cs c H). cbv beta in *. lia.
  - lia.
Qed.
Lemma nested_depth n t : nested n t -> n <= depth t.
Proof. induction 1 as [t|t s n O _ IH]; [apply depth_pos|]. apply owns_depth in O. lia. Qed.
Ltac own := solve [apply owns_param|apply owns_ret|apply owns_super|apply owns_ref|apply owns_arg; assumption|apply owns_field; assumption|apply owns_virtual; assumption|eapply owns_construct; eassumption
  |match goal with I : In ?f _ |- owns _ ?t => change t with (fd_t f); first [apply owns_field|apply owns_virtual]; exact I end].
Lemma depth_step t : depth t = 1 \/ exists s, owns t s /\ depth t = 1 + depth s.
Proof.
  destruct t as [u n p k]. rewrite depth_unfold. pose proof (parts_nonneg u) as N.
  destruct (Z.leb_spec (parts_depth u) (match p with Some q => depth q | None => 0 end)).
  - destruct p as [q|]; [|left; lia]. right. exists q. split; [own|]. lia.
  - destruct (Z.eqb_spec (parts_depth u) 0) as [Z0|NZ]; [destruct p; lia|]. right.
    assert (G : exists s, owns (VT u n p k) s /\ parts_depth u = depth s); [|destruct G as (s & O & E); exists s; split; [exact O|lia]].
    destruct u; cbn [parts_depth] in *; try lia.
    + destruct (Z.leb_spec (maxv depth args) (depth ret)); [exists ret; split; [own|lia]|]. destruct (maxv_attained depth args) as (x & I & E); [pose proof (depth_pos ret); lia|]. exists x. split; [own|lia].
    + destruct (Z.leb_spec (maxv (fun f => depth (fd_t f)) fields) (depth super_type)); [exists super_type; split; [own|lia]|].
      destruct (maxv_attained (fun f => depth (fd_t f)) fields) as (x & I & E); [pose proof (depth_pos super_type); lia|]. exists (fd_t x). split; [own|lia].
    + destruct (maxv_attained (fun f => depth (fd_t f)) fields) as (x & I & E); [lia|]. exists (fd_t x). split; [own|lia].
    + destruct (maxv_attained (fun c => maxv depth (ec_params c)) constructs) as (x & I & E); [lia|]. destruct (maxv_attained depth (ec_params x)) as (y & J & F); [lia|]. exists y. split; [own|lia].
    + exists t. split; [own|lia].
Qed.
Lemma nested_reach t : nested (depth t) t.
Proof.
  enough (H : forall n t, depth t < Z.of_nat n -> nested (depth t) t) by (apply (H (Z.to_nat (depth t + 1))); pose proof (depth_pos t); lia). clear t.
  induction n as [|n IH]; intros t L; [pose proof (depth_pos t); lia|]. destruct (depth_step t) as [E|(s & O & E)]; [rewrite E; constructor|].
  rewrite E, Z.add_comm. eapply nested_more; [exact O|]. apply IH. lia.
Qed.
Lemma nested_shorter n t : nested n t -> forall m, 1 <= m <= n -> nested m t.
Proof.
  induction 1 as [t|t s n O H IH]; intros m L; [replace m with 1 by lia; constructor|]. destruct (Z.eqb_spec m 1) as [->|]; [constructor|].
  replace m with (m - 1 + 1) by lia. eapply nested_more; [exact O|]. apply IH. lia.
Qed.
Lemma deepest_depth t : deepest (depth t) t.
Proof. split; [apply nested_reach|]. intros m. apply nested_depth. Qed.
Lemma deepest_unique n m t : deepest n t -> deepest m t -> n = m.
Proof. intros [A B] [C E]. specialize (B _ C). specialize (E _ A). lia. Qed.

(** Induction along ownership. *)
Lemma owns_ind_ (P : vtype -> Prop) : (forall t, (forall s, owns t s -> P s) -> P t) -> forall t, P t.
Proof.
  intros H. enough (G : forall n t, depth t < Z.of_nat n -> P t) by (intros t; apply (G (Z.to_nat (depth t + 1))); pose proof (depth_pos t); lia).
  induction n as [|n IH]; intros t L; [pose proof (depth_pos t); lia|]. apply H. intros s O. apply IH. apply owns_depth in O. lia.
Qed.
(** Clone copies. *)
Lemma f_list_clone {A} (f : A -> D A) l : (forall x, In x l -> fst (f x) = x) -> fst (list_clone f l) = l.
Proof. induction l as [|x l IH]; intros H; [reflexivity|]. change (fst (f x) :: fst (list_clone f l) = x :: l). rewrite H, IH; auto; [intros; apply H; now right|now left]. Qed.
Lemma clone_same t : fst (vt_clone t) = t.
Proof.
  induction t as [t IH] using owns_ind_. destruct t as [u n p k]. cbn [vt_clone]. unfold call, dbind, dret. cbn [fst snd].
  assert (F : forall fs, (forall f, In f fs -> fst (vt_clone (fd_t f)) = fd_t f) -> fst (list_clone (field_clone vt_clone) fs) = fs).
  { intros fs H. apply f_list_clone. intros [a b c] I. pose proof (H _ I) as Q. cbn [fd_t] in Q. cbn [field_clone]. unfold dbind, dret. cbn [fst]. now rewrite Q. }
  f_equal.
  - destruct u; cbn [vtu_clone]; unfold dbind, dret; cbn [fst]; f_equal.
    + apply f_list_clone. intros; apply IH; own.
    + apply IH; own.
    + apply IH; own.
    + apply F. intros; apply IH; own.
    + apply F. intros; apply IH; own.
    + apply f_list_clone. intros [a b ps d e f] I. cbn [construct_clone]. unfold dbind, dret. cbn [fst]. f_equal. apply f_list_clone. intros x J. apply IH; own.
    + apply IH; own.
  - destruct p as [q|]; [|reflexivity]. cbn [option_clone]. unfold dbind, dret. cbn [fst]. f_equal. apply IH; own.
Qed.
(** Drop goes as deep. *)
Lemma list_drop_max {A} (f : A -> Z) l : list_drop f l = maxv f l.
Proof. induction l as [|x l IH]; [reflexivity|]. change (Z.max (f x) (list_drop f l) = Z.max (f x) (maxv f l)). now rewrite IH. Qed.
Lemma drop_depth t : vt_drop t = depth t.
Proof.
  induction t as [t IH] using owns_ind_. destruct t as [u n p k]. rewrite depth_unfold. cbn [vt_drop]. f_equal. f_equal.
  - destruct u; cbn [vtu_drop parts_depth]; rewrite ?list_drop_max; try reflexivity.
    + f_equal; [apply maxv_ext; intros; apply IH; own|apply IH; own].
    + f_equal; [apply IH; own|]. apply maxv_ext. intros [a b c] I. cbn [field_drop fd_t]. apply IH. apply (owns_field _ _ _ _ _ _ _ _ _ _ _ _ _ _ I).
    + apply maxv_ext. intros [a b c] I. cbn [field_drop fd_t]. apply IH. apply (owns_virtual _ _ _ _ _ _ I).
    + apply maxv_ext. intros [a b ps d e f] I. cbn [construct_drop ec_params]. rewrite list_drop_max. apply maxv_ext. intros x J. apply IH; own.
    + apply IH; own.
  - destruct p as [q|]; [|reflexivity]. apply IH; own.
Qed.

(** Comparing. *)
Definition g (p : bool * Z) (b : bool) (va vb : Z) : Prop :=
  fst p = b /\ 0 <= snd p /\ snd p <= va /\ snd p <= vb /\ (b = true -> snd p = va /\ snd p = vb).
Lemma g_and p q b c va vb wa wb : g p b va vb -> g q c wa wb -> g (p &&& q) (b && c) (Z.max va wa) (Z.max vb wb).
Proof.
  intros (E & H0 & H1 & H2 & H3) (E' & I0 & I1 & I2 & I3). unfold g, andd. rewrite E, E'. destruct b; cbn [fst snd andb].
  - specialize (H3 eq_refl). split; [reflexivity|]. split; [lia|]. split; [lia|]. split; [lia|]. intros ->. specialize (I3 eq_refl). lia.
  - split; [reflexivity|]. split; [lia|]. split; [lia|]. split; [lia|]. discriminate.
Qed.
Lemma g_flat b : g (flat b) b 0 0. Proof. unfold g. cbn. repeat apply conj; auto; lia. Qed.
Lemma g_bad va vb : 0 <= va -> 0 <= vb -> g (flat false) false va vb.
Proof. intros. unfold g. cbn. repeat apply conj; try lia; try reflexivity; discriminate. Qed.
Lemma g_to p b va vb wa wb : g p b va vb -> va = wa -> vb = wb -> g p b wa wb. Proof. now intros ? <- <-. Qed.
Lemma g_list {A} (V : A -> Z) eqd eqb : forall a b, (forall x y, In x a -> g (eqd x y) (eqb x y) (V x) (V y)) ->
  g (list_eqd eqd a b) (HashModel.list_eqb eqb a b) (maxv V a) (maxv V b).
Proof.
  intros a b H. unfold list_eqd. destruct (Z.eqb_spec (zlen a) (zlen b)) as [L|L].
  - revert b L. induction a as [|x a IH]; intros [|y b] L; try (cbn in L; unfold zlen in L; cbn in L; lia); [apply g_flat|].
    change (maxv V (x :: a)) with (Z.max (V x) (maxv V a)). change (maxv V (y :: b)) with (Z.max (V y) (maxv V b)). change (HashModel.list_eqb eqb (x :: a) (y :: b)) with (eqb x y && HashModel.list_eqb eqb a b). apply g_and; [apply H; now left|].
    apply IH; [intros; apply H; now right|]. rewrite !zlen_cons in L. lia.
  - assert (HashModel.list_eqb eqb a b = false) as ->.
    { clear H. revert b L. induction a as [|x a IH]; intros [|y b] L; try reflexivity; [now destruct L|].
      change (eqb x y && HashModel.list_eqb eqb a b = false). rewrite IH, andb_false_r; [reflexivity|]. rewrite !zlen_cons in L. lia. }
    apply g_bad; apply maxv_nonneg.
Qed.
Lemma g_field eqd eqb x y : g (eqd (fd_t x) (fd_t y)) (eqb (fd_t x) (fd_t y)) (depth (fd_t x)) (depth (fd_t y)) ->
  g (field_eqd eqd x y) (@HashModel.field_eqb vtype eqb x y) (depth (fd_t x)) (depth (fd_t y)).
Proof.
  destruct x as [n h t], y as [n' h' t']. cbn [fd_t field_eqd HashModel.field_eqb]. intros H. pose proof (depth_pos t). pose proof (depth_pos t').
  eapply g_to; [apply g_and; [apply g_and; apply g_flat|exact H]| |]; lia.
Qed.
Lemma g_construct eqd eqb x y : (forall u v, In u (ec_params x) -> g (eqd u v) (eqb u v) (depth u) (depth v)) ->
  g (construct_eqd eqd x y) (@HashModel.construct_eqb vtype eqb x y) (maxv depth (ec_params x)) (maxv depth (ec_params y)).
Proof.
  destruct x as [a b ps d e f], y as [a' b' ps' d' e' f']. cbn [ec_params construct_eqd HashModel.construct_eqb]. intros H. pose proof (maxv_nonneg depth ps). pose proof (maxv_nonneg depth ps').
  eapply g_to; [repeat apply g_and; try apply g_flat; apply (g_list depth); exact H| |]; lia.
Qed.
Lemma g_vt a : forall b, g (vt_eqd a b) (HashModel.vt_eqb a b) (depth a) (depth b).
Proof.
  induction a as [a IH] using owns_ind_. intros b. destruct a as [u nm p k], b as [u' nm' p' k'].
  assert (Hu : g (vtu_eqd vt_eqd u u') (HashModel.vtu_eqb HashModel.vt_eqb u u') (parts_depth u) (parts_depth u')).
  { assert (DB : g (flat false) false (parts_depth u) (parts_depth u')) by (apply g_bad; apply parts_nonneg).
    pose proof (fun A (V : A -> Z) l => maxv_nonneg V l) as N.
    destruct u, u'; cbn [vtu_eqd HashModel.vtu_eqb]; try exact DB; clear DB; cbn [parts_depth].
    - pose proof (N _ depth args). pose proof (N _ depth args0). eapply g_to; [apply g_and; [apply g_and; [apply (g_list depth)|apply g_flat]|apply IH; own]|lia|lia]. intros. apply IH; own.
    - pose proof (N _ (fun f : obj_field vtype => depth (fd_t f)) fields). pose proof (N _ (fun f : obj_field vtype => depth (fd_t f)) fields0). pose proof (depth_pos super_type). pose proof (depth_pos super_type0).
      eapply g_to; [repeat apply g_and; try apply g_flat; [apply IH; own|apply (g_list (fun f => depth (fd_t f)))]|lia|lia].
      intros x y I. apply g_field. apply IH; own.
    - pose proof (N _ (fun f : obj_field vtype => depth (fd_t f)) fields). pose proof (N _ (fun f : obj_field vtype => depth (fd_t f)) fields0).
      eapply g_to; [apply g_and; [apply g_flat|apply (g_list (fun f => depth (fd_t f)))]|lia|lia]. intros x y I. apply g_field. apply IH; own.
    - pose proof (N _ (fun c : enum_construct vtype => maxv depth (ec_params c)) constructs). pose proof (N _ (fun c : enum_construct vtype => maxv depth (ec_params c)) constructs0).
      eapply g_to; [repeat apply g_and; try apply g_flat; apply (g_list (fun c => maxv depth (ec_params c)))|lia|lia]. intros x y I. apply g_construct. intros v w J. apply IH; own.
    - apply IH; own.
    - apply g_flat.
    - apply g_flat.
    - apply g_flat. }
  assert (Hp : g (option_eqd vt_eqd p p') (HashModel.option_eqb HashModel.vt_eqb p p') (match p with Some q => depth q | None => 0 end) (match p' with Some q => depth q | None => 0 end)).
  { destruct p as [q|], p' as [q'|]; cbn [option_eqd HashModel.option_eqb]; [apply IH; own| | |apply g_flat]; apply g_bad; try lia; [pose proof (depth_pos q); lia|pose proof (depth_pos q'); lia]. }
  rewrite !depth_unfold. cbn [vt_eqd HashModel.vt_eqb]. pose proof (parts_nonneg u). pose proof (parts_nonneg u').
  assert (G : g (vtu_eqd vt_eqd u u' &&& flat (HashModel.option_eqb HashModel.str_eqb nm nm') &&& option_eqd vt_eqd p p' &&& flat (k =? k'))
    (HashModel.vtu_eqb HashModel.vt_eqb u u' && HashModel.option_eqb HashModel.str_eqb nm nm' && HashModel.option_eqb HashModel.vt_eqb p p' && (k =? k'))
    (Z.max (parts_depth u) (match p with Some q => depth q | None => 0 end)) (Z.max (parts_depth u') (match p' with Some q => depth q | None => 0 end))).
  { eapply g_to; [apply g_and; [apply g_and; [apply g_and; [exact Hu|apply g_flat]|exact Hp]|apply g_flat]| |]; destruct p as [q|], p' as [q'|]; try pose proof (depth_pos q); try pose proof (depth_pos q'); lia. }
  destruct G as (G1 & G2 & G3 & G4 & G5). unfold g, call. cbn [fst snd]. split; [exact G1|]. split; [lia|]. split; [lia|]. split; [lia|]. intros E. specialize (G5 E). lia.
Qed.
Lemma andd_nonneg x y : 0 <= snd x -> 0 <= snd (x &&& y).
Proof. intros. unfold andd. destruct (fst x); cbn [snd]; lia. Qed.
Lemma eqd_pos a b : 1 <= snd (vt_eqd a b).
Proof.
  destruct a as [u nm p k], b as [u' nm' p' k']. cbn [vt_eqd]. unfold call. cbn [snd].
  enough (0 <= snd (vtu_eqd vt_eqd u u')). { pose proof (andd_nonneg _ (flat (k =? k')) (andd_nonneg _ (option_eqd vt_eqd p p') (andd_nonneg _ (flat (HashModel.option_eqb HashModel.str_eqb nm nm')) H))). lia. }
  pose proof (g_vt (VT u None None 0) (VT u' None None 0)) as (_ & _ & G & _).
  assert (GV : forall a b, 0 <= snd (vt_eqd a b)) by (intros a b; apply (g_vt a b)).
  destruct u, u'; cbn [vtu_eqd]; repeat apply andd_nonneg; try apply GV; try (cbn; lia).
  - apply (g_list depth vt_eqd HashModel.vt_eqb). intros. apply g_vt.
Qed.
