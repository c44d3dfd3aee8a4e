(** Comparing types costs what they own; counting does not change outcomes. *)
From Verif Require Import Prelude StdModel BrassTypes DecoderModel CodeGenericProofs FormatProofs PropsSize HashProofs.
From Verif Require HashModel.
From Verif Require Import HashCostModel.
From Coq Require Import Lia ZifyBool.

Definition g (p : bool * Z) (b : bool) (va vb : Z) : Prop :=
  fst p = b /\ 0 <= snd p /\ snd p <= va /\ snd p <= vb /\ (b = true -> snd p = va /\ snd p = vb).
Lemma g_and p q b c va vb wa wb : g p b va vb -> g q c wa wb -> g (p &&& q) (b && c) (va + wa) (vb + wb).
Proof.
  intros (E & H0 & H1 & H2 & H3) (E' & I0 & I1 & I2 & I3). unfold g, andc. rewrite E, E'. destruct b; cbn [fst snd andb].
  - specialize (H3 eq_refl). split; [reflexivity|]. split; [lia|]. split; [lia|]. split; [lia|]. intros ->. specialize (I3 eq_refl). lia.
  - split; [reflexivity|]. split; [lia|]. split; [lia|]. split; [lia|]. discriminate.
Qed.
Lemma g_pure b : g (pure b) b 0 0. Proof. unfold g. cbn. repeat apply conj; auto; lia. Qed.
Lemma g_to p b va vb wa wb : g p b va vb -> va = wa -> vb = wb -> g p b wa wb. Proof. now intros ? <- <-. Qed.
Definition sumv {A} (V : A -> Z) (l : list A) : Z := fold_right (fun x n => V x + n) 0 l.
Lemma sumv_nonneg {A} (V : A -> Z) l : (forall x, 0 <= V x) -> 0 <= sumv V l.
Proof. intros H. induction l as [|x l IH]; [cbn; lia|]. change (sumv V (x :: l)) with (V x + sumv V l). specialize (H x). lia. Qed.
Lemma g_list {A} (V : A -> Z) eqc eqb : (forall x, 0 <= V x) -> forall a b, (forall x y, In x a -> g (eqc x y) (eqb x y) (V x) (V y)) ->
  g (list_eqc eqc a b) (HashModel.list_eqb eqb a b) (sumv V a) (sumv V b).
Proof.
  intros HV a b H. unfold list_eqc. destruct (Z.eqb_spec (zlen a) (zlen b)) as [L|L].
  - revert b L. induction a as [|x a IH]; intros [|y b] L; try (cbn in L; unfold zlen in L; cbn in L; lia); [apply g_pure|].
    cbn [sumv fold_right]. change (HashModel.list_eqb eqb (x :: a) (y :: b)) with (eqb x y && HashModel.list_eqb eqb a b). apply g_and; [apply H; now left|].
    apply IH; [intros; apply H; now right|]. rewrite !zlen_cons in L. lia.
  - assert (HashModel.list_eqb eqb a b = false) as ->.
    { clear H. revert b L. induction a as [|x a IH]; intros [|y b] L; try reflexivity; [now destruct L|].
      change (eqb x y && HashModel.list_eqb eqb a b = false). rewrite IH, andb_false_r; [reflexivity|]. rewrite !zlen_cons in L. lia. }
    pose proof (sumv_nonneg V a HV). pose proof (sumv_nonneg V b HV). unfold g. cbn. repeat apply conj; try lia; try reflexivity; discriminate.
Qed.
Lemma values_unfold u n p k : values (VT u n p k) = 1 + (match p with Some q => values q | None => 0 end)
      + match u with
        | FuncType args _ r => sumv values args + values r
        | ObjType _ s fs _ _ _ _ _ _ _ => values s + sumv (fun f => values (fd_t f)) fs
        | VirtualType _ fs => sumv (fun f => values (fd_t f)) fs
        | EnumType _ _ cs _ => sumv (fun c => sumv values (ec_params c)) cs
        | URef a => values a
        | _ => 0
        end.
Proof.
  cbn [values]. assert (E : forall l, (fix go (l : list vtype) : Z := match l with [] => 0 | a :: l0 => values a + go l0 end) l = sumv values l).
  { induction l as [|x l IH]; [reflexivity|]. cbn. now rewrite IH. }
  assert (F : forall l, (fix go (l : list (obj_field vtype)) : Z := match l with [] => 0 | mkField _ _ a :: l0 => values a + go l0 end) l = sumv (fun f => values (fd_t f)) l).
  { induction l as [|[? ? x] l IH]; [reflexivity|]. cbn. now rewrite IH. }
  destruct u; rewrite ?E, ?F; try reflexivity. f_equal.
  induction constructs as [|[? ? ps ? ? ?] l IH]; [reflexivity|]. cbn. now rewrite E, IH.
Qed.
Lemma values_pos t : 1 <= values t.
Proof.
  enough (H : forall n t, (vt_size t < n)%nat -> 1 <= values t) by (apply (H (S (vt_size t))); lia). clear t. induction n as [|n IH]; intros t Hn; [lia|].
  destruct t as [u nm p k]. rewrite values_unfold. cbn [vt_size] in Hn.
  assert (P : 0 <= match p with Some q => values q | None => 0 end) by (destruct p; [|lia]; specialize (IH v ltac:(lia)); lia).
  assert (S1 : forall (A : Type) (V : A -> Z) l, (forall x, In x l -> 0 <= V x) -> 0 <= sumv V l).
  { intros A V l. induction l as [|x l I]; intros H; [cbn; lia|]. change (sumv V (x :: l)) with (V x + sumv V l). pose proof (H x (or_introl eq_refl)). specialize (I (fun y Hy => H y (or_intror Hy))). lia. }
  destruct u; try lia.
  - assert (1 <= values ret). { apply IH. assert (forall l, (vt_size ret <= fold_right (fun x n => vt_size x + n)%nat (vt_size ret) l)%nat) by (induction l; cbn; lia). specialize (H args). lia. }
    assert (0 <= sumv values args); [|lia]. apply S1. intros x Hx. enough (1 <= values x) by lia. apply IH. pose proof (fold_size_in vt_size args (vt_size ret) x Hx). lia.
  - assert (1 <= values super_type). { apply IH. assert (forall l, (vt_size super_type <= fold_right (fun (f : obj_field vtype) n => (match f with mkField _ _ x => vt_size x end) + n)%nat (vt_size super_type) l)%nat) by (induction l; cbn; lia). specialize (H fields). lia. }
    assert (0 <= sumv (fun f => values (fd_t f)) fields); [|lia]. apply S1. intros [a b x] Hx. cbn [fd_t]. enough (1 <= values x) by lia. apply IH.
    pose proof (fold_size_in (fun f : obj_field vtype => match f with mkField _ _ x => vt_size x end) fields (vt_size super_type) _ Hx) as Q. cbn in Q. lia.
  - assert (0 <= sumv (fun f => values (fd_t f)) fields); [|lia]. apply S1. intros [a b x] Hx. cbn [fd_t]. enough (1 <= values x) by lia. apply IH.
    pose proof (fold_size_in (fun f : obj_field vtype => match f with mkField _ _ x => vt_size x end) fields 0%nat _ Hx) as Q. cbn in Q. lia.
  - assert (0 <= sumv (fun c => sumv values (ec_params c)) constructs); [|lia]. apply S1. intros [a b ps d e f] Hx. cbn [ec_params]. apply S1. intros x Hy. enough (1 <= values x) by lia. apply IH.
    pose proof (fold_size_in (fun c : enum_construct vtype => match c with mkCon _ _ ps _ _ _ => fold_right (fun x n => vt_size x + n)%nat 0%nat ps end) constructs 0%nat _ Hx) as H. cbn in H.
    pose proof (fold_size_in vt_size ps 0%nat x Hy). lia.
  - specialize (IH t). cbn [vt_size] in Hn. assert (1 <= values t) by (apply IH; lia). lia.
Qed.

Lemma values_nonneg t : 0 <= values t. Proof. pose proof (values_pos t). lia. Qed.
Lemma g_field V eqc eqb x y : g (eqc (fd_t x) (fd_t y)) (eqb (fd_t x) (fd_t y)) (V (fd_t x)) (V (fd_t y)) ->
  g (field_eqc eqc x y) (@HashModel.field_eqb vtype eqb x y) (V (fd_t x)) (V (fd_t y)).
Proof. destruct x as [n h t], y as [n' h' t']. cbn [fd_t field_eqc HashModel.field_eqb]. intros H. eapply g_to; [apply g_and; [apply g_and; apply g_pure|exact H]| |]; lia. Qed.
Lemma g_construct eqc eqb x y : (forall u v, In u (ec_params x) -> g (eqc u v) (eqb u v) (values u) (values v)) ->
  g (construct_eqc eqc x y) (@HashModel.construct_eqb vtype eqb x y) (sumv values (ec_params x)) (sumv values (ec_params y)).
Proof.
  destruct x as [a b ps d e f], y as [a' b' ps' d' e' f']. cbn [ec_params construct_eqc HashModel.construct_eqb]. intros H.
  eapply g_to; [repeat apply g_and; try apply g_pure; apply (g_list values); [exact values_nonneg|exact H]| |]; lia.
Qed.
Lemma and_low x y : 0 <= snd y -> snd x <= snd (x &&& y).
Proof. unfold andc. destruct (fst x); cbn [snd]; lia. Qed.
Lemma g_vt1 a b : g (vt_eqc a b) (HashModel.vt_eqb a b) (values a) (values b) /\ 1 <= snd (vt_eqc a b).
Proof.
  enough (H : forall n a b, (vt_size a < n)%nat -> g (vt_eqc a b) (HashModel.vt_eqb a b) (values a) (values b) /\ 1 <= snd (vt_eqc a b)) by (apply (H (S (vt_size a))); lia).
  clear a b. induction n as [|n IH0]; intros a b Hn; [lia|]. assert (IH : forall a b, (vt_size a < n)%nat -> g (vt_eqc a b) (HashModel.vt_eqb a b) (values a) (values b)) by (intros; now apply IH0). clear IH0. destruct a as [u nm p k], b as [u' nm' p' k']. cbn [vt_size] in Hn. cbn [vt_eqc HashModel.vt_eqb].
  assert (Hu : g (vtu_eqc vt_eqc u u') (HashModel.vtu_eqb HashModel.vt_eqb u u') (values (VT u None None 0) - 1) (values (VT u' None None 0) - 1)).
  { assert (D : g (pure false) false (values (VT u None None 0) - 1) (values (VT u' None None 0) - 1)).
    { pose proof (values_pos (VT u None None 0)). pose proof (values_pos (VT u' None None 0)). unfold g. cbn [pure fst snd]. repeat apply conj; try lia; try reflexivity; discriminate. }
    pose proof (fun V eqc eqb H a b X => @g_list vtype V eqc eqb H a b X) as GL.
    destruct u, u'; cbn [vtu_eqc HashModel.vtu_eqb]; try exact D; clear D; rewrite !values_unfold.
    - eapply g_to; [apply g_and; [apply g_and; [apply (g_list values); [exact values_nonneg|]|apply g_pure]|apply IH]| |].
      + intros x y Hx. apply IH. pose proof (fold_size_in vt_size args (vt_size ret) x Hx). lia.
      + assert (forall l, (vt_size ret <= fold_right (fun x n => vt_size x + n)%nat (vt_size ret) l)%nat) by (induction l; cbn; lia). specialize (H args). lia.
      + lia.
      + lia.
    - eapply g_to; [repeat apply g_and; try apply g_pure; [apply IH|apply (g_list (fun f => values (fd_t f))); [intros; apply values_nonneg|]]| |].
      + assert (forall l, (vt_size super_type <= fold_right (fun (f : obj_field vtype) n => (match f with mkField _ _ x => vt_size x end) + n)%nat (vt_size super_type) l)%nat) by (induction l; cbn; lia). specialize (H fields). lia.
      + intros x y Hx. apply (g_field values). apply IH. destruct x as [n1 h1 t1]. cbn [fd_t].
        pose proof (fold_size_in (fun f : obj_field vtype => match f with mkField _ _ x => vt_size x end) fields (vt_size super_type) _ Hx) as H. cbn in H. lia.
      + lia.
      + lia.
    - eapply g_to; [apply g_and; [apply g_pure|apply (g_list (fun f => values (fd_t f))); [intros; apply values_nonneg|]]| |].
      + intros x y Hx. apply (g_field values). apply IH. destruct x as [n1 h1 t1]. cbn [fd_t].
        pose proof (fold_size_in (fun f : obj_field vtype => match f with mkField _ _ x => vt_size x end) fields 0%nat _ Hx) as H. cbn in H. lia.
      + lia.
      + lia.
    - eapply g_to; [repeat apply g_and; try apply g_pure; apply (g_list (fun c => sumv values (ec_params c))); [intros; apply sumv_nonneg, values_nonneg|]| |].
      + intros x y Hx. apply g_construct. intros v w Hv. apply IH. destruct x as [n1 np1 ps1 sz1 hp1 os1].
        pose proof (fold_size_in (fun c : enum_construct vtype => match c with mkCon _ _ ps _ _ _ => fold_right (fun x n => vt_size x + n)%nat 0%nat ps end) constructs 0%nat _ Hx) as H. cbn in H.
        pose proof (fold_size_in vt_size ps1 0%nat v Hv). lia.
      + lia.
      + lia.
    - eapply g_to; [apply IH; lia| |]; lia.
    - eapply g_to; [apply g_pure| |]; lia.
    - eapply g_to; [apply g_pure| |]; lia.
    - eapply g_to; [apply g_pure| |]; lia. }
  assert (Hp : g (option_eqc vt_eqc p p') (HashModel.option_eqb HashModel.vt_eqb p p') (match p with Some q => values q | None => 0 end) (match p' with Some q => values q | None => 0 end)).
  { destruct p as [q|], p' as [q'|]; cbn [option_eqc HashModel.option_eqb]; [apply IH; lia| | |apply g_pure].
    - pose proof (values_pos q). unfold g. cbn [pure fst snd]. repeat apply conj; try lia; try reflexivity; discriminate.
    - pose proof (values_pos q'). unfold g. cbn [pure fst snd]. repeat apply conj; try lia; try reflexivity; discriminate. }
  rewrite (values_unfold u nm p k), (values_unfold u' nm' p' k'). rewrite !values_unfold in Hu.
  replace (HashModel.vtu_eqb HashModel.vt_eqb u u' && HashModel.option_eqb HashModel.str_eqb nm nm' && HashModel.option_eqb HashModel.vt_eqb p p' && (k =? k'))
    with (true && HashModel.vtu_eqb HashModel.vt_eqb u u' && HashModel.option_eqb HashModel.str_eqb nm nm' && HashModel.option_eqb HashModel.vt_eqb p p' && (k =? k')) by reflexivity.
  assert (H1 : g (true, 1) true 1 1) by (unfold g; cbn; repeat apply conj; auto; lia).
  split; [|destruct Hu as (_ & U0 & _), Hp as (_ & P0 & _); etransitivity; [|apply and_low; cbn; lia]; etransitivity; [|apply and_low; lia]; etransitivity; [|apply and_low; cbn; lia]; etransitivity; [|apply and_low; lia]; cbn; lia].
  eapply g_to; [apply g_and; [apply g_and; [apply g_and; [apply g_and; [exact H1|exact Hu]|apply g_pure]|exact Hp]|apply g_pure]| |]; lia.
Qed.
Lemma g_vt a b : g (vt_eqc a b) (HashModel.vt_eqb a b) (values a) (values b). Proof. apply g_vt1. Qed.
(** Comparing agrees with equality, and costs what the types own if they are equal. *)
Lemma vt_eqc_ok a b : fst (vt_eqc a b) = HashModel.vt_eqb a b. Proof. apply g_vt. Qed.
Lemma vt_eqc_same t : snd (vt_eqc t t) = values t.
Proof. destruct (g_vt t t) as (_ & _ & _ & _ & H). now apply H, vt_eqb_eq. Qed.
Lemma vt_eqc_min a b : 1 <= snd (vt_eqc a b) <= Z.min (values a) (values b).
Proof. destruct (g_vt1 a b) as ((_ & H0 & H1 & H2 & _) & L). lia. Qed.

(** * Outcomes are those of HashModel.v *)
Lemma f_free {A} (m : HashModel.R A) : fst (free m) = m. Proof. reflexivity. Qed.
Lemma f_bind {A B} (m : R A) (k : A -> R B) : fst (rbind m k) = HashModel.rbind (fst m) (fun a => fst (k a)).
Proof. destruct m as [[a|e|p] n]; cbn; [|reflexivity..]. destruct (k a). reflexivity. Qed.
Lemma s_bind {A B} (m : R A) (k : A -> R B) : snd (rbind m k) = snd m + match fst m with Ok a => snd (k a) | _ => 0 end.
Proof. destruct m as [[a|e|p] n]; cbn; [|lia..]. destruct (k a). reflexivity. Qed.
Lemma rbind_ext {A B} (m : HashModel.R A) (k k' : A -> HashModel.R B) : (forall a, k a = k' a) -> HashModel.rbind m k = HashModel.rbind m k'.
Proof. intros H. destruct m; cbn; auto. Qed.
Lemma f_rloop {A} (b : Z -> A -> R A) (b' : Z -> A -> HashModel.R A) : (forall i x, fst (b i x) = b' i x) -> forall n i acc, fst (rloop n i b acc) = HashModel.rloop n i b' acc.
Proof.
  intros H. induction n as [|n IH]; intros i acc; [reflexivity|]. cbn [rloop HashModel.rloop]. rewrite f_bind, H. apply rbind_ext. intros a. apply IH.
Qed.
Lemma f_rfor {A} n (b : Z -> A -> R A) (b' : Z -> A -> HashModel.R A) acc : (forall i x, fst (b i x) = b' i x) -> fst (rfor n b acc) = HashModel.rfor n b' acc.
Proof. intros H. now apply f_rloop. Qed.
Lemma f_position ts t : fst (position ts t) = Ok (HashModel.position ts t).
Proof.
  induction ts as [|x r IH]; [reflexivity|]. cbn [position HashModel.position]. pose proof (vt_eqc_ok x t) as E. destruct (vt_eqc x t) as [b n]. cbn [fst] in E. rewrite <- E.
  destruct b; [reflexivity|]. destruct (position r t) as [o n']. cbn [fst] in IH |- *. now rewrite IH.
Qed.
Lemma f_hash_at ts hs t : fst (hash_at ts hs t) = HashModel.hash_at ts hs t.
Proof. unfold hash_at, HashModel.hash_at. rewrite f_bind, f_position. cbn [HashModel.rbind]. rewrite f_bind. reflexivity. Qed.
Ltac same := repeat first
  [ reflexivity
  | rewrite f_bind; apply rbind_ext; intros
  | rewrite f_hash_at
  | match goal with |- fst (if ?b then _ else _) = (if ?b then _ else _) => destruct b end
  | match goal with |- fst (match ?b with _ => _ end) = _ => destruct b end
  | apply f_rfor; intros ].
Lemma f_write_type ts hs t h : fst (write_type ts hs t h) = HashModel.write_type ts hs t h.
Proof. unfold write_type, HashModel.write_type. rewrite f_bind, f_hash_at. reflexivity. Qed.
Ltac same_with l := repeat first [ reflexivity | rewrite l | rewrite f_bind | apply rbind_ext; intros
  | match goal with |- HashModel.rbind ?a _ = HashModel.rbind ?b _ => let E := fresh in assert (E : a = b); [|rewrite E; clear E] end
  | apply f_rfor; intros
  | match goal with |- fst (if ?b then _ else _) = (if ?b then _ else _) => destruct b end
  | match goal with |- fst (match ?b with _ => _ end) = _ => destruct b end ].
Lemma f_hash_type_rec ch i : fst (hash_type_rec ch i) = HashModel.hash_type_rec ch i.
Proof. unfold hash_type_rec, HashModel.hash_type_rec. cbv zeta. same_with f_write_type. Qed.
Lemma f_code_hash_type ch t : fst (code_hash_type ch t) = HashModel.code_hash_type ch t.
Proof. unfold code_hash_type, HashModel.code_hash_type. same_with f_write_type. Qed.
Lemma f_types2 ch c : fst (alloc_types2 ch c) = HashModel.alloc_types2 ch c.
Proof. unfold alloc_types2, HashModel.alloc_types2. same_with f_hash_type_rec. Qed.
Lemma f_globals1 ch c l : fst (alloc_globals1 ch c l) = HashModel.alloc_globals1 ch c l.
Proof. unfold alloc_globals1, HashModel.alloc_globals1. same_with f_code_hash_type. Qed.
Lemma f_globals2 ch c l : fst (alloc_globals2 ch c l) = HashModel.alloc_globals2 ch c l.
Proof. unfold alloc_globals2, HashModel.alloc_globals2. cbv zeta. same_with f_code_hash_type. Qed.
Lemma f_finish ch c l : fst (alloc_finish ch c l) = HashModel.alloc_finish ch c l.
Proof. unfold alloc_finish, HashModel.alloc_finish. same_with f_code_hash_type. Qed.
Lemma f_alloc c : fst (alloc c) = HashModel.alloc c.
Proof.
  unfold alloc, HashModel.alloc. cbv zeta. rewrite f_bind. apply rbind_ext. intros idx. rewrite f_bind. apply rbind_ext. intros hs. rewrite f_bind, f_types2. apply rbind_ext. intros hs2.
  rewrite f_bind, f_globals1. apply rbind_ext. intros l1. rewrite f_bind, f_globals2. apply rbind_ext. intros l2. rewrite f_bind. apply rbind_ext. intros l3. rewrite f_bind. apply rbind_ext. intros l4.
  rewrite f_bind, f_finish. reflexivity.
Qed.
Lemma f_native ch n : fst (hash_native ch n) = HashModel.hash_native ch n.
Proof. unfold hash_native, HashModel.hash_native. cbv zeta. same_with f_write_type. Qed.
Lemma f_fun_sign ch f : fst (hash_fun_sign ch f) = HashModel.hash_fun_sign ch f.
Proof. unfold hash_fun_sign, HashModel.hash_fun_sign. cbv zeta. same_with f_write_type. Qed.
Lemma f_hash_op ch o h : fst (hash_op ch o h) = HashModel.hash_op ch o h.
Proof. unfold hash_op, HashModel.hash_op. cbv zeta. same_with f_write_type. Qed.
Lemma f_hash_fun ch f : fst (hash_fun ch f) = HashModel.hash_fun ch f.
Proof.
  unfold hash_fun, HashModel.hash_fun. rewrite f_bind. erewrite f_rfor; [|intros; rewrite f_bind; apply rbind_ext; intros; apply f_write_type]. apply rbind_ext. intros h.
  rewrite f_bind. erewrite f_rfor; [|intros; rewrite f_bind; apply rbind_ext; intros; apply f_hash_op]. reflexivity.
Qed.
Lemma f_finalize ch : fst (finalize ch) = HashModel.finalize ch.
Proof.
  unfold finalize, HashModel.finalize. cbv zeta. rewrite f_bind. erewrite f_rfor; [|intros; rewrite f_bind; apply rbind_ext; intros; rewrite f_bind, f_fun_sign; reflexivity]. apply rbind_ext. intros l.
  rewrite f_bind. erewrite f_rfor; [|intros; rewrite f_bind; apply rbind_ext; intros; rewrite f_bind, f_native; reflexivity]. apply rbind_ext. intros l'.
  rewrite f_bind. erewrite f_rfor; [|intros; rewrite f_bind; apply rbind_ext; intros; rewrite f_bind, f_hash_fun; reflexivity]. reflexivity.
Qed.
