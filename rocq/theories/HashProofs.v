(** Lemmas about the hashing model. *)
From Verif Require Import Prelude StdModel BrassTypes DecoderModel CodeModel FormatSpec ReaderSpec HashModel HashSpec AcceptSpec.
From Verif Require Import CodeGenericProofs FormatProofs StringsProofs ReaderSizes CrcProofs.
From Coq Require Import Lia ZifyBool.

(** * Loops *)
Lemma rbind_ok {A B} (m : R A) (k : A -> R B) b : rbind m k = Ok b -> exists a, m = Ok a /\ k a = Ok b.
Proof. destruct m; cbn; try discriminate. eauto. Qed.
Lemma need_ok {A} p (o : option A) a : need p o = Ok a -> o = Some a.
Proof. destruct o; cbn; congruence. Qed.

Lemma rloop_inv {A} (P : Z -> A -> Prop) (body : Z -> A -> R A) : forall n i acc r,
  P i acc -> (forall j a b, i <= j < i + Z.of_nat n -> P j a -> body j a = Ok b -> P (j + 1) b) ->
  rloop n i body acc = Ok r -> P (i + Z.of_nat n) r.
Proof.
  induction n as [|n IH]; intros i acc r H S E; cbn [rloop] in E.
  - inversion E; subst. now replace (i + Z.of_nat 0) with i by lia.
  - apply rbind_ok in E as (a & E1 & E). replace (i + Z.of_nat (Datatypes.S n)) with ((i + 1) + Z.of_nat n) by lia.
    eapply IH; [|intros j x y Hj; apply S; lia|exact E]. apply (S i acc a); [lia|auto|auto].
Qed.
Lemma rfor_inv {A} (P : Z -> A -> Prop) n (body : Z -> A -> R A) acc r : 0 <= n ->
  P 0 acc -> (forall j a b, 0 <= j < n -> P j a -> body j a = Ok b -> P (j + 1) b) ->
  rfor n body acc = Ok r -> P n r.
Proof.
  intros Hn H S E. replace n with (0 + Z.of_nat (Z.to_nat n)) by lia. eapply rloop_inv; [exact H| |exact E].
  intros j a b Hj. apply S. lia.
Qed.
(** Total version. *)
Lemma rloop_ok {A} (P : Z -> A -> Prop) (body : Z -> A -> R A) : forall n i acc,
  P i acc -> (forall j a, i <= j < i + Z.of_nat n -> P j a -> exists b, body j a = Ok b /\ P (j + 1) b) ->
  exists r, rloop n i body acc = Ok r /\ P (i + Z.of_nat n) r.
Proof.
  induction n as [|n IH]; intros i acc H S; cbn [rloop].
  - exists acc. now replace (i + Z.of_nat 0) with i by lia.
  - destruct (S i acc) as (b & E & Hb); [lia|auto|]. rewrite E. cbn [rbind].
    destruct (IH (i + 1) b Hb) as (r & Er & Hr); [intros; apply S; [lia|auto]|].
    exists r. split; [auto|]. now replace (i + Z.of_nat (Datatypes.S n)) with (i + 1 + Z.of_nat n) by lia.
Qed.
Lemma rfor_ok {A} (P : Z -> A -> Prop) n (body : Z -> A -> R A) acc : 0 <= n ->
  P 0 acc -> (forall j a, 0 <= j < n -> P j a -> exists b, body j a = Ok b /\ P (j + 1) b) ->
  exists r, rfor n body acc = Ok r /\ P n r.
Proof.
  intros Hn H S. destruct (rloop_ok P body (Z.to_nat n) 0 acc H) as (r & E & Hr).
  - intros j a Hj. apply S. lia.
  - exists r. split; [exact E|]. now replace n with (0 + Z.of_nat (Z.to_nat n)) by lia.
Qed.
(** A pass over a list. *)
Lemma znth_app_r0 {A} (p s : list A) : znth (p ++ s) (zlen p) = match s with x :: _ => Some x | [] => None end.
Proof.
  induction p as [|a p IH]; cbn [app].
  - destruct s; reflexivity.
  - cbn [znth]. rewrite zlen_cons. pose proof (zlen_nonneg p).
    replace (1 + zlen p =? 0) with false by lia. replace (1 + zlen p - 1) with (zlen p) by lia. exact IH.
Qed.
Lemma rloop_list {A B} (body : Z -> B -> R B) step : forall (suf pre l : list A) h, l = pre ++ suf ->
  (forall i x h, 0 <= i -> znth l i = Some x -> body i h = Ok (step h x)) ->
  rloop (length suf) (zlen pre) body h = Ok (fold_left step suf h).
Proof.
  induction suf as [|x suf IH]; intros pre l h E H; cbn [length rloop fold_left]; [reflexivity|].
  rewrite (H (zlen pre) x h); [|apply zlen_nonneg|subst; now rewrite znth_app_r0]. cbn [rbind].
  replace (zlen pre + 1) with (zlen (pre ++ [x])) by (rewrite zlen_app; reflexivity).
  eapply IH; [|exact H]. rewrite <- app_assoc. exact E.
Qed.
Lemma rfor_list {A B} (l : list A) (body : Z -> B -> R B) step h :
  (forall i x h, 0 <= i -> znth l i = Some x -> body i h = Ok (step h x)) ->
  rfor (zlen l) body h = Ok (fold_left step l h).
Proof.
  intros H. unfold rfor. replace (Z.to_nat (zlen l)) with (length l) by (unfold zlen; lia).
  exact (rloop_list body step l [] l h eq_refl H).
Qed.
Lemma rfor_const {B} n (body : Z -> B -> R B) h : (forall i h, body i h = Ok h) -> rfor n body h = Ok h.
Proof. intros H. unfold rfor. generalize 0. induction (Z.to_nat n) as [|k IH]; intros i; cbn [rloop]; [reflexivity|]. rewrite H. apply IH. Qed.
Lemma fold_writes {A} (f : A -> list Z) l : forall h,
  fold_left (fun h x => hasher_write h (f x)) l h = hasher_write h (flat_map f l).
Proof. induction l as [|x l IH]; intros h; cbn [fold_left flat_map]; [reflexivity|]. now rewrite IH, write_app. Qed.
Lemma rfor_writes {A} (l : list A) (body : Z -> hasher -> R hasher) (f : A -> list Z) h :
  (forall i x h, 0 <= i -> znth l i = Some x -> body i h = Ok (hasher_write h (f x))) ->
  rfor (zlen l) body h = Ok (hasher_write h (flat_map f l)).
Proof. intros H. rewrite <- fold_writes. now apply (rfor_list l body (fun h x => hasher_write h (f x))). Qed.

Lemma write_u32_le h v : write_u32 h v = hasher_write h (enc_le 4 v). Proof. reflexivity. Qed.
Lemma write_i32_le h v : write_i32 h v = hasher_write h (enc_le 4 v). Proof. reflexivity. Qed.
Lemma write_usize_le h v : write_usize h v = hasher_write h (enc_le 8 v). Proof. reflexivity. Qed.
Lemma write_isize_le h v : write_isize h v = hasher_write h (enc_le 8 v). Proof. reflexivity. Qed.
Ltac wr := rewrite ?write_u32_le, ?write_i32_le, ?write_usize_le, ?write_isize_le.

(** * Structural equality is equality *)
Fixpoint vt_size (t : vtype) : nat :=
  match t with
  | VT u _ p _ =>
      S ((match u with
          | FuncType xs _ r => fold_right (fun x n => vt_size x + n)%nat (vt_size r) xs
          | ObjType _ s fs _ _ _ _ _ _ _ =>
              fold_right (fun f n => (match f with mkField _ _ x => vt_size x end) + n)%nat (vt_size s) fs
          | VirtualType _ fs => fold_right (fun f n => (match f with mkField _ _ x => vt_size x end) + n)%nat 0%nat fs
          | EnumType _ _ cs _ =>
              fold_right (fun c n => (match c with mkCon _ _ ps _ _ _ => fold_right (fun x n => vt_size x + n)%nat 0%nat ps end) + n)%nat 0%nat cs
          | URef x => vt_size x
          | _ => 0%nat
          end) + match p with Some x => vt_size x | None => 0%nat end)
  end.
Lemma list_eqb_eq {A} (eqb : A -> A -> bool) : forall a b, (forall x y, In x a -> eqb x y = true <-> x = y) ->
  list_eqb eqb a b = true <-> a = b.
Proof.
  induction a as [|x a IH]; intros [|y b] H; cbn; try (split; [discriminate|discriminate]); [tauto|].
  rewrite andb_true_iff, (H x y) by now left. change (fix go (a0 b0 : list A) : bool := _) with (list_eqb eqb).
  rewrite IH by (intros; apply H; now right). split; [intros [-> ->]; reflexivity|intros E; inversion E; auto].
Qed.
Lemma str_eqb_eq a b : str_eqb a b = true <-> a = b.
Proof. apply list_eqb_eq. intros. apply Z.eqb_eq. Qed.
Lemma zlist_eqb_eq a b : list_eqb Z.eqb a b = true <-> a = b.
Proof. apply list_eqb_eq. intros. apply Z.eqb_eq. Qed.
Lemma option_eqb_eq {A} (eqb : A -> A -> bool) a b : (forall x y, a = Some x -> eqb x y = true <-> x = y) ->
  option_eqb eqb a b = true <-> a = b.
Proof.
  destruct a, b; cbn; intros H; try (split; discriminate); [|tauto].
  rewrite H by reflexivity. split; [intros ->; reflexivity|intros E; now inversion E].
Qed.
Lemma proto_eqb_eq a b : proto_eqb a b = true <-> a = b.
Proof.
  destruct a, b. unfold proto_eqb. cbn. rewrite !andb_true_iff, str_eqb_eq, !Z.eqb_eq.
  split; [intros [[[-> ->] ->] ->]; reflexivity|intros E; inversion E; auto].
Qed.
Lemma fold_size_in {A} (g : A -> nat) (l : list A) b x : In x l -> (g x <= fold_right (fun y n => g y + n)%nat b l)%nat.
Proof. induction l as [|y l IH]; cbn; [tauto|]. intros [->|H]; [lia|]. specialize (IH H). lia. Qed.
Lemma vt_eqb_eq_size n : forall a b, (vt_size a < n)%nat -> vt_eqb a b = true <-> a = b.
Proof.
  induction n as [|n IH]; intros a b Hn; [lia|].
  destruct a as [u nm p k], b as [u' nm' p' k']. cbn [vt_size] in Hn. cbn [vt_eqb].
  assert (Hu : vtu_eqb vt_eqb u u' = true <-> u = u').
  { destruct u, u'; cbn [vtu_eqb]; try (split; discriminate); try tauto.
    - rewrite !andb_true_iff, Z.eqb_eq, (IH ret).
      2:{ assert (forall l, (vt_size ret <= fold_right (fun x n => vt_size x + n)%nat (vt_size ret) l)%nat) by (induction l; cbn; lia). specialize (H args). lia. }
      rewrite list_eqb_eq. { split; [intros [[-> ->] ->]; reflexivity|intros E; inversion E; auto]. }
      intros x y Hx. apply IH. pose proof (fold_size_in vt_size args (vt_size ret) x Hx). lia.
    - rewrite !andb_true_iff, !Z.eqb_eq, str_eqb_eq, !zlist_eqb_eq, (IH super_type).
      2:{ assert (forall l, (vt_size super_type <= fold_right (fun (f : obj_field vtype) n => (match f with mkField _ _ x => vt_size x end) + n)%nat (vt_size super_type) l)%nat) by (induction l; cbn; lia). specialize (H fields). lia. }
      rewrite (list_eqb_eq (field_eqb vt_eqb)), (list_eqb_eq proto_eqb), option_eqb_eq.
      + split; [intros [[[[[[[[[-> ->] ->] ->] ->] ->] ->] ->] ->] ->]; reflexivity|intros E; inversion E; repeat split; auto].
      + intros [] []; cbn; tauto.
      + intros. apply proto_eqb_eq.
      + intros [n1 h1 t1] [n2 h2 t2] Hx. cbn. rewrite !andb_true_iff, str_eqb_eq, Z.eqb_eq, IH.
        * split; [intros [[-> ->] ->]; reflexivity|intros E; inversion E; auto].
        * pose proof (fold_size_in (fun f : obj_field vtype => match f with mkField _ _ x => vt_size x end) fields (vt_size super_type) _ Hx). cbn in H. lia.
    - rewrite !andb_true_iff, !Z.eqb_eq, (list_eqb_eq (field_eqb vt_eqb)).
      + split; [intros [-> ->]; reflexivity|intros E; inversion E; auto].
      + intros [n1 h1 t1] [n2 h2 t2] Hx. cbn. rewrite !andb_true_iff, str_eqb_eq, Z.eqb_eq, IH.
        * split; [intros [[-> ->] ->]; reflexivity|intros E; inversion E; auto].
        * pose proof (fold_size_in (fun f : obj_field vtype => match f with mkField _ _ x => vt_size x end) fields 0%nat _ Hx). cbn in H. lia.
    - rewrite !andb_true_iff, !Z.eqb_eq, str_eqb_eq, zlist_eqb_eq, (list_eqb_eq (construct_eqb vt_eqb)).
      + split; [intros [[[-> ->] ->] ->]; reflexivity|intros E; inversion E; auto].
      + intros [n1 np1 ps1 sz1 hp1 os1] [n2 np2 ps2 sz2 hp2 os2] Hx. cbn. rewrite !andb_true_iff, str_eqb_eq, !Z.eqb_eq, zlist_eqb_eq, eqb_true_iff.
        rewrite list_eqb_eq.
        * split; [intros [[[[[-> ->] ->] ->] ->] ->]; reflexivity|intros E; inversion E; repeat split; auto].
        * intros x y Hxx. apply IH.
          pose proof (fold_size_in (fun c : enum_construct vtype => match c with mkCon _ _ ps _ _ _ => fold_right (fun x n => vt_size x + n)%nat 0%nat ps end) constructs 0%nat _ Hx) as H. cbn in H.
          pose proof (fold_size_in vt_size ps1 0%nat x Hxx). lia.
    - rewrite IH by lia. split; [intros ->; reflexivity|intros E; now inversion E].
    - rewrite str_eqb_eq. split; [intros ->; reflexivity|intros E; now inversion E]. }
  rewrite !andb_true_iff, Hu, Z.eqb_eq, !option_eqb_eq.
  - split; [intros [[[-> ->] ->] ->]; reflexivity|intros E; inversion E; auto].
  - intros x y ->. apply IH. lia.
  - intros x y _. apply str_eqb_eq.
Qed.
Lemma vt_eqb_eq a b : vt_eqb a b = true <-> a = b.
Proof. apply (vt_eqb_eq_size (S (vt_size a))). lia. Qed.

(** * Lookup *)
Lemma position_some ts t : forall i, position ts t = Some i -> znth ts i = Some t /\ 0 <= i < zlen ts.
Proof.
  induction ts as [|x ts IH]; intros i E; cbn [position] in E; [discriminate|].
  pose proof (zlen_nonneg ts). rewrite zlen_cons. destruct (vt_eqb x t) eqn:Q.
  - injection E as <-. apply vt_eqb_eq in Q. subst x. split; [reflexivity|lia].
  - destruct (position ts t) as [j|] eqn:P; [|discriminate]. cbn [option_map] in E. assert (i = 1 + j) as -> by congruence. destruct (IH j eq_refl) as [Z R].
    split; [|lia]. cbn [znth]. destruct (Z.eqb_spec (1 + j) 0); [lia|]. now replace (1 + j - 1) with j by lia.
Qed.
(** The first occurrence. *)
Lemma position_first D r t : In t D -> exists i, position (D ++ r) t = Some i /\ znth D i = Some t /\ 0 <= i < zlen D.
Proof.
  induction D as [|x D IH]; intros H; [destruct H|]. cbn [app position]. pose proof (zlen_nonneg D). rewrite zlen_cons.
  destruct (vt_eqb x t) eqn:Q.
  - apply vt_eqb_eq in Q. subst x. exists 0. repeat split; lia.
  - destruct H as [->|H]; [rewrite (proj2 (vt_eqb_eq t t) eq_refl) in Q; discriminate|].
    destruct (IH H) as (i & E & Z & R). rewrite E. cbn [option_map]. exists (1 + i). split; [reflexivity|]. split; [|lia].
    cbn [znth]. destruct (Z.eqb_spec (1 + i) 0); [lia|]. now replace (1 + i - 1) with i by lia.
Qed.
Lemma position_late D r t : ~ In t D -> position (D ++ r) t = option_map (Z.add (zlen D)) (position r t).
Proof.
  induction D as [|x D IH]; intros H; cbn [app position].
  - destruct (position r t); reflexivity.
  - destruct (vt_eqb x t) eqn:Q; [apply vt_eqb_eq in Q; subst x; destruct H; now left|].
    rewrite IH by (intros G; apply H; now right). rewrite zlen_cons. destruct (position r t); cbn [option_map]; [f_equal; lia|reflexivity].
Qed.
Lemma znth_map {A B} (f : A -> B) l : forall i, znth (map f l) i = option_map f (znth l i).
Proof. induction l as [|x l IH]; intros i; cbn [map znth]; [reflexivity|]. destruct (i =? 0); [reflexivity|apply IH]. Qed.
Lemma znth_none {A} (l : list A) : forall i, zlen l <= i -> znth l i = None.
Proof.
  induction l as [|x l IH]; intros i H; cbn [znth]; [reflexivity|]. rewrite zlen_cons in H. pose proof (zlen_nonneg l).
  destruct (Z.eqb_spec i 0); [lia|]. apply IH. lia.
Qed.
Lemma znth_neg {A} (l : list A) : forall i, i < 0 -> znth l i = None.
Proof.
  induction l as [|x l IH]; intros i H; cbn [znth]; [reflexivity|]. destruct (Z.eqb_spec i 0); [lia|]. apply IH. lia.
Qed.
Lemma znth_in {A} (l : list A) i : 0 <= i < zlen l -> exists x, znth l i = Some x.
Proof.
  intros H. rewrite FormatProofs.znth_nth_error by lia. destruct (nth_error l (Z.to_nat i)) eqn:E; [eauto|].
  apply nth_error_None in E. unfold zlen in H. lia.
Qed.

(** Hashes of declared types: found if declared, panic if only known as a placeholder. *)
Lemma hash_at_declared D r (f : vtype -> Z) hs t : In t D -> hash_at (D ++ r) (map f D ++ hs) t = Ok (f t).
Proof.
  intros H. destruct (position_first D r t H) as (i & E & Z & R). unfold hash_at. rewrite E. cbn [need rbind].
  rewrite znth_app_l by (unfold zlen in *; rewrite map_length; lia). rewrite znth_map, Z. reflexivity.
Qed.
Lemma hash_at_late D r (f : vtype -> Z) t : ~ In t D -> exists p, hash_at (D ++ r) (map f D) t = Panic p.
Proof.
  intros H. unfold hash_at. rewrite position_late by auto. destruct (position r t) as [i|] eqn:P; cbn [option_map need rbind]; [|eauto].
  apply position_some in P as [_ P]. rewrite znth_none; [cbn; eauto|]. unfold zlen in *. rewrite map_length. lia.
Qed.

(** * [ValueType::hash] *)
Lemma one_of_2 k a b : one_of k [a; b] = (k =? a) || (k =? b). Proof. cbn. now rewrite orb_false_r. Qed.
Lemma one_of_1 k a : one_of k [a] = (k =? a). Proof. cbn. apply orb_false_r. Qed.

Section Body.
Context (isrec : bool) (rec : vtype -> R Z) (deep : vtype -> list Z).
(** What a nested type contributes. *)
Definition nested_ok (u : vtype) : Prop :=
  if isrec then deep u = [] else exists x, rec u = Ok x /\ deep u = enc_le 4 x.
Lemma nested_write u h : nested_ok u -> (if isrec then rret h else x <~ rec u ;; rret (write_u32 h x)) = Ok (hasher_write h (deep u)).
Proof.
  unfold nested_ok. destruct isrec; [intros ->; reflexivity|]. intros (x & -> & ->). reflexivity.
Qed.
Lemma hash_fields_ok fields h : Forall (fun f => nested_ok (fd_t f)) fields ->
  hash_fields isrec rec (zlen fields) fields h =
  Ok (hasher_write h (flat_map (fun f => enc_le 4 (fd_hash f) ++ deep (fd_t f)) fields)).
Proof.
  intros F. unfold hash_fields. apply rfor_writes. intros i f h0 _ Z. rewrite Z. cbn [need rbind]. cbv zeta. rewrite nested_write.
  - now rewrite write_app.
  - apply znth_In in Z. rewrite Forall_forall in F. exact (F _ Z).
Qed.
Lemma hash_body_ok t : counted t -> Forall nested_ok (mentions t) ->
  (isrec = false -> one_of (vt_kind t) [HREF; HNULL] = true -> vt_tparam t <> None) ->
  hash_body isrec rec t = Ok (crc32 (shape deep t)).
Proof.
  intros [C1 C2] M Tp. unfold hash_body, shape, mentions in *. rewrite !one_of_2, !one_of_1 in *. cbv zeta.
  assert (X : forall (m : R hasher) s, m = Ok (hasher_write hasher_new s) -> (h <~ m ;; rret (hasher_finalize h)) = Ok (crc32 s)).
  { intros m s ->. reflexivity. }
  apply X. clear X.
  destruct ((vt_kind t =? HFUN) || (vt_kind t =? HMETHOD)) eqn:K1.
  { destruct (vt_union t) as [args nargs r| | | | | | | ]; try reflexivity. subst nargs. cbv zeta.
    apply Forall_app in M as [Ma Mr]. apply Forall_inv in Mr.
    rewrite (rfor_writes args _ deep).
    - cbn [rbind]. rewrite nested_write by auto. wr. now rewrite !write_app.
    - intros i x h _ Z. rewrite Z. cbn [need rbind]. apply nested_write. apply znth_In in Z. rewrite Forall_forall in Ma. auto. }
  destruct ((vt_kind t =? HOBJ) || (vt_kind t =? HSTRUCT)) eqn:K2.
  { destruct (vt_union t) as [|name super fields nf np nb ps bs gs rt| | | | | | ]; try reflexivity. subst nf. cbv zeta.
    rewrite hash_fields_ok; [wr; now rewrite !write_app|]. now rewrite Forall_map in M. }
  destruct ((vt_kind t =? HREF) || (vt_kind t =? HNULL)) eqn:K3.
  { destruct (vt_tparam t) as [p|].
    - apply Forall_inv in M. cbn [need rbind]. now apply nested_write.
    - destruct isrec; [reflexivity|]. exfalso. now apply Tp. }
  destruct (vt_kind t =? HVIRTUAL) eqn:K4.
  { destruct (vt_union t) as [| |nf fields| | | | | ]; try reflexivity. subst nf. cbv zeta.
    rewrite hash_fields_ok; [wr; now rewrite !write_app|]. now rewrite Forall_map in M. }
  destruct (vt_kind t =? HENUM) eqn:K5.
  { destruct (vt_union t) as [| | |name nc cs gs| | | | ]; try reflexivity. destruct C1 as [-> Cn]. cbv zeta.
    rewrite write_app. apply rfor_writes. intros i c h _ Z. rewrite Z. cbn [need rbind]. cbv zeta.
    apply znth_In in Z. rewrite Forall_forall in Cn. rewrite (Cn _ Z) at 1.
    assert (Mc : Forall nested_ok (ec_params c)).
    { rewrite Forall_forall in *. intros u Hu. apply M. apply in_flat_map. eauto. }
    rewrite (rfor_writes (ec_params c) _ deep).
    - wr. now rewrite !write_app.
    - intros j p h0 _ Zp. rewrite Zp. cbn [need rbind]. apply nested_write. apply znth_In in Zp. rewrite Forall_forall in Mc. auto. }
  destruct (vt_kind t =? HABSTRACT) eqn:K6; [|reflexivity].
  apply Z.eqb_eq in K6. destruct (vt_abs_name t) as [n|]; [reflexivity|]. now destruct (C2 K6).
Qed.
End Body.

Lemma vt_hash_true t : counted t -> vt_hash true t = Ok (inner_hash t).
Proof.
  intros C. unfold vt_hash, vt_hash_rec, inner_hash, inner_shape. apply hash_body_ok; auto; [|discriminate].
  apply Forall_forall. intros. reflexivity.
Qed.
Definition targeted (t : vtype) : Prop := one_of (vt_kind t) [HREF; HNULL] = true -> vt_tparam t <> None.
Lemma vt_hash_false t : counted t -> targeted t -> Forall counted (mentions t) -> vt_hash false t = Ok (outer_hash t).
Proof.
  intros C Tp M. unfold vt_hash, outer_hash, outer_shape. apply hash_body_ok; auto.
  eapply Forall_impl; [|exact M]. intros u Cu. unfold nested_ok. exists (inner_hash u). split; [|reflexivity]. exact (vt_hash_true u Cu).
Qed.

(** * Loops that may panic *)
Definition panics {A} (m : R A) : Prop := exists p, m = Panic p.
Lemma rbind_panics {A B} (m : R A) (k : A -> R B) : panics m -> panics (rbind m k).
Proof. intros [p ->]. exists p. reflexivity. Qed.
Lemma rbind_panics_r {A B} (m : R A) a (k : A -> R B) : m = Ok a -> panics (k a) -> panics (rbind m k).
Proof. intros ->. auto. Qed.
Lemma rloop_fail {A B} (good : A -> Prop) (body : Z -> B -> R B) step : forall (suf pre l : list A) h, l = pre ++ suf ->
  (forall x, good x \/ ~ good x) ->
  (forall i x h, 0 <= i -> znth l i = Some x -> good x -> body i h = Ok (step h x)) ->
  (forall i x h, 0 <= i -> znth l i = Some x -> ~ good x -> panics (body i h)) ->
  ~ Forall good suf -> panics (rloop (length suf) (zlen pre) body h).
Proof.
  induction suf as [|x suf IH]; intros pre l h E Dec H Hb N; cbn [length rloop]; [destruct N; constructor|].
  assert (Z : znth l (zlen pre) = Some x) by (subst; now rewrite znth_app_r0).
  destruct (Dec x) as [G|G]; [|now apply rbind_panics, (Hb _ x); [apply zlen_nonneg| |]].
  rewrite (H (zlen pre) x h (zlen_nonneg _) Z G). cbn [rbind].
  replace (zlen pre + 1) with (zlen (pre ++ [x])) by (rewrite zlen_app; reflexivity).
  eapply IH; [rewrite <- app_assoc; exact E|exact Dec|exact H|exact Hb|]. intros F. apply N. now constructor.
Qed.
Lemma rfor_fail {A B} (good : A -> Prop) (l : list A) (body : Z -> B -> R B) step h :
  (forall x, good x \/ ~ good x) ->
  (forall i x h, 0 <= i -> znth l i = Some x -> good x -> body i h = Ok (step h x)) ->
  (forall i x h, 0 <= i -> znth l i = Some x -> ~ good x -> panics (body i h)) ->
  ~ Forall good l -> panics (rfor (zlen l) body h).
Proof.
  intros Dec H Hb N. unfold rfor. replace (Z.to_nat (zlen l)) with (length l) by (unfold zlen; lia).
  exact (rloop_fail good body step l [] l h eq_refl Dec H Hb N).
Qed.
Lemma vt_eq_dec (a b : vtype) : {a = b} + {a <> b}.
Proof. destruct (vt_eqb a b) eqn:E; [left; now apply vt_eqb_eq|right; intros ->; rewrite (proj2 (vt_eqb_eq b b) eq_refl) in E; discriminate]. Qed.
Lemma In_D_dec (D : list vtype) t : In t D \/ ~ In t D. Proof. destruct (in_dec vt_eq_dec t D); auto. Qed.
Lemma all_in_dec (D l : list vtype) : Forall (fun t => In t D) l \/ ~ Forall (fun t => In t D) l.
Proof. destruct (Forall_dec (fun t => In t D) (fun t => in_dec vt_eq_dec t D) l); auto. Qed.

(** * [hash_type_rec] *)
Section Rec.
Context (D r : list vtype) (f : vtype -> Z).
Let wt := write_type (D ++ r) (map f D).
Lemma wt_in t h : In t D -> wt t h = Ok (hasher_write h (enc_le 4 (f t))).
Proof. intros H. unfold wt, write_type. rewrite <- (app_nil_r (map f D)). rewrite hash_at_declared by auto. reflexivity. Qed.
Lemma wt_out t h : ~ In t D -> panics (wt t h).
Proof. intros H. unfold wt, write_type. destruct (hash_at_late D r f t H) as [p ->]. exists p. reflexivity. Qed.

Lemma write_list_in {A} (g : A -> vtype) (l : list A) h : Forall (fun x => In (g x) D) l ->
  rfor (zlen l) (fun i h => x <~ need PUnwrap (znth l i) ;; wt (g x) h) h = Ok (hasher_write h (flat_map (fun x => enc_le 4 (f (g x))) l)).
Proof.
  intros F. apply rfor_writes. intros i x h0 _ Z. rewrite Z. cbn [need rbind]. apply wt_in.
  apply znth_In in Z. rewrite Forall_forall in F. exact (F _ Z).
Qed.
Lemma write_list_out {A} (g : A -> vtype) (l : list A) h : ~ Forall (fun x => In (g x) D) l ->
  panics (rfor (zlen l) (fun i h => x <~ need PUnwrap (znth l i) ;; wt (g x) h) h).
Proof.
  intros N. apply (rfor_fail (fun x => In (g x) D) l _ (fun h x => hasher_write h (enc_le 4 (f (g x))))); auto.
  - intros x. apply In_D_dec.
  - intros i x h0 _ Z G. rewrite Z. cbn [need rbind]. now apply wt_in.
  - intros i x h0 _ Z G. rewrite Z. cbn [need rbind]. now apply wt_out.
Qed.
Lemma flat_map_map {A B C} (g : A -> B) (h : B -> list C) l : flat_map h (map g l) = flat_map (fun x => h (g x)) l.
Proof. induction l; cbn; [reflexivity|now rewrite IHl]. Qed.
Lemma flat_map_flat_map {A B C} (g : A -> list B) (h : B -> list C) l : flat_map h (flat_map g l) = flat_map (fun x => flat_map h (g x)) l.
Proof. induction l; cbn; [reflexivity|now rewrite flat_map_app, IHl]. Qed.

Lemma hash_type_rec_in ch pos t : c_types (ch_code ch) = D ++ r -> ch_type_hashes ch = map f D ->
  znth (D ++ r) pos = Some t -> counted t -> targeted t -> Forall (fun u => In u D) (mixed t) ->
  hash_type_rec ch pos = Ok (crc32 (flat_map (fun u => enc_le 4 (f u)) (mixed t))).
Proof.
  intros E1 E2 Z [C1 C2] Tp M. unfold hash_type_rec. rewrite E1, E2, Z. cbn [need rbind]. fold wt. cbv zeta.
  unfold mixed, mentions, targeted in *. rewrite !one_of_2, !one_of_1 in *.
  assert (X : forall (m : R hasher) s, m = Ok (hasher_write hasher_new s) -> (h <~ m ;; rret (hasher_finalize h)) = Ok (crc32 s)).
  { intros m s ->. reflexivity. }
  apply X. clear X.
  destruct ((vt_kind t =? HFUN) || (vt_kind t =? HMETHOD)) eqn:K1.
  { assert (vt_kind t =? HVIRTUAL = false) as KV by (unfold HFUN, HMETHOD, HVIRTUAL in *; lia). rewrite KV in *.
    destruct (vt_union t) as [args nargs rr| | | | | | | ]; try reflexivity. subst nargs.
    apply Forall_app in M as [Ma Mr]. apply Forall_inv in Mr.
    rewrite (write_list_in (fun x => x)) by auto. cbn [rbind]. rewrite wt_in by auto. rewrite <- write_app.
    rewrite flat_map_app. cbn [flat_map]. rewrite app_nil_r. reflexivity. }
  destruct ((vt_kind t =? HOBJ) || (vt_kind t =? HSTRUCT)) eqn:K2.
  { assert (vt_kind t =? HVIRTUAL = false) as KV by (unfold HOBJ, HSTRUCT, HVIRTUAL in *; lia). rewrite KV in *.
    destruct (vt_union t) as [|name super fields nf np nb ps bs gs rt| | | | | | ]; try reflexivity. subst nf.
    rewrite flat_map_map. apply (write_list_in (@fd_t vtype)). now rewrite Forall_map in M. }
  destruct ((vt_kind t =? HREF) || (vt_kind t =? HNULL)) eqn:K3.
  { assert (vt_kind t =? HVIRTUAL = false) as KV by (unfold HREF, HNULL, HVIRTUAL in *; lia). rewrite KV in *.
    destruct (vt_tparam t) as [p|]; [|exfalso; now apply Tp].
    apply Forall_inv in M. cbn [need rbind flat_map]. rewrite app_nil_r. now apply wt_in. }
  destruct (vt_kind t =? HENUM) eqn:K5.
  { assert (vt_kind t =? HVIRTUAL = false) as KV by (unfold HENUM, HVIRTUAL in *; lia). rewrite KV in *.
    destruct (vt_union t) as [| | |name nc cs gs| | | | ]; try reflexivity. destruct C1 as [-> Cn].
    rewrite flat_map_flat_map. apply rfor_writes. intros i c h _ Zc. rewrite Zc. cbn [need rbind].
    apply znth_In in Zc. rewrite Forall_forall in Cn. rewrite (Cn _ Zc).
    apply (write_list_in (fun x => x)). rewrite Forall_forall in *. intros u Hu. apply M. apply in_flat_map. eauto. }
  destruct (vt_kind t =? HVIRTUAL); reflexivity.
Qed.
Lemma hash_type_rec_out ch pos t : c_types (ch_code ch) = D ++ r -> ch_type_hashes ch = map f D ->
  znth (D ++ r) pos = Some t -> counted t -> ~ Forall (fun u => In u D) (mixed t) -> panics (hash_type_rec ch pos).
Proof.
  intros E1 E2 Z [C1 C2] M. unfold hash_type_rec. rewrite E1, E2, Z. cbn [need rbind]. fold wt. cbv zeta.
  unfold mixed, mentions in *. rewrite !one_of_2, !one_of_1 in *. apply rbind_panics.
  destruct ((vt_kind t =? HFUN) || (vt_kind t =? HMETHOD)) eqn:K1.
  { assert (vt_kind t =? HVIRTUAL = false) as KV by (unfold HFUN, HMETHOD, HVIRTUAL in *; lia). rewrite KV in *.
    destruct (vt_union t) as [args nargs rr| | | | | | | ]; try (destruct M; constructor). subst nargs.
    destruct (all_in_dec D args) as [Ha|Ha].
    - rewrite (write_list_in (fun x => x)) by auto. cbn [rbind]. apply wt_out. intros G. apply M. apply Forall_app. auto.
    - apply rbind_panics, (write_list_out (fun x => x)). exact Ha. }
  destruct ((vt_kind t =? HOBJ) || (vt_kind t =? HSTRUCT)) eqn:K2.
  { assert (vt_kind t =? HVIRTUAL = false) as KV by (unfold HOBJ, HSTRUCT, HVIRTUAL in *; lia). rewrite KV in *.
    destruct (vt_union t) as [|name super fields nf np nb ps bs gs rt| | | | | | ]; try (destruct M; constructor). subst nf.
    apply (write_list_out (@fd_t vtype)). now rewrite Forall_map in M. }
  destruct ((vt_kind t =? HREF) || (vt_kind t =? HNULL)) eqn:K3.
  { assert (vt_kind t =? HVIRTUAL = false) as KV by (unfold HREF, HNULL, HVIRTUAL in *; lia). rewrite KV in *.
    destruct (vt_tparam t) as [p|]; [|destruct M; constructor].
    cbn [need rbind]. apply wt_out. intros G. apply M. auto. }
  destruct (vt_kind t =? HENUM) eqn:K5.
  { assert (vt_kind t =? HVIRTUAL = false) as KV by (unfold HENUM, HVIRTUAL in *; lia). rewrite KV in *.
    destruct (vt_union t) as [| | |name nc cs gs| | | | ]; try (destruct M; constructor). destruct C1 as [-> Cn].
    apply (rfor_fail (fun c => Forall (fun u => In u D) (ec_params c)) cs _
             (fun h c => hasher_write h (flat_map (fun u => enc_le 4 (f u)) (ec_params c)))).
    - intros c. apply all_in_dec.
    - intros i c h _ Zc G. rewrite Zc. cbn [need rbind]. apply znth_In in Zc. rewrite Forall_forall in Cn. rewrite (Cn _ Zc).
      now apply (write_list_in (fun x => x)).
    - intros i c h _ Zc G. rewrite Zc. cbn [need rbind]. apply znth_In in Zc. rewrite Forall_forall in Cn. rewrite (Cn _ Zc).
      now apply (write_list_out (fun x => x)).
    - intros F. apply M. rewrite Forall_forall in *. intros u Hu. apply in_flat_map in Hu as (c & Hc & Hu).
      specialize (F c Hc). rewrite Forall_forall in F. auto. }
  destruct (vt_kind t =? HVIRTUAL); destruct M; constructor.
Qed.
End Rec.
