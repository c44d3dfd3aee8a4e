(** Which panics hashing can raise: only failed [unwrap]s and indexing out of range. *)
From Coq Require Import Lia.
From Verif Require Import Prelude StdModel BrassTypes DecoderModel HashModel HashSpec.

Definition Pk {A} (r : R A) : Prop := match r with Panic p => lookup_panic p | _ => True end.

Lemma pk_ret {A} (a : A) : Pk (rret a). Proof. exact I. Qed.
Lemma pk_bind {A B} (m : R A) (k : A -> R B) : Pk m -> (forall a, Pk (k a)) -> Pk (rbind m k).
Proof. destruct m; cbn; auto. Qed.
Lemma pk_unwrap {A} (o : option A) : Pk (need PUnwrap o). Proof. destruct o; cbn; [exact I|left; reflexivity]. Qed.
Lemma pk_index {A} (o : option A) : Pk (need PIndex o). Proof. destruct o; cbn; [exact I|right; reflexivity]. Qed.
Lemma pk_loop {A} n : forall i (body : Z -> A -> R A) acc, (forall i a, Pk (body i a)) -> Pk (rloop n i body acc).
Proof. induction n as [|n IH]; intros i body acc H; cbn [rloop]; [exact I|]. apply pk_bind; auto. Qed.
Lemma pk_for {A} n (body : Z -> A -> R A) acc : (forall i a, Pk (body i a)) -> Pk (rfor n body acc).
Proof. apply pk_loop. Qed.
Lemma pk_try x : Pk (try_usize x). Proof. unfold try_usize. destruct (x <? 0); cbn; [left; reflexivity|exact I]. Qed.

Ltac pk := repeat (match goal with
  | |- Pk (rret _) => apply pk_ret
  | |- Pk (rbind _ _) => apply pk_bind; [|intros]
  | |- Pk (need PUnwrap _) => apply pk_unwrap
  | |- Pk (need PIndex _) => apply pk_index
  | |- Pk (rloop _ _ _ _) => apply pk_loop; intros
  | |- Pk (rfor _ _ _) => apply pk_for; intros
  | |- Pk (try_usize _) => apply pk_try
  | |- Pk (if ?c then _ else _) => destruct c
  | |- Pk (match ?u with FuncType _ _ _ => _ | _ => _ end) => destruct u
  | |- Pk (match ?o with Some _ => _ | None => _ end) => destruct o
  end; cbv zeta; auto).

Lemma pk_body rec t : (forall x, Pk (rec x)) -> Pk (hash_body false rec t).
Proof. intros H. unfold hash_body, hash_fields. pk. Qed.
Lemma pk_rec t : Pk (vt_hash_rec t).
Proof. unfold vt_hash_rec, hash_body, hash_fields. pk. Qed.
Lemma pk_vt_hash b t : Pk (vt_hash b t).
Proof. destruct b; cbn [vt_hash]; [apply pk_rec|apply pk_body, pk_rec]. Qed.
Lemma pk_hash_at types hs t : Pk (hash_at types hs t). Proof. unfold hash_at. pk. Qed.
Lemma pk_write_type types hs t h : Pk (write_type types hs t h).
Proof. unfold write_type. pk. apply pk_hash_at. Qed.
Lemma pk_type_rec ch i : Pk (hash_type_rec ch i).
Proof. unfold hash_type_rec. pk; apply pk_write_type. Qed.
Lemma pk_code_type ch t : Pk (code_hash_type ch t).
Proof. unfold code_hash_type. pk. apply pk_write_type. Qed.

Lemma zinsert_some {A} (l : list A) : forall i x, 0 <= i <= zlen l -> exists l', zinsert l i x = Some l' /\ zlen l' = zlen l + 1.
Proof.
  induction l as [|y l IH]; intros i x H; cbn [zinsert]; destruct (Z.eqb_spec i 0) as [->|N].
  - eexists. split; [reflexivity|]. unfold zlen. cbn. lia.
  - change (zlen (@nil A)) with 0 in H. lia.
  - eexists. split; [reflexivity|]. unfold zlen. cbn [length]. lia.
  - assert (E : zlen (y :: l) = zlen l + 1) by (unfold zlen; cbn [length]; lia). rewrite E in H |- *.
    destruct (IH (i - 1) x) as (l' & -> & L); [lia|]. cbn. eexists. split; [reflexivity|]. unfold zlen in *. cbn [length]. lia.
Qed.
Lemma pk_types2 ch c : Pk (alloc_types2 ch c).
Proof.
  unfold alloc_types2, rfor.
  enough (H : forall n i l, 0 <= i -> i <= zlen l -> Pk (rloop n i (fun i l =>
    a <~ need PIndex (znth (ch_type_hashes ch) i) ;; b <~ hash_type_rec ch i ;; need PInsert (zinsert l i (Z.lxor a b))) l))
    by (apply H; [|unfold zlen]; lia).
  induction n as [|n IH]; intros i l H0 H; cbn [rloop]; [exact I|].
  destruct (znth (ch_type_hashes ch) i) as [a|]; cbn [need rbind]; [|right; reflexivity].
  pose proof (pk_type_rec ch i) as K. destruct (hash_type_rec ch i) as [b|e|p]; cbn [rbind]; [|exact I|exact K].
  destruct (zinsert_some l i (Z.lxor a b)) as (l' & -> & L); [lia|]. cbn [need rbind]. apply IH; lia.
Qed.
Lemma pk_alloc c : Pk (alloc c).
Proof.
  unfold alloc, alloc_indexes, alloc_types1, alloc_globals1, alloc_globals2, alloc_constants, hash_constant, alloc_boot, alloc_finish.
  pk; try apply pk_types2; try apply pk_vt_hash; try apply pk_code_type.
Qed.

Lemma pk_hash_native ch n : Pk (hash_native ch n). Proof. unfold hash_native. pk. apply pk_write_type. Qed.
Lemma pk_fun_sign ch f : Pk (hash_fun_sign ch f).
Proof. unfold hash_fun_sign. pk. apply pk_write_type. Qed.
Lemma pk_hfun ch h i : Pk (hfun ch h i). Proof. unfold hfun. pk. Qed.
Lemma pk_op ch o h : Pk (hash_op ch o h).
Proof. unfold hash_op, write_call, write_extras, write_extra, write_p. pk; try apply pk_hfun; try apply pk_write_type. Qed.
Lemma pk_hash_fun ch f : Pk (hash_fun ch f).
Proof. unfold hash_fun. pk; try apply pk_op; try apply pk_write_type. Qed.
Lemma pk_finalize ch : Pk (finalize ch).
Proof. unfold finalize. pk; try apply pk_hash_native; try apply pk_fun_sign; try apply pk_hash_fun. Qed.

Lemma panic_kind {A} (r : R A) p : Pk r -> r = Panic p -> lookup_panic p.
Proof. intros K ->. exact K. Qed.
