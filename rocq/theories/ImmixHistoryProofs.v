(** From histories to the invariant, and the lemmas behind the theorems of PropsImmix.v. *)
From Coq Require Import Lia ZifyBool Permutation.
From Verif Require Import Prelude ImmixModel ImmixSpec ImmixBlockProofs ImmixHeapProofs.
Ltac Zify.zify_post_hook ::= Z.div_mod_to_equations.

Lemma reach_Inv E H m objs s : sys_ok E -> hdr_ok H -> reach E H m objs s -> Inv E H objs s.
Proof.
  intros HE HH Hr. induction Hr as [|objs s o r s' Hr IH Hleg Hex]; [apply Inv_init|].
  destruct o as [ob|n|p off bs]; cbn [exec abs_step op_legal] in *.
  - rewrite request_alloc in Hex by (apply IH || assumption).
    eapply Inv_request in Hex; [|exact HE|exact HH|exact IH|reflexivity|intros; apply (ho_new H HH)].
    destruct r as [p|[]|p]; [exact (proj1 Hex)|destruct Hex as [-> _]; exact IH|exact (proj1 Hex)|destruct Hex].
  - rewrite request_array in Hex by (apply IH || assumption).
    eapply Inv_request in Hex; [|exact HE|exact HH|exact IH|apply zlen_repeat; lia|intros; apply (ho_new_array H HH)].
    destruct r as [p|[]|p]; [exact (proj1 Hex)|destruct Hex as [-> _]; exact IH|exact (proj1 Hex)|destruct Hex].
  - injection Hex as <- <-. apply Inv_write; assumption.
Qed.

(** The unique shape of an allocation request in a reachable state. *)
Definition data_of (o : op) : list Z :=
  match o with OpAlloc ob => ob_bytes ob | OpAllocArray n => zrepeat 0 n | _ => [] end.
Definition hdr_of (H : header_impl) (o : op) (c : size_class) : list Z :=
  match o with
  | OpAlloc ob => h_new H (ob_tid ob) (zlen (ob_bytes ob)) c Allocated
  | OpAllocArray n => h_new_array H n c Allocated
  | _ => [] end.

Lemma exec_request E H objs s o n :
  hdr_ok H -> good E s -> op_legal objs o -> payload_of o = Some n ->
  exec E H s o = request E H s n (hdr_of H o) (data_of o) /\ zlen (data_of o) = n
  /\ (forall c, zlen (hdr_of H o c) = h_size H).
Proof.
  intros HH Hg Hl Hp. destruct o as [ob|k|? ? ?]; cbn in Hp; [| |discriminate]; injection Hp as <-; cbn [exec op_legal] in *.
  - split; [apply request_alloc; assumption|]. split; [reflexivity|]. intros; apply (ho_new H HH).
  - split; [apply request_array; assumption|]. split; [apply zlen_repeat; lia|]. intros; apply (ho_new_array H HH).
Qed.

Lemma place_needs E s size :
  0 < size <= 32752 ->
  (needs_block (hs_blocks s) size ->
     w_calls (hs_world (snd (place E s size))) = S (w_calls (hs_world s))
     /\ match sys E (w_calls (hs_world s)) L with
        | None => fst (place E s size) = Err OOM
        | Some p => fst (place E s size) = Ok (p + 16)
        end)
  /\ (~ needs_block (hs_blocks s) size ->
     hs_world (snd (place E s size)) = hs_world s
     /\ exists b, fst (place E s size) = Ok (base_of b + bb_cursor b)
        /\ match head (hs_blocks s) with
           | Some hd => if size <=? unused hd then b = hd
                        else 128 < size /\ overflow (hs_blocks s) = Some b /\ size <= unused b
           | None => False end).
Proof.
  intros Hs. unfold place, needs_block, unused, room.
  destruct (head (hs_blocks s)) as [hd|].
  - destruct (Z.leb_spec size (32768 - bb_cursor hd)) as [Hf|Hf].
    + split; [lia|]. intros _. split; [reflexivity|]. exists hd. split; reflexivity.
    + destruct (Z.leb_spec size 128) as [H1|H1].
      * split; [|lia]. intros _. destruct (sys E _ L); split; reflexivity.
      * destruct (overflow (hs_blocks s)) as [ov|].
        -- destruct (Z.leb_spec size (32768 - bb_cursor ov)) as [Hg|Hg].
           ++ split; [lia|]. intros _. split; [reflexivity|]. exists ov. repeat split; lia.
           ++ split; [|lia]. intros _. destruct (sys E _ L); split; reflexivity.
        -- split; [|lia]. intros _. destruct (sys E _ L); split; reflexivity.
  - split; [|tauto]. intros _. destruct (sys E _ L); split; reflexivity.
Qed.

Lemma place_no_panic E s size p s' : place E s size <> (Panic p, s').
Proof.
  unfold place. intros Hc.
  destruct (head (hs_blocks s)) as [hd|]; [destruct (size <=? room hd); [congruence|];
    destruct (size <=? 128); [|destruct (overflow (hs_blocks s)) as [ov|]; [destruct (size <=? room ov); [congruence|]|]]|];
    destruct (sys E (w_calls (hs_world s)) L); congruence.
Qed.

(** Result of any legal request in any reachable state. *)
Lemma exec_result E H m objs s o n r s' :
  sys_ok E -> hdr_ok H -> reach E H m objs s -> op_legal objs o -> payload_of o = Some n ->
  exec E H s o = (r, s') ->
  let sz := storage_size (h_size H) n in
  ((sz = 0 \/ 32752 < sz) -> r = Err BadRequest /\ s' = s)
  /\ (0 < sz <= 32752 -> needs_block (hs_blocks s) sz ->
      w_calls (hs_world s') = S (w_calls (hs_world s)) /\
      match sys E (w_calls (hs_world s)) L with
      | None => r = Err OOM /\ hs_blocks s' = hs_blocks s /\ w_mem (hs_world s') = w_mem (hs_world s)
      | Some p => r = Ok (p + 16 + h_size H)
      end)
  /\ (0 < sz <= 32752 -> ~ needs_block (hs_blocks s) sz ->
      w_calls (hs_world s') = w_calls (hs_world s) /\
      exists b, r = Ok (base_of b + bb_cursor b + h_size H)
        /\ match head (hs_blocks s) with
           | Some hd => if sz <=? unused hd then b = hd
                        else 128 < sz /\ overflow (hs_blocks s) = Some b /\ sz <= unused b
           | None => False end).
Proof.
  intros HE HH Hr Hl Hp Hex sz.
  pose proof (reach_Inv _ _ _ _ _ HE HH Hr) as HI.
  destruct (exec_request E H objs s o n HH (inv_good _ _ _ _ HI) Hl Hp) as (Heq & Hd & Hh).
  rewrite Heq in Hex. unfold request in Hex. fold sz in Hex.
  destruct (class_ok sz) eqn:Hc; unfold class_ok in Hc.
  - apply andb_true_iff in Hc as [Hc1 Hc2].
    pose proof (place_needs E s sz ltac:(lia)) as [Hn1 Hn2].
    pose proof (place_outcome E s sz ltac:(lia)) as Hout.
    destruct (place E s sz) as [[sp|e|p] s1] eqn:Hpl; cbn [fst snd] in *.
    + injection Hex as <- <-. split; [lia|]. split.
      * intros _ Hn. destruct (Hn1 Hn) as [Hcalls Hs]. split; [exact Hcalls|].
        destruct (sys E (w_calls (hs_world s)) L); [congruence|discriminate].
      * intros _ Hn. destruct (Hn2 Hn) as (Hw & b & Hb & Hrest).
        split; [cbn; rewrite Hw; reflexivity|]. exists b. split; [congruence|exact Hrest].
    + injection Hex as <- <-. split; [lia|]. split.
      * intros _ Hn. destruct (Hn1 Hn) as [Hcalls Hs]. split; [exact Hcalls|].
        destruct (sys E (w_calls (hs_world s)) L) eqn:Hsys; [discriminate|].
        inversion Hout; subst. split; [reflexivity|]. split; reflexivity.
      * intros _ Hn. destruct (Hn2 Hn) as (Hw & b & Hb & Hrest). discriminate.
    + exfalso. eapply place_no_panic; exact Hpl.
  - injection Hex as <- <-. split; [auto|]. split; intros H0; exfalso; apply andb_false_iff in Hc as [Hc|Hc]; lia.
Qed.

Lemma needs_block_dec bl sz : needs_block bl sz \/ ~ needs_block bl sz.
Proof.
  unfold needs_block. destruct (head bl) as [hd|]; [|auto].
  destruct (overflow bl) as [ov|]; unfold unused; lia.
Qed.

Lemma storage_nonneg hs n : 0 <= hs -> 0 <= n -> 0 <= storage_size hs n.
Proof. unfold storage_size; lia. Qed.

Lemma payload_nonneg objs o n : op_legal objs o -> payload_of o = Some n -> 0 <= n.
Proof.
  destruct o; cbn; intros Hl Hp; injection Hp as <- || discriminate; [apply zlen_nonneg|lia].
Qed.

(** ** Masking *)
Lemma land_mask p : 0 <= p < 2 ^ 64 -> Z.land p BLOCK_PTR_MASK = 32768 * (p / 32768).
Proof.
  intros Hp. unfold BLOCK_PTR_MASK, unot. rewrite BLOCK_SIZE_eq, UMAX_eq.
  change (18446744073709551615 - (32768 - 1)) with (Z.shiftl (Z.ones 49) 15).
  apply Z.bits_inj'. intros i Hi. rewrite Z.land_spec.
  replace (32768 * (p / 32768)) with (Z.shiftl (Z.shiftr p 15) 15)
    by (rewrite Z.shiftl_mul_pow2, Z.shiftr_div_pow2 by lia; change (2 ^ 15) with 32768; lia).
  rewrite !Z.shiftl_spec by assumption.
  destruct (Z_lt_dec i 15) as [Hlt|Hge].
  - rewrite (Z.testbit_neg_r _ (i - 15)) by lia. rewrite Bool.andb_false_r.
    rewrite Z.testbit_neg_r by lia. reflexivity.
  - rewrite Z.shiftr_spec by lia. replace (i - 15 + 15) with i by lia.
    destruct (Z_lt_dec i 64) as [H64|H64].
    + rewrite Z.ones_spec_low by lia. apply Bool.andb_true_r.
    + rewrite Z.ones_spec_high by lia. rewrite Bool.andb_false_r.
      symmetry. apply Z.bits_above_log2; [lia|].
      destruct (Z.eq_dec p 0) as [->|Hne]; [rewrite Z.log2_nonpos by lia; lia|].
      assert (Z.log2 p < 64) by (apply Z.log2_lt_pow2; lia). lia.
Qed.

(** ** Powers of two *)
Lemma is_power_of_two_spec n : is_power_of_two n = true <-> pow2 n.
Proof.
  unfold is_power_of_two, pow2. split.
  - intros H. apply andb_true_iff in H as [H0 Hl].
    assert (0 < n) as Hn by lia. assert (Z.land n (n - 1) = 0) as Hl0 by lia.
    exists (Z.log2 n). split; [apply Z.log2_nonneg|].
    destruct (Z.log2_spec n Hn) as [Hlo Hhi].
    destruct (Z.eq_dec n (2 ^ Z.log2 n)) as [He|He]; [exact He|exfalso].
    assert (Z.log2 (n - 1) = Z.log2 n) as Hlog.
    { apply Z.log2_unique; [apply Z.log2_nonneg|]. lia. }
    assert (0 < 2 ^ Z.log2 n) by (apply Z.pow_pos_nonneg; [lia|apply Z.log2_nonneg]).
    assert (Z.testbit (Z.land n (n - 1)) (Z.log2 n) = true) as Hb.
    { rewrite Z.land_spec, Z.bit_log2 by assumption.
      rewrite <- Hlog at 1. rewrite Z.bit_log2 by lia. reflexivity. }
    rewrite Hl0, Z.bits_0 in Hb. discriminate.
  - intros (k & Hk & ->).
    assert (0 < 2 ^ k) by (apply Z.pow_pos_nonneg; lia).
    apply andb_true_iff. split; [lia|].
    replace (2 ^ k - 1) with (Z.ones k) by (rewrite Z.ones_equiv; lia).
    rewrite Z.land_ones by assumption. rewrite Z.mod_same by lia. reflexivity.
Qed.

(** ** Releasing the heap *)
Lemma heap_drop_freed E H m objs s : sys_ok E -> hdr_ok H -> reach E H m objs s ->
  w_freed (hs_world s) = []
  /\ Permutation (w_freed (heap_drop s)) (map (fun p => (p, L)) (granted E (w_calls (hs_world s))))
  /\ Permutation (map base_of (heap_blocks (hs_blocks s))) (granted E (w_calls (hs_world s)))
  /\ NoDup (granted E (w_calls (hs_world s))).
Proof.
  intros HE HH Hr. pose proof (reach_Inv _ _ _ _ _ HE HH Hr) as HI.
  pose proof HI as [Hgood Hgr _ _ _ _ Hfr _].
  split; [exact Hfr|]. split; [|split; [exact Hgr|apply granted_nodup; exact HE]].
  unfold heap_drop.
  assert (forall bs w, Forall (bok E (w_calls (hs_world s))) bs ->
     Permutation (w_freed (fold_left (fun w b => block_drop w (bb_block b)) bs w))
                 (map (fun p => (p, L)) (map base_of bs) ++ w_freed w)) as Hgen.
  { induction bs as [|b bs IH]; intros w Hb; cbn [fold_left map app]; [reflexivity|].
    inversion Hb as [|? ? Hb1 Hb2]; subst. rewrite IH by assumption.
    unfold block_drop, dealloc_block; cbn [w_freed]. rewrite (bk_size _ _ _ Hb1).
    fold (base_of b). fold L. symmetry. apply Permutation_middle. }
  rewrite (Hgen _ _ Hgood), Hfr, app_nil_r. apply Permutation_map. exact Hgr.
Qed.

(** ** Retired blocks *)
Lemma ForallOrdPairs_nth {A} (R : A -> A -> Prop) l :
  ForallOrdPairs R l -> forall i j x y, (i < j)%nat ->
  nth_error l i = Some x -> nth_error l j = Some y -> R x y.
Proof.
  induction 1 as [|a l Ha Hl IH]; intros i j x y Hij Hi Hj; [destruct i; discriminate|].
  destruct i as [|i]; destruct j as [|j]; try lia; cbn in *.
  - injection Hi as <-. rewrite Forall_forall in Ha. apply Ha. eapply nth_error_In; exact Hj.
  - eapply IH; [|exact Hi|exact Hj]. lia.
Qed.

Lemma mem_read_zero m a n : mem_read m a n = repeat 0 n -> forall i, 0 <= i < Z.of_nat n -> m (a + i) = 0.
Proof.
  intros Hr i Hi. replace i with (Z.of_nat (Z.to_nat i)) by lia.
  rewrite <- (mem_read_nth m a n (Z.to_nat i) 0) by lia. rewrite Hr.
  apply nth_repeat.
Qed.

(** ** The witnesses are legal *)
Lemma env_ex_ok : sys_ok env_ex.
Proof.
  split.
  - intros i [sz al] p; cbn [sys env_ex l_size l_align]. intros Hs.
    destruct ((sz =? 32768) && (al =? 32768) && Nat.ltb i 1000)%bool eqn:Hc; [|discriminate].
    apply andb_true_iff in Hc as [Hc Hi]. apply Nat.ltb_lt in Hi.
    assert (p = 32768 * (Z.of_nat i + 1)) by congruence. lia.
  - intros i j [sz al] [sz' al'] p p' Hij; cbn [sys env_ex l_size l_align]. intros Hs Hs'.
    destruct ((sz =? 32768) && (al =? 32768) && Nat.ltb i 1000)%bool eqn:Hc; [|discriminate].
    destruct ((sz' =? 32768) && (al' =? 32768) && Nat.ltb j 1000)%bool eqn:Hc'; [|discriminate].
    apply andb_true_iff in Hc as [Hc _]. apply andb_true_iff in Hc' as [Hc' _].
    assert (p = 32768 * (Z.of_nat i + 1)) by congruence.
    assert (p' = 32768 * (Z.of_nat j + 1)) by congruence. lia.
  - intros i; cbn [boxaddr env_ex]. apply Z.mod_pos_bound. reflexivity.
Qed.

Lemma env_none_ok : sys_ok env_none.
Proof. split; cbn; [discriminate|discriminate|lia]. Qed.

Lemma hdr_ex_ok k : Z.of_nat k < 2 ^ 63 -> hdr_ok (hdr_ex k).
Proof.
  intros Hk. split; [cbn; lia| |]; intros; cbn [hdr_ex h_new h_new_array h_size]; unfold zlen;
    rewrite firstn_length; cbn [length]; rewrite repeat_length; lia.
Qed.
