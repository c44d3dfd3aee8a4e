(** Theorems C01-C22: the allocator crate [stickyimmix].
    Vocabulary: ImmixSpec.v.  Model: ImmixModel.v. *)
From Coq Require Import Lia ZifyBool Permutation.
From Verif Require Import Prelude ImmixModel ImmixSpec.
From Verif Require Import ImmixBlockProofs ImmixHeapProofs ImmixHistoryProofs.
Ltac Zify.zify_post_hook ::= Z.div_mod_to_equations.

(** * A concrete history used to show that the hypotheses below can be met *)
Lemma reach_exec E H m objs s o : reach E H m objs s -> op_legal objs o ->
  reach E H m (abs_step H objs o (fst (exec E H s o))) (snd (exec E H s o)).
Proof. intros Hr Hl. eapply reach_step; [exact Hr|exact Hl|apply surjective_pairing]. Qed.

Definition ex_obj : object := {| ob_tid := 7; ob_bytes := [1; 2; 3; 4; 5] |}.
Definition ex_h : header_impl := hdr_ex 8.
Definition ex_m : memory := fun x => x mod 251.
Definition ex_s1 := snd (exec env_ex ex_h (state0 ex_m) (OpAlloc ex_obj)).
Definition ex_s2 := snd (exec env_ex ex_h ex_s1 (OpAllocArray 32700)).
Definition ex_s3 := snd (exec env_ex ex_h ex_s2 (OpAllocArray 300)).
Definition ex_s4 := snd (exec env_ex ex_h ex_s3 (OpWrite 32792 1 [9; 9])).

Definition ex_objs1 := abs_step ex_h [] (OpAlloc ex_obj) (Ok 32792).
Definition ex_objs2 := abs_step ex_h ex_objs1 (OpAllocArray 32700) (Ok 32808).
Definition ex_objs3 := abs_step ex_h ex_objs2 (OpAllocArray 300) (Ok 65560).
Definition ex_objs4 := abs_step ex_h ex_objs3 (OpWrite 32792 1 [9; 9]) (Ok 32792).

Example ex_reach1 : reach env_ex ex_h ex_m ex_objs1 ex_s1.
Proof.
  replace ex_objs1 with (abs_step ex_h [] (OpAlloc ex_obj) (fst (exec env_ex ex_h (state0 ex_m) (OpAlloc ex_obj))))
    by (vm_compute; reflexivity).
  apply reach_exec; [constructor|]. cbn. lia.
Qed.
Example ex_reach2 : reach env_ex ex_h ex_m ex_objs2 ex_s2.
Proof.
  replace ex_objs2 with (abs_step ex_h ex_objs1 (OpAllocArray 32700) (fst (exec env_ex ex_h ex_s1 (OpAllocArray 32700)))).
  2:{ assert (fst (exec env_ex ex_h ex_s1 (OpAllocArray 32700)) = Ok 32808) as -> by (vm_compute; reflexivity). reflexivity. }
  apply reach_exec; [apply ex_reach1|]. cbn. lia.
Qed.
Example ex_reach3 : reach env_ex ex_h ex_m ex_objs3 ex_s3.
Proof.
  replace ex_objs3 with (abs_step ex_h ex_objs2 (OpAllocArray 300) (fst (exec env_ex ex_h ex_s2 (OpAllocArray 300)))).
  2:{ assert (fst (exec env_ex ex_h ex_s2 (OpAllocArray 300)) = Ok 65560) as -> by (vm_compute; reflexivity). reflexivity. }
  apply reach_exec; [apply ex_reach2|]. cbn. lia.
Qed.
Example ex_reach4 : reach env_ex ex_h ex_m ex_objs4 ex_s4.
Proof.
  apply (reach_exec env_ex ex_h ex_m ex_objs3 ex_s3 (OpWrite 32792 1 [9; 9])); [apply ex_reach3|].
  exists {| a_ptr := 32792; a_hdr := [7; 5; 0; 0; 0; 0; 0; 0]; a_data := [1; 2; 3; 4; 5] |}.
  split; [left; reflexivity|]. cbn. lia.
Qed.
(** The first object fills the first block together with the second; the third is in the overflow block. *)
Example ex_objs4_shape : map a_ptr ex_objs4 = [32792; 32808; 65560]
  /\ map (fun o => firstn 5 (a_data o)) ex_objs4 = [[1; 9; 9; 4; 5]; [0; 0; 0; 0; 0]; [0; 0; 0; 0; 0]].
Proof. split; vm_compute; reflexivity. Qed.
Example ex_h_ok : hdr_ok ex_h.
Proof. apply hdr_ex_ok. reflexivity. Qed.

(** * C01 *)
Theorem C01_rounding n r : 0 <= n -> n + 7 < 2 ^ 64 ->
  (alloc_size_of n = Ok r <-> round8 n r).
Proof. exact (alloc_size_of_round n r). Qed.

(** The least multiple of 8 that is at least [n]. *)
Theorem C01_least n : 0 <= n -> n + 7 < 2 ^ 64 ->
  exists r, alloc_size_of n = Ok r /\ r mod 8 = 0 /\ n <= r /\
    forall q, q mod 8 = 0 -> n <= q -> r <= q.
Proof.
  intros Hn Hb. exists (8 * ((n + 7) / 8)). rewrite alloc_size_of_eq by assumption.
  split; [reflexivity|]. split; [lia|]. split; [lia|]. intros q Hq Hle. lia.
Qed.
Example C01_ex : alloc_size_of 17 = Ok 24 /\ alloc_size_of 24 = Ok 24 /\ alloc_size_of 0 = Ok 0.
Proof. repeat split. Qed.
(** Outside the stated range the addition overflows (panic with overflow checks). *)
Theorem C01_overflow n : 0 <= n < 2 ^ 64 -> 2 ^ 64 <= n + 7 -> alloc_size_of n = Panic POverflow.
Proof. exact (alloc_size_of_overflow n). Qed.

(** * C02 *)
Theorem C02_size_classes n : 0 <= n ->
  (get_for_size n = Ok Small <-> 1 <= n <= 128) /\
  (get_for_size n = Ok Medium <-> 129 <= n <= 32752) /\
  (get_for_size n = Ok Large <-> 32753 <= n <= 2 ^ 32 - 1) /\
  (get_for_size n = Err BadRequest <-> n = 0 \/ 2 ^ 32 - 1 < n) /\
  (forall p, get_for_size n <> Panic p).
Proof.
  intros Hn. rewrite get_for_size_spec by assumption.
  destruct (Z.eqb_spec n 0); [|destruct (Z.leb_spec n 128); [|destruct (Z.leb_spec n 32752);
    [|destruct (Z.leb_spec n 4294967295)]]];
    repeat split; intros; try discriminate; try reflexivity; try lia.
Qed.

(** * C03 *)
Theorem C03_decision E H m objs s o n r s' :
  sys_ok E -> hdr_ok H -> reach E H m objs s -> op_legal objs o -> payload_of o = Some n ->
  exec E H s o = (r, s') ->
  let sz := storage_size (h_size H) n in
  (r = Err BadRequest <-> sz = 0 \/ 32752 < sz) /\
  (r = Err OOM <-> 0 < sz <= 32752 /\ needs_block (hs_blocks s) sz /\
                   sys E (w_calls (hs_world s)) {| l_size := 32768; l_align := 32768 |} = None) /\
  (forall p, r <> Panic p).
Proof.
  intros HE HH Hr Hl Hp Hex sz.
  pose proof (exec_result E H m objs s o n r s' HE HH Hr Hl Hp Hex) as (H1 & H2 & H3). fold sz in H1, H2, H3.
  pose proof (storage_nonneg (h_size H) n (proj1 (ho_size H HH)) (payload_nonneg _ _ _ Hl Hp)) as Hnn. fold sz in Hnn.
  change {| l_size := 32768; l_align := 32768 |} with L.
  assert (sz = 0 \/ 32752 < sz \/ 0 < sz <= 32752) as [Hc|[Hc|Hc]] by lia.
  - destruct (H1 (or_introl Hc)) as [-> _]. repeat split; intros; try discriminate; try tauto; try lia.
  - destruct (H1 (or_intror Hc)) as [-> _]. repeat split; intros; try discriminate; try tauto; try lia.
  - destruct (needs_block_dec (hs_blocks s) sz) as [Hn|Hn].
    + destruct (H2 Hc Hn) as [_ Hs]. destruct (sys E (w_calls (hs_world s)) L).
      * subst r. repeat split; intros; try discriminate; try lia. destruct H0 as (_ & _ & ?); discriminate.
      * destruct Hs as [-> _]. repeat split; intros; try discriminate; auto; lia.
    + destruct (H3 Hc Hn) as (_ & b & -> & _). repeat split; intros; try discriminate; try lia; tauto.
Qed.
(** All three outcomes occur. *)
Example C03_ex_ok : fst (exec env_ex ex_h ex_s4 (OpAllocArray 0)) = Ok 65520
  /\ reach env_ex ex_h ex_m ex_objs4 ex_s4.
Proof. split; [vm_compute; reflexivity|apply ex_reach4]. Qed.
Example C03_ex_bad : fst (exec env_ex ex_h ex_s4 (OpAllocArray 32745)) = Err BadRequest.
Proof. vm_compute; reflexivity. Qed.
Example C03_ex_oom : fst (exec env_none ex_h (state0 ex_m) (OpAllocArray 5)) = Err OOM
  /\ reach env_none ex_h ex_m [] (state0 ex_m) /\ sys_ok env_none.
Proof. repeat split; try constructor; cbn; try discriminate; lia. Qed.

(** * C04 *)
Theorem C04_failure_changes_nothing E H m objs s o n e s' :
  sys_ok E -> hdr_ok H -> reach E H m objs s -> op_legal objs o -> payload_of o = Some n ->
  exec E H s o = (Err e, s') ->
  hs_blocks s' = hs_blocks s /\ w_mem (hs_world s') = w_mem (hs_world s)
  /\ w_freed (hs_world s') = w_freed (hs_world s).
Proof.
  intros HE HH Hr Hl Hp Hex.
  pose proof (exec_result E H m objs s o n (Err e) s' HE HH Hr Hl Hp Hex) as (H1 & H2 & H3).
  set (sz := storage_size (h_size H) n) in *.
  pose proof (storage_nonneg (h_size H) n (proj1 (ho_size H HH)) (payload_nonneg _ _ _ Hl Hp)) as Hnn. fold sz in Hnn.
  assert (Hfr : w_freed (hs_world s) = []) by (exact (inv_freed _ _ _ _ (reach_Inv _ _ _ _ _ HE HH Hr))).
  assert (Hfr' : w_freed (hs_world s') = []).
  { eapply (inv_freed E H). eapply reach_Inv; [exact HE|exact HH|]. eapply reach_step; [exact Hr|exact Hl|exact Hex]. }
  rewrite Hfr, Hfr'.
  assert (sz = 0 \/ 32752 < sz \/ 0 < sz <= 32752) as [Hc|[Hc|Hc]] by lia.
  - destruct (H1 (or_introl Hc)) as [_ ->]. auto.
  - destruct (H1 (or_intror Hc)) as [_ ->]. auto.
  - destruct (needs_block_dec (hs_blocks s) sz) as [Hn|Hn].
    + destruct (H2 Hc Hn) as [_ Hs]. destruct (sys E (w_calls (hs_world s)) L); [discriminate|]. tauto.
    + destruct (H3 Hc Hn) as (_ & b & Hd & _). discriminate.
Qed.
Example C04_ex : fst (exec env_ex ex_h ex_s4 (OpAllocArray 40000)) = Err BadRequest /\ op_legal ex_objs4 (OpAllocArray 40000).
Proof. split; [vm_compute; reflexivity|cbn; lia]. Qed.

(** * C05 *)
Theorem C05_no_overlap E H m objs s :
  sys_ok E -> hdr_ok H -> reach E H m objs s ->
  (forall i j x y, i <> j -> nth_error objs i = Some x -> nth_error objs j = Some y ->
     a_hi H x <= a_lo H y \/ a_hi H y <= a_lo H x) /\
  (forall x, In x objs -> exists b, In b (heap_blocks (hs_blocks s)) /\
     base b + 16 <= a_lo H x /\ a_lo H x < a_hi H x /\ a_hi H x <= base b + 32768 /\
     In (base b) (granted E (w_calls (hs_world s)))).
Proof.
  intros HE HH Hr. pose proof (reach_Inv _ _ _ _ _ HE HH Hr) as HI. split.
  - intros i j x y Hij Hx Hy. pose proof (inv_disj _ _ _ _ HI) as Hd.
    destruct (Nat.lt_total i j) as [Hlt|[Heq|Hgt]]; [|lia|].
    + exact (ForallOrdPairs_nth _ _ Hd i j x y Hlt Hx Hy).
    + destruct (ForallOrdPairs_nth _ _ Hd j i y x Hgt Hy Hx); auto.
  - intros x Hx. destruct (obj_in_block _ _ _ _ _ HI Hx) as (b & Hb & [_ Hc _ _ (i & Hi & Hsi & _)] & H1 & H2).
    exists b. split; [exact Hb|]. unfold base. fold (base_of b).
    pose proof (inv_objs _ _ _ _ HI) as Ho. rewrite Forall_forall in Ho. pose proof (ok_pos _ _ _ (Ho _ Hx)).
    split; [exact H1|]. split; [unfold a_hi; lia|]. split; [lia|].
    apply granted_in. exists i. auto.
Qed.
Example C05_ex : reach env_ex ex_h ex_m ex_objs4 ex_s4 /\ map (a_lo ex_h) ex_objs4 = [32784; 32800; 65552]
   /\ map (a_hi ex_h) ex_objs4 = [32800; 65512; 65864].
Proof. split; [exact ex_reach4|split; vm_compute; reflexivity]. Qed.

(** * C06: the memory always agrees with the abstract heap, which only changes an object when the
    client stores into that object ([abs_step]). *)
Theorem C06_contents E H m objs s :
  sys_ok E -> hdr_ok H -> reach E H m objs s ->
  forall x, In x objs ->
    mem_read (w_mem (hs_world s)) (a_ptr x) (length (a_data x)) = a_data x /\
    mem_read (w_mem (hs_world s)) (a_ptr x - h_size H) (length (a_hdr x)) = a_hdr x.
Proof.
  intros HE HH Hr x Hx. pose proof (reach_Inv _ _ _ _ _ HE HH Hr) as HI.
  pose proof (inv_objs _ _ _ _ HI) as Ho. rewrite Forall_forall in Ho.
  destruct (Ho _ Hx) as [_ _ _ H4 H5]. split; assumption.
Qed.

(** One more operation: an object the operation does not store into keeps its bytes; object
    addresses are unique, so a store concerns a single object. *)
Theorem C06_step E H m objs s o r s' x :
  sys_ok E -> hdr_ok H -> reach E H m objs s -> op_legal objs o -> exec E H s o = (r, s') ->
  In x objs -> (forall p off bs, o = OpWrite p off bs -> p <> a_ptr x) ->
  mem_read (w_mem (hs_world s')) (a_ptr x) (length (a_data x)) =
  mem_read (w_mem (hs_world s)) (a_ptr x) (length (a_data x)) /\
  mem_read (w_mem (hs_world s')) (a_ptr x - h_size H) (length (a_hdr x)) =
  mem_read (w_mem (hs_world s)) (a_ptr x - h_size H) (length (a_hdr x)).
Proof.
  intros HE HH Hr Hl Hex Hx Hw.
  destruct (C06_contents E H m objs s HE HH Hr x Hx) as [-> ->].
  apply (C06_contents E H m (abs_step H objs o r) s' HE HH); [eapply reach_step; eassumption|].
  destruct o as [ob|n|p off bs]; cbn [abs_step].
  - destruct r; [apply in_or_app; left|..]; exact Hx.
  - destruct r; [apply in_or_app; left|..]; exact Hx.
  - apply in_map_iff. exists x. split; [|exact Hx].
    destruct (Z.eqb_spec (a_ptr x) p) as [He|He]; [|reflexivity].
    exfalso. exact (Hw p off bs eq_refl (eq_sym He)).
Qed.

(** A store changes exactly the stored bytes of its object. *)
Theorem C06_store l off bs i :
  0 <= off -> off + zlen bs <= zlen l -> (i < length l)%nat ->
  length (splice l off bs) = length l /\
  nth i (splice l off bs) 0 =
  if (off <=? Z.of_nat i) && (Z.of_nat i <? off + zlen bs)
  then nth (Z.to_nat (Z.of_nat i - off)) bs 0 else nth i l 0.
Proof. intros H1 H2 H3. split; [apply splice_length; assumption|apply splice_nth; assumption]. Qed.
Example C06_ex : mem_read (w_mem (hs_world ex_s4)) 32792 5 = [1; 9; 9; 4; 5].
Proof. vm_compute. reflexivity. Qed.

(** * C07 *)
Theorem C07_arrays_zero E H m objs s n p s' :
  sys_ok E -> hdr_ok H -> reach E H m objs s -> 0 <= n < 2 ^ 32 ->
  alloc_array E H s n = (Ok p, s') ->
  forall i, 0 <= i < n -> w_mem (hs_world s') (p + i) = 0.
Proof.
  intros HE HH Hr Hn Hex i Hi.
  assert (reach E H m (abs_step H objs (OpAllocArray n) (Ok p)) s') as Hr'
    by (eapply reach_step; [exact Hr|exact Hn|exact Hex]).
  destruct (C06_contents E H m _ s' HE HH Hr'
    {| a_ptr := p; a_hdr := h_new_array H n (class_of (storage_size (h_size H) n)) Allocated; a_data := zrepeat 0 n |})
    as [Hd _]; [apply in_or_app; right; left; reflexivity|].
  cbn [a_ptr a_data] in Hd. unfold zrepeat in Hd. rewrite repeat_length in Hd.
  apply (mem_read_zero _ _ _ Hd). lia.
Qed.
Example C07_ex : fst (alloc_array env_ex ex_h ex_s4 40) = Ok 98328 /\ w_mem (hs_world ex_s4) 98330 = 98330 mod 251.
Proof. split; vm_compute; reflexivity. Qed.

(** * C08 *)
Theorem C08_header_address E H m objs s :
  sys_ok E -> hdr_ok H -> reach E H m objs s ->
  forall x, In x objs ->
    mem_read (w_mem (hs_world s)) (get_header H (a_ptr x)) (length (a_hdr x)) = a_hdr x
    /\ get_object H (get_header H (a_ptr x)) = a_ptr x.
Proof.
  intros HE HH Hr x Hx. split; [apply (C06_contents E H m objs s HE HH Hr x Hx)|].
  unfold get_object, get_header. lia.
Qed.
Theorem C08_inverse H a : get_object H (get_header H a) = a /\ get_header H (get_object H a) = a.
Proof. unfold get_object, get_header. lia. Qed.
Example C08_ex : mem_read (w_mem (hs_world ex_s4)) (get_header ex_h 32792) 8 = [7; 5; 0; 0; 0; 0; 0; 0].
Proof. vm_compute. reflexivity. Qed.

(** * C09 *)
Theorem C09_header_contents E H m objs s o p s' :
  sys_ok E -> hdr_ok H -> reach E H m objs s -> op_legal objs o -> exec E H s o = (Ok p, s') ->
  match o with
  | OpAlloc ob =>
      mem_read (w_mem (hs_world s')) (get_header H p) (Z.to_nat (h_size H))
      = h_new H (ob_tid ob) (zlen (ob_bytes ob))
          (class_of (storage_size (h_size H) (zlen (ob_bytes ob)))) Allocated
  | OpAllocArray n =>
      mem_read (w_mem (hs_world s')) (get_header H p) (Z.to_nat (h_size H))
      = h_new_array H n (class_of (storage_size (h_size H) n)) Allocated
  | OpWrite _ _ _ => True
  end.
Proof.
  intros HE HH Hr Hl Hex.
  assert (reach E H m (abs_step H objs o (Ok p)) s') as Hr' by (eapply reach_step; eassumption).
  pose proof (inv_objs _ _ _ _ (reach_Inv _ _ _ _ _ HE HH Hr')) as Ho. rewrite Forall_forall in Ho.
  destruct o as [ob|n|]; [| |exact I]; cbn [abs_step] in *;
    (edestruct Ho as [_ H2 H3 _ H5]; [apply in_or_app; right; left; reflexivity|]);
    cbn [a_hdr a_data a_lo a_ptr] in *;
    unfold get_header; unfold a_lo in H5; cbn [a_ptr] in H5; etransitivity; [|exact H5| |exact H5]; f_equal;
    (etransitivity; [apply (f_equal Z.to_nat (eq_sym H2))|apply Nat2Z.id]).
Qed.
Example C09_ex : snd (get_for_size 24, get_header ex_h 32792) = 32784 /\
  mem_read (w_mem (hs_world ex_s4)) 32784 2 = [7; 5].
Proof. split; vm_compute; reflexivity. Qed.

(** * C10 *)
Theorem C10_alignment E H m objs s :
  sys_ok E -> hdr_ok H -> reach E H m objs s ->
  forall x, In x objs -> (a_ptr x - h_size H) mod 8 = 0 /\ (h_size H mod 8 = 0 -> a_ptr x mod 8 = 0).
Proof.
  intros HE HH Hr x Hx. pose proof (reach_Inv _ _ _ _ _ HE HH Hr) as HI.
  pose proof (inv_objs _ _ _ _ HI) as Ho. rewrite Forall_forall in Ho.
  pose proof (ok_align _ _ _ (Ho _ Hx)) as Ha. unfold a_lo in Ha. split; [exact Ha|lia].
Qed.
(** Neither a 12-byte header nor a 16-byte alignment requirement is honoured. *)
Theorem C10_not_aligned_refuted :
  (exists E H m o p, sys_ok E /\ hdr_ok H /\ h_size H = 12 /\ op_legal [] o /\
     fst (exec E H (state0 m) o) = Ok p /\ p mod 8 <> 0) /\
  (exists E H m o p, sys_ok E /\ hdr_ok H /\ h_size H = 8 /\ op_legal [] o /\
     fst (exec E H (state0 m) o) = Ok p /\ p mod 16 <> 0).
Proof.
  split.
  - exists env_ex, (hdr_ex 12), ex_m, (OpAlloc ex_obj), 32796.
    split; [apply env_ex_ok|]. split; [apply hdr_ex_ok; reflexivity|]. split; [reflexivity|].
    split; [cbn; lia|]. split; [vm_compute; reflexivity|discriminate].
  - exists env_ex, (hdr_ex 8), ex_m, (OpAlloc ex_obj), 32792.
    split; [apply env_ex_ok|]. split; [apply hdr_ex_ok; reflexivity|]. split; [reflexivity|].
    split; [cbn; lia|]. split; [vm_compute; reflexivity|discriminate].
Qed.

(** * C11 *)
Theorem C11_meta_word E H m objs s :
  sys_ok E -> hdr_ok H -> reach E H m objs s ->
  forall b, In b (heap_blocks (hs_blocks s)) ->
    exists i, (i < w_calls (hs_world s))%nat /\
      sys E i {| l_size := 32768; l_align := 32768 |} = Some (base b) /\
      bb_meta_addr b = boxaddr E i /\
      mem_read (w_mem (hs_world s)) (base b) 8 = le_bytes 8 (boxaddr E i).
Proof.
  intros HE HH Hr b Hb. pose proof (reach_Inv _ _ _ _ _ HE HH Hr) as HI.
  pose proof (inv_good _ _ _ _ HI) as Hg. unfold good in Hg. rewrite Forall_forall in Hg.
  destruct (bk_grant _ _ _ (Hg _ Hb)) as (i & Hi & Hs & Hm).
  exists i. split; [exact Hi|]. split; [exact Hs|]. split; [exact Hm|].
  pose proof (inv_meta _ _ _ _ HI) as Hmm. rewrite Forall_forall in Hmm. rewrite <- Hm. apply Hmm. exact Hb.
Qed.
Example C11_ex : length (heap_blocks (hs_blocks ex_s4)) = 2%nat.
Proof. vm_compute. reflexivity. Qed.

(** * C12 *)
Theorem C12_mask E H m objs s :
  sys_ok E -> hdr_ok H -> reach E H m objs s ->
  forall x, In x objs -> 0 < zlen (a_data x) ->
    exists b, In b (heap_blocks (hs_blocks s)) /\ base b + 16 <= a_lo H x /\
      a_hi H x <= base b + 32768 /\ Z.land (a_ptr x) BLOCK_PTR_MASK = base b.
Proof.
  intros HE HH Hr x Hx Hd. pose proof (reach_Inv _ _ _ _ _ HE HH Hr) as HI.
  destruct (obj_in_block _ _ _ _ _ HI Hx) as (b & Hb & [_ Hc _ _ (i & Hi & Hsi & _)] & H1 & H2).
  exists b. unfold base. fold (base_of b). split; [exact Hb|]. split; [exact H1|]. split; [lia|].
  destruct (so_valid E HE _ _ _ Hsi) as (Hp0 & Hp64 & Hpal). cbn in Hp64, Hpal.
  pose proof (ho_size H HH) as Hhs.
  pose proof (storage_round (h_size H) (zlen (a_data x))) as [_ Hrb].
  unfold a_hi, a_lo in *.
  rewrite land_mask by lia. lia.
Qed.
(** An object with an empty payload may be one past its block. *)
Theorem C12_empty_refuted :
  exists E H m o p s', sys_ok E /\ hdr_ok H /\ op_legal [] o /\ payload_of o = Some 0 /\
    exec E H (state0 m) o = (Ok p, s') /\
    (forall b, In b (heap_blocks (hs_blocks s')) -> Z.land p BLOCK_PTR_MASK <> base b).
Proof.
  exists env_ex, (hdr_ex (Z.to_nat 32752)), ex_m, (OpAllocArray 0), 65536,
    (snd (exec env_ex (hdr_ex (Z.to_nat 32752)) (state0 ex_m) (OpAllocArray 0))).
  split; [apply env_ex_ok|]. split; [apply hdr_ex_ok; reflexivity|].
  split; [cbn; lia|]. split; [reflexivity|].
  split.
  - rewrite (surjective_pairing (exec _ _ _ _)) at 1. apply f_equal2; [vm_compute; reflexivity|reflexivity].
  - assert (map base (heap_blocks (hs_blocks
      (snd (exec env_ex (hdr_ex (Z.to_nat 32752)) (state0 ex_m) (OpAllocArray 0))))) = [32768]) as Hb
      by (vm_compute; reflexivity).
    intros b Hin. apply (in_map base) in Hin. rewrite Hb in Hin. destruct Hin as [<-|[]]. discriminate.
Qed.

(** * C13 *)
Theorem C13_hole_search meta at_ :
  zlen (line_mark meta) = 256 -> 0 <= at_ <= 32768 ->
  let lines := line_mark meta in
  let k := at_ / 128 in
  (forall c l, find_next_available_hole meta at_ = Ok (Some (c, l)) <->
     exists s e, c = 128 * s /\ l = 128 * e /\ usable_run lines k s e /\
                 forall i, k <= i < s -> ~ usable lines k i) /\
  (find_next_available_hole meta at_ = Ok None <-> forall i, ~ usable lines k i) /\
  (forall p, find_next_available_hole meta at_ <> Panic p) /\
  (forall e, find_next_available_hole meta at_ <> Err e).
Proof.
  intros Hlen Hat lines k. pose proof (find_hole_spec meta at_ Hlen Hat) as Hs. fold lines k in Hs.
  destruct (find_next_available_hole meta at_) as [[[c0 l0]|]|e|p]; try destruct Hs.
  - rename x into s0. destruct H as (e0 & Hc & Hl & Hrun). split; [|split; [|split; discriminate]].
    + intros c l. split.
      * intros He. assert (c0 = c) by congruence. assert (l0 = l) by congruence. subst.
        exists s0, e0. split; [lia|]. split; [lia|]. exact Hrun.
      * intros (s1 & e1 & -> & -> & Hr1). destruct (first_run_unique _ _ _ _ _ _ Hrun Hr1) as [-> ->].
        subst. do 3 f_equal; lia.
    + split; [discriminate|]. intros Hno. exfalso.
      destruct Hrun as [(Hse & Hall & _) _]. apply (Hno s0). apply Hall. lia.
  - split; [|split; [|split; discriminate]].
    + intros c l. split; [discriminate|]. intros (s & e & _ & _ & (Hse & Hall & _) & _).
      exfalso. apply (Hs s). apply Hall. lia.
    + split; [intros _; exact Hs|reflexivity].
Qed.
(** The crate's own test pattern: lines 0, 1, 2, 4 and 10 marked gives the hole of lines 6..9. *)
Example C13_ex : find_next_available_hole
  {| line_mark := [true; true; true; false; true; false; false; false; false; false; true] ++ repeat true 245;
     block_mark := false |} 0 = Ok (Some (768, 1280)).
Proof. vm_compute. reflexivity. Qed.

(** * C14: requests on a recycled block *)
Theorem C14_live_lines_safe b sizes rs b' :
  recycled b -> Forall (fun n => 0 < n < 2 ^ 63) sizes -> serve b sizes = (rs, b') ->
  Forall (fun r => exists o, r = Ok o) rs /\
  increasing (base b) (ranges sizes rs) /\
  Forall (fun '(a, e) => forall x, a <= x < e ->
     base b <= x < base b + 32768 /\
     let line := (x - base b) / 128 in
     unmarked (marks b) line /\ (line = 0 \/ unmarked (marks b) (line - 1))) (ranges sizes rs).
Proof.
  intros (Hlim & Hcur & Hlen) Hsz Hs.
  assert (bwf b) as Hwf by (split; [exact Hlen|lia|lia|left; exact Hlim]).
  destruct (serve_spec sizes b Hwf Hsz) as (rs' & b'' & Hs' & _ & _ & _ & Hok & Hinc & Hfree).
  rewrite Hs in Hs'. injection Hs' as <- <-.
  split; [exact Hok|]. split.
  - assert (0 <= floor_of b) as Hf by (unfold floor_of; destruct (_ && _); lia).
    change (base_of b) with (base b) in Hinc.
    destruct (ranges sizes rs) as [|[a e] l]; cbn in *; [exact I|]. destruct Hinc as (H1 & H2 & H3). repeat split; auto; lia.
  - eapply Forall_impl; [|exact Hfree]. intros [a e] Hx x Hxr. destruct (Hx x Hxr) as [H1 H2].
    change (base_of b) with (base b) in *. split; [lia|]. unfold free_off in H2. destruct H2 as [H2|H2]; [lia|].
    destruct H2 as (H3 & H4 & H5). cbv zeta. split; [exact H4|]. destruct H5 as [|[]]; auto.
Qed.
Definition ex_block (marks : list bool) (c : Z) : bump_block :=
  {| bb_cursor := c; bb_limit := c; bb_block := {| blk_ptr := 65536; blk_size := 32768 |};
     bb_meta := {| line_mark := marks; block_mark := false |}; bb_meta_addr := 0 |}.
Example C14_ex : recycled (ex_block ([true; false; false; true; false; false; false] ++ repeat true 249) 16)
  /\ fst (serve (ex_block ([true; false; false; true; false; false; false] ++ repeat true 249) 16) [100; 100; 200])
     = [Ok (Some 65792); Ok (Some 66176); Ok None].
Proof. split; [unfold recycled; cbn; lia|vm_compute; reflexivity]. Qed.

(** * C15: one request on a block whose current hole is [cursor, limit). *)
Theorem C15_first_fit b size :
  zlen (marks b) = 256 -> 0 <= bb_cursor b <= bb_limit b -> bb_limit b <= 32768 ->
  bb_limit b = bb_cursor b \/ bb_limit b mod 128 = 0 -> 0 <= size < 2 ^ 63 ->
  let later s e := usable_run (marks b) (bb_limit b / 128) s e in
  exists r b', inner_alloc b size = (Ok r, b') /\
  match r with
  | None => bb_limit b - bb_cursor b < size /\ forall s e, later s e -> 128 * (e - s) < size
  | Some a =>
      (size <= bb_limit b - bb_cursor b /\ a = base b + bb_cursor b) \/
      (bb_limit b - bb_cursor b < size /\
       exists s e, later s e /\ a = base b + 128 * s /\ size <= 128 * (e - s) /\
         forall s' e', later s' e' -> s' < s -> 128 * (e' - s') < size)
  end.
Proof.
  intros H1 H2 H3 H4 H5 later.
  assert (bwf b) as Hwf by (split; assumption).
  destruct (inner_alloc_spec b size Hwf H5) as (r & b' & Hal & Hout).
  exists r, b'. split; [exact Hal|].
  destruct Hout as [Hfit|s e Hfull Hrun Hfit Hfirst|b' Hfull Hno _].
  - left. split; [lia|reflexivity].
  - right. split; [lia|]. exists s, e. split; [exact Hrun|]. split; [reflexivity|]. split; [exact Hfit|exact Hfirst].
  - split; [lia|exact Hno].
Qed.
Example C15_ex : fst (inner_alloc (ex_block ([true; false; false; true; false; false; false] ++ repeat true 249) 16) 200)
  = Ok (Some 66176).
Proof. vm_compute. reflexivity. Qed.

(** * C16 *)
Theorem C16_fresh_capacity E w b w' n count :
  bump_new E w = (Ok b, w') -> 0 < n < 2 ^ 63 ->
  forall j, (j < count)%nat ->
  nth_error (fst (serve b (repeat n count))) j =
  Some (Ok (if Z.of_nat j <? 32752 / n then Some (base b + 16 + Z.of_nat j * n) else None)).
Proof.
  intros Hb Hn j Hj. rewrite bump_new_eq in Hb. destruct (sys E (w_calls w) L) as [p|]; [|discriminate].
  injection Hb as <- <-.
  rewrite serve_fresh by (try exact Hn; try exact Hj; try reflexivity; cbn; lia).
  cbn [fresh bb_cursor]. do 2 f_equal.
  change (base_of (fresh E (w_calls w) p 16)) with p. change (base (fresh E (w_calls w) p 16)) with p.
  destruct (Z.leb_spec (16 + (Z.of_nat j + 1) * n) 32768); destruct (Z.ltb_spec (Z.of_nat j) (32752 / n)); try reflexivity; nia.
Qed.
Example C16_ex : exists b w', bump_new env_ex (world0 ex_m) = (Ok b, w') /\
  fst (serve b (repeat 10000 5)) = [Ok (Some 32784); Ok (Some 42784); Ok (Some 52784); Ok None; Ok None].
Proof. eexists _, _. split; [reflexivity|vm_compute; reflexivity]. Qed.

(** * C17 *)
(** Holds when line 0 is marked... *)
Theorem C17_line0_marked_partial b sizes rs b' :
  recycled b -> znth (marks b) 0 = Some true ->
  Forall (fun n => 0 < n < 2 ^ 63) sizes -> serve b sizes = (rs, b') ->
  Forall (fun '(a, e) => base b + 16 <= a) (ranges sizes rs).
Proof.
  intros Hr H0 Hsz Hs. destruct (C14_live_lines_safe b sizes rs b' Hr Hsz Hs) as (_ & _ & Hall).
  assert (Hinc : increasing (base b) (ranges sizes rs))
    by (apply (C14_live_lines_safe b sizes rs b' Hr Hsz Hs)).
  rewrite Forall_forall in *. intros [a e] Hin.
  assert (a < e) as Hae.
  { clear -Hin Hinc. revert Hinc Hin. generalize (base b). induction (ranges sizes rs) as [|[x y] l IH]; intros f Hinc Hin; [destruct Hin|].
    cbn in Hinc. destruct Hinc as (_ & H1 & H2). destruct Hin as [He|Hin]; [injection He as <- <-; exact H1|eauto]. }
  destruct (Hall _ Hin a ltac:(lia)) as [Hb [Hu _]].
  destruct (Z_lt_dec (a - base b) 128) as [Hlt|Hge]; [|lia].
  assert ((a - base b) / 128 = 0) as He by lia. rewrite He in Hu. unfold unmarked in Hu. congruence.
Qed.
Example C17_ex : recycled (ex_block (true :: repeat false 255) 16) /\
  fst (serve (ex_block (true :: repeat false 255) 16) [100]) = [Ok (Some 65792)].
Proof. split; [unfold recycled; cbn; lia|vm_compute; reflexivity]. Qed.

(** ... and fails for every mark pattern with line 0 unmarked: the first request of at most a line
    is given offset 0, where the metadata pointer lives. *)
Theorem C17_line0_unmarked_refuted b n :
  recycled b -> bb_cursor b < 128 -> znth (marks b) 0 = Some false -> 0 < n <= 128 ->
  fst (inner_alloc b n) = Ok (Some (base b)).
Proof.
  intros (Hlim & Hcur & Hlen) Hc H0 Hn.
  assert (bwf b) as Hwf by (split; [exact Hlen|lia|lia|left; exact Hlim]).
  destruct (inner_alloc_spec b n Hwf ltac:(lia)) as (r & b' & Hal & Hout). rewrite Hal. cbn [fst].
  assert (bb_limit b / 128 = 0) as Hk by lia.
  pose proof (find_hole_spec (bb_meta b) 0 Hlen ltac:(lia)) as Hh.
  assert (usable (marks b) 0 0) as Hu0 by (split; [lia|split; [exact H0|left; reflexivity]]).
  change (0 / 128) with 0 in Hh. change (line_mark (bb_meta b)) with (marks b) in Hh.
  destruct (find_next_available_hole (bb_meta b) 0) as [[[c l]|]|?|?]; try (destruct Hh; fail).
  2:{ exfalso. exact (Hh 0 Hu0). }
  destruct Hh as (s & e & _ & _ & Hrun & Hfirst).
  assert (s = 0) as ->.
  { destruct Hrun as (Hse & Hall & _). destruct (Hall s ltac:(lia)) as (Hks & _).
    destruct (Z.eq_dec s 0) as [|Hne]; [assumption|]. exfalso. apply (Hfirst 0); [lia|exact Hu0]. }
  destruct Hout as [Hfit|s' e' Hfull Hrun' Hfit Hmin|b'' Hfull Hno _].
  - lia.
  - do 2 f_equal. change (base_of b) with (base b).
    change (lines_of b) with (marks b) in *. rewrite Hk in *.
    assert (0 <= s') as Hs' by (destruct Hrun' as (Hse & Hall & _); destruct (Hall s' ltac:(lia)); lia).
    destruct (Z.eq_dec s' 0) as [->|Hne]; [lia|exfalso].
    specialize (Hmin 0 e Hrun ltac:(lia)). destruct Hrun. lia.
  - exfalso. change (lines_of b) with (marks b) in *. rewrite Hk in *. specialize (Hno 0 e Hrun). destruct Hrun. lia.
Qed.
Example C17_refuted_ex : recycled (recycle (ex_block (repeat false 256) 16)) /\
  fst (inner_alloc (recycle (ex_block (repeat false 256) 16)) 24) = Ok (Some 65536).
Proof. split; [unfold recycled; cbn; lia|vm_compute; reflexivity]. Qed.

(** * C18 *)
Theorem C18_block_new E w size r w' :
  block_new E w size = (r, w') ->
  (r = Err BlkBadRequest <-> ~ pow2 size) /\
  (r = Err BlkOOM <-> pow2 size /\ sys E (w_calls w) {| l_size := size; l_align := size |} = None) /\
  (forall b, r = Ok b <-> pow2 size /\ blk_size b = size /\
     sys E (w_calls w) {| l_size := size; l_align := size |} = Some (blk_ptr b)) /\
  (forall p, r <> Panic p) /\
  w_mem w' = w_mem w /\ w_freed w' = w_freed w /\
  (w_calls w' = w_calls w <-> ~ pow2 size).
Proof.
  unfold block_new, alloc_block. intros Hb.
  destruct (is_power_of_two size) eqn:Hp.
  - apply is_power_of_two_spec in Hp. cbn [negb] in Hb.
    destruct (sys E (w_calls w) {| l_size := size; l_align := size |}) as [p|]; injection Hb as <- <-; cbn [w_mem w_freed w_calls].
    + split; [split; [discriminate|tauto]|].
      split; [split; [discriminate|intros (_ & ?); discriminate]|].
      split; [|split; [discriminate|split; [reflexivity|split; [reflexivity|split; [lia|tauto]]]]].
      intros b. split.
      * intros He. assert (b = {| blk_ptr := p; blk_size := size |}) as -> by congruence. auto.
      * intros (_ & H1 & H2). destruct b as [bp bs]; cbn in *. congruence.
    + split; [split; [discriminate|tauto]|].
      split; [split; [auto|reflexivity]|].
      split; [|split; [discriminate|split; [reflexivity|split; [reflexivity|split; [lia|tauto]]]]].
      intros b. split; [discriminate|intros (_ & _ & ?); discriminate].
  - assert (~ pow2 size) as Hnp by (intros Hc; apply is_power_of_two_spec in Hc; congruence).
    cbn [negb] in Hb. injection Hb as <- <-.
    split; [tauto|]. split; [split; [discriminate|tauto]|].
    split; [intros b; split; [discriminate|tauto]|]. split; [discriminate|]. tauto.
Qed.
Example C18_ex : fst (block_new env_ex (world0 ex_m) 32768) = Ok {| blk_ptr := 32768; blk_size := 32768 |}
  /\ fst (block_new env_ex (world0 ex_m) 3) = Err BlkBadRequest
  /\ fst (block_new env_ex (world0 ex_m) 4) = Err BlkOOM.
Proof. repeat split; vm_compute; reflexivity. Qed.

(** * C19 *)
Theorem C19_placement E H m objs s o n r s' :
  sys_ok E -> hdr_ok H -> reach E H m objs s -> op_legal objs o -> payload_of o = Some n ->
  exec E H s o = (r, s') ->
  let sz := storage_size (h_size H) n in
  0 < sz <= 32752 ->
  (needs_block (hs_blocks s) sz ->
     w_calls (hs_world s') = S (w_calls (hs_world s)) /\
     forall p, sys E (w_calls (hs_world s)) {| l_size := 32768; l_align := 32768 |} = Some p ->
               r = Ok (p + 16 + h_size H)) /\
  (~ needs_block (hs_blocks s) sz ->
     w_calls (hs_world s') = w_calls (hs_world s) /\
     exists hd, head (hs_blocks s) = Some hd /\
       ((sz <= unused hd /\ r = Ok (base hd + bb_cursor hd + h_size H)) \/
        (unused hd < sz /\ 128 < sz /\ exists ov, overflow (hs_blocks s) = Some ov /\ sz <= unused ov /\
           r = Ok (base ov + bb_cursor ov + h_size H)))).
Proof.
  intros HE HH Hr Hl Hp Hex sz Hsz.
  pose proof (exec_result E H m objs s o n r s' HE HH Hr Hl Hp Hex) as (H1 & H2 & H3). fold sz in H1, H2, H3.
  split.
  - intros Hn. destruct (H2 Hsz Hn) as [Hc Hs]. split; [exact Hc|]. intros p Hsys.
    change {| l_size := 32768; l_align := 32768 |} with L in Hsys. rewrite Hsys in Hs. exact Hs.
  - intros Hn. destruct (H3 Hsz Hn) as (Hc & b & Hb & Hrest). split; [exact Hc|].
    destruct (head (hs_blocks s)) as [hd|]; [|destruct Hrest]. exists hd. split; [reflexivity|].
    destruct (Z.leb_spec sz (unused hd)) as [Hf|Hf].
    + subst b. left. split; [exact Hf|exact Hb].
    + right. split; [lia|]. destruct Hrest as (H4 & H5 & H6). split; [exact H4|]. exists b. auto.
Qed.
Example C19_ex : needs_block (hs_blocks ex_s2) 308 /\ ~ needs_block (hs_blocks ex_s4) 24
  /\ needs_block (hs_blocks ex_s4) 100.
Proof.
  assert (option_map bb_cursor (head (hs_blocks ex_s4)) = Some 32744) as H1 by (vm_compute; reflexivity).
  assert (option_map bb_cursor (head (hs_blocks ex_s2)) = Some 32744) as H2 by (vm_compute; reflexivity).
  assert (overflow (hs_blocks ex_s2) = None) as H3 by (vm_compute; reflexivity).
  unfold needs_block. destruct (head (hs_blocks ex_s4)) as [h4|]; [|discriminate].
  destruct (head (hs_blocks ex_s2)) as [h2|]; [|discriminate].
  cbn in H1, H2. unfold unused. rewrite H3. assert (bb_cursor h4 = 32744) by congruence. assert (bb_cursor h2 = 32744) by congruence. lia.
Qed.

(** * C20 *)
Theorem C20_waste_bound E H m objs s mx :
  sys_ok E -> hdr_ok H -> reach E H m objs s ->
  (forall x, In x objs -> storage_size (h_size H) (zlen (a_data x)) <= mx) ->
  forall b, In b (rest (hs_blocks s)) -> 0 <= unused b < mx.
Proof.
  intros HE HH Hr Hmx b Hb. pose proof (reach_Inv _ _ _ _ _ HE HH Hr) as HI.
  pose proof (inv_rest _ _ _ _ HI) as Hre. rewrite Forall_forall in Hre.
  destruct (Hre b Hb) as (o & Ho & Hl). specialize (Hmx o Ho). unfold room in Hl. unfold unused.
  pose proof (inv_good _ _ _ _ HI) as Hg. unfold good in Hg. rewrite Forall_forall in Hg.
  assert (In b (heap_blocks (hs_blocks s))) as Hin
    by (unfold heap_blocks; apply in_or_app; right; apply in_or_app; right; exact Hb).
  pose proof (bk_cursor _ _ _ (Hg b Hin)). lia.
Qed.

(** A request replaces the head block only when the head has fewer than 128 unused bytes. *)
Theorem C20_head_retired E H m objs s o n r s' hd :
  sys_ok E -> hdr_ok H -> reach E H m objs s -> op_legal objs o -> payload_of o = Some n ->
  exec E H s o = (r, s') ->
  head (hs_blocks s) = Some hd ->
  (exists hd', head (hs_blocks s') = Some hd' /\ base hd' = base hd) \/
  (In hd (rest (hs_blocks s')) /\ unused hd < 128).
Proof.
  intros HE HH Hr Hl Hp Hex Hh.
  pose proof (reach_Inv _ _ _ _ _ HE HH Hr) as HI.
  destruct (exec_request E H objs s o n HH (inv_good _ _ _ _ HI) Hl Hp) as (Heq & _).
  rewrite Heq in Hex. unfold request in Hex.
  set (sz := storage_size (h_size H) n) in *.
  destruct (class_ok sz) eqn:Hc; [|injection Hex as <- <-; left; exists hd; auto].
  unfold class_ok in Hc. apply andb_true_iff in Hc as [Hc1 Hc2].
  unfold place in Hex. rewrite Hh in Hex.
  destruct (Z.leb_spec sz (room hd)) as [Hf|Hf].
  - injection Hex as <- <-. left. exists (bump hd sz). split; reflexivity.
  - destruct (Z.leb_spec sz 128) as [H128|H128].
    + destruct (sys E (w_calls (hs_world s)) L) as [p|]; injection Hex as <- <-.
      * right. split; [cbn; apply in_or_app; right; left; reflexivity|unfold unused, room in *; lia].
      * left. exists hd. auto.
    + left. exists hd. split; [|reflexivity].
      destruct (overflow (hs_blocks s)) as [ov|]; [destruct (sz <=? room ov); [injection Hex as <- <-; exact Hh|]|];
        destruct (sys E (w_calls (hs_world s)) L) as [p|]; injection Hex as <- <-; exact Hh.
Qed.
Definition ex_s5 := snd (exec env_ex ex_h ex_s4 (OpAllocArray 20)).
Example C20_ex : map unused (rest (hs_blocks ex_s5)) = [24].
Proof. vm_compute. reflexivity. Qed.

(** * C21 *)
Theorem C21_no_leak E H m objs s :
  sys_ok E -> hdr_ok H -> reach E H m objs s ->
  let got := granted E (w_calls (hs_world s)) in
  NoDup got /\ w_freed (hs_world s) = [] /\
  Permutation (map base (heap_blocks (hs_blocks s))) got /\
  Permutation (w_freed (heap_drop s)) (map (fun p => (p, {| l_size := 32768; l_align := 32768 |})) got).
Proof.
  intros HE HH Hr got. destruct (heap_drop_freed E H m objs s HE HH Hr) as (H1 & H2 & H3 & H4).
  repeat split; assumption.
Qed.
Example C21_ex : granted env_ex (w_calls (hs_world ex_s5)) = [32768; 65536; 98304]
  /\ length (w_freed (heap_drop ex_s5)) = 3%nat.
Proof. split; vm_compute; reflexivity. Qed.

(** * C22 *)
Theorem C22_into_mut_ptr_refuted w b :
  let '(p, w1) := block_into_mut_ptr w b in
  p = blk_ptr b /\
  w_freed w1 = (p, {| l_size := blk_size b; l_align := blk_size b |}) :: w_freed w /\
  w_freed (block_drop w1 (block_from_raw_parts p (blk_size b))) =
    (p, {| l_size := blk_size b; l_align := blk_size b |}) ::
    (p, {| l_size := blk_size b; l_align := blk_size b |}) :: w_freed w.
Proof. repeat split. Qed.

Print Assumptions C03_decision.
Print Assumptions C05_no_overlap.
Print Assumptions C06_contents.
Print Assumptions C13_hole_search.
Print Assumptions C14_live_lines_safe.
Print Assumptions C17_line0_unmarked_refuted.
Print Assumptions C21_no_leak.
