(** Theorems C60-C62: mark flags, pointer identity and heap footprint.
    Vocabulary: ImmixSpec.v.  Model: ImmixModel.v. *)
From Coq Require Import Lia ZifyBool Permutation.
From Verif Require Import Prelude ImmixModel ImmixSpec.
From Verif Require Import ImmixBlockProofs ImmixHeapProofs ImmixHistoryProofs PropsImmix.
Ltac Zify.zify_post_hook ::= Z.div_mod_to_equations.

(** * C60 *)
(** What a collector does to a block's metadata. *)
Inductive mark_op := MarkLine (i : Z) | MarkBlock | ResetMarks.
Definition mark_step (m : block_meta) (o : mark_op) : option block_meta :=
  match o with MarkLine i => mark_line m i | MarkBlock => Some (mark_block m) | ResetMarks => Some (meta_reset m) end.
(** [None]: the history panicked. *)
Fixpoint mark_run (m : block_meta) (ops : list mark_op) : option block_meta :=
  match ops with [] => Some m | o :: r => match mark_step m o with Some m1 => mark_run m1 r | None => None end end.
(** The operations after the last reset. *)
Fixpoint since_reset (ops : list mark_op) : list mark_op :=
  match ops with
  | [] => []
  | o :: r => if existsb (fun x => match x with ResetMarks => true | _ => false end) r then since_reset r
              else match o with ResetMarks => r | _ => o :: r end
  end.

Lemma zset_znth {A} (l : list A) : forall i x,
  match zset l i x with
  | Some l' => 0 <= i < zlen l /\ zlen l' = zlen l /\ forall j, znth l' j = if j =? i then Some x else znth l j
  | None => ~ 0 <= i < zlen l
  end.
Proof.
  induction l as [|y l IH]; intros i x; cbn [zset]; [unfold zlen; cbn; lia|].
  destruct (Z.eqb_spec i 0) as [->|Hi].
  - split; [unfold zlen; cbn [length]; lia|]. split; [reflexivity|]. intros j. cbn [znth]. destruct (j =? 0) eqn:E; [reflexivity|reflexivity].
  - specialize (IH (i - 1) x). destruct (zset l (i - 1) x) as [l'|]; cbn [option_map].
    + destruct IH as (H1 & H2 & H3). unfold zlen in *; cbn [length]. split; [lia|]. split; [lia|]. intros j. cbn [znth].
      destruct (Z.eqb_spec j 0) as [->|Hj]; [destruct (Z.eqb_spec 0 i); [lia|reflexivity]|]. rewrite H3.
      destruct (Z.eqb_spec (j - 1) (i - 1)), (Z.eqb_spec j i); try lia; reflexivity.
    + unfold zlen in *; cbn [length]. lia.
Qed.
Lemma znth_bool (l : list bool) i : 0 <= i < zlen l -> znth l i = Some true \/ znth l i = Some false.
Proof.
  revert i. induction l as [|b l IH]; intros i Hi; [unfold zlen in Hi; cbn in Hi; lia|]. cbn [znth].
  destruct (Z.eqb_spec i 0); [destruct b; auto|]. apply IH. unfold zlen in *; cbn [length] in Hi. lia.
Qed.
Lemma znth_false (l : list bool) i : znth (map (fun _ => false) l) i <> Some true.
Proof.
  revert i. induction l as [|b l IH]; intros i; cbn [map znth]; [discriminate|]. destruct (i =? 0); [discriminate|apply IH].
Qed.
Lemma marked_since m ops m' : mark_run m ops = Some m' ->
  zlen (line_mark m') = zlen (line_mark m) /\
  (forall i, znth (line_mark m') i = Some true <-> In (MarkLine i) (since_reset ops) \/ (~ In ResetMarks ops /\ znth (line_mark m) i = Some true)) /\
  (block_mark m' = true <-> In MarkBlock (since_reset ops) \/ (~ In ResetMarks ops /\ block_mark m = true)).
Proof.
  revert m. induction ops as [|o ops IH]; intros m E; cbn [mark_run since_reset] in *.
  - assert (m' = m) as -> by congruence. cbn [In]. split; [reflexivity|]. split; [intros i|]; tauto.
  - destruct (mark_step m o) as [m1|] eqn:E1; [|discriminate]. destruct (IH m1 E) as (L & Hl & Hb).
    assert (Hex : existsb (fun x => match x with ResetMarks => true | _ => false end) ops = true <-> In ResetMarks ops).
    { rewrite existsb_exists. split; [intros (x & Hx & Ex); destruct x; try discriminate; exact Hx|intros Hx; exists ResetMarks; auto]. }
    destruct (existsb _ ops) eqn:Hr.
    + assert (R : In ResetMarks ops) by now apply Hex. split; [rewrite L; destruct o as [i| |]; cbn in E1|].
      * unfold mark_line in E1. pose proof (zset_znth (line_mark m) i true) as Z. destruct (zset _ _ _); [|discriminate].
        assert (m1 = {| line_mark := l; block_mark := block_mark m |}) as -> by congruence. cbn. tauto.
      * assert (m1 = mark_block m) as -> by congruence. reflexivity.
      * assert (m1 = meta_reset m) as -> by congruence. cbn. unfold zlen. now rewrite map_length.
      * split; [intros i; rewrite Hl|rewrite Hb]; cbn [In]; tauto.
    + assert (R : ~ In ResetMarks ops) by (intros R; apply Hex in R; discriminate).
      assert (S : since_reset ops = ops).
      { clear - R. induction ops as [|o ops IH]; [reflexivity|]. cbn [since_reset]. cbn [In] in R.
        destruct (existsb _ ops) eqn:E; [apply existsb_exists in E as (x & Hx & Ex); destruct x; try discriminate; tauto|]. destruct o; tauto. }
      rewrite S in *. destruct o as [i| |]; cbn in E1.
      * unfold mark_line in E1. pose proof (zset_znth (line_mark m) i true) as Z. destruct (zset _ _ _); [|discriminate].
        assert (m1 = {| line_mark := l; block_mark := block_mark m |}) as -> by congruence. cbn [line_mark block_mark] in *. destruct Z as (Z1 & Z2 & Z3).
        split; [lia|]. split.
        -- intros j. rewrite Hl, Z3. cbn [In]. destruct (Z.eqb_spec j i) as [->|N]; [split; auto|].
           split; [intros [H|[_ H]]; [auto|right; split; [intros [H1|H1]; [discriminate|auto]|auto]]|].
           intros [[H|H]|[H1 H2]]; [congruence|auto|right; auto].
        -- rewrite Hb. cbn [In]. split; [intros [H|[_ H]]; [auto|right; split; [intros [H1|H1]; [discriminate|auto]|auto]]|].
           intros [[H|H]|[H1 H2]]; [discriminate|auto|auto].
      * assert (m1 = mark_block m) as -> by congruence. cbn [line_mark block_mark mark_block] in *. split; [lia|]. split.
        -- intros j. rewrite Hl. cbn [In]. split; [intros [H|[_ H]]; [auto|right; split; [intros [H1|H1]; [discriminate|auto]|auto]]|].
           intros [[H|H]|[H1 H2]]; [discriminate|auto|auto].
        -- rewrite Hb. cbn [In]. split; auto.
      * assert (m1 = meta_reset m) as -> by congruence. cbn [line_mark block_mark meta_reset] in *. split; [rewrite L; unfold zlen; now rewrite map_length|]. split.
        -- intros j. rewrite Hl. cbn [In]. split; [intros [H|[_ H]]; [auto|exfalso; eapply znth_false; eauto]|]. intros [H|[H _]]; [auto|exfalso; auto].
        -- rewrite Hb. cbn [In]. split; [intros [H|[_ H]]; [auto|discriminate]|]. intros [H|[H _]]; [auto|exfalso; auto].
Qed.
(** After any history of marking and resetting fresh metadata, there are 256 flags, line [i] is flagged exactly if
    it was marked since the last reset, and so is the block; the history panics exactly if it marks a line outside 0..255. *)
Theorem C60_marks ops m : mark_run meta_new ops = Some m ->
  zlen (line_iter m) = 256 /\
  (forall i, 0 <= i < 256 -> znth (line_iter m) i = Some true \/ znth (line_iter m) i = Some false) /\
  (forall i, znth (line_iter m) i = Some true <-> In (MarkLine i) (since_reset ops)) /\
  (block_mark m = true <-> In MarkBlock (since_reset ops)).
Proof.
  intros E. destruct (marked_since _ _ _ E) as (L & Hl & Hb). unfold line_iter.
  assert (L0 : zlen (line_mark meta_new) = 256) by reflexivity. rewrite L0 in L.
  split; [exact L|]. split; [intros i Hi; apply znth_bool; lia|]. split.
  - intros i. rewrite Hl. split; [intros [H|[_ H]]; [auto|]|auto]. exfalso. revert H. unfold meta_new, zrepeat. cbn [line_mark].
    clear. generalize (Z.to_nat LINE_COUNT). intros n. revert i. induction n as [|n IH]; intros i; cbn [repeat znth]; [discriminate|]. destruct (i =? 0); [discriminate|apply IH].
  - rewrite Hb. split; [intros [H|[_ H]]; [auto|discriminate]|auto].
Qed.
Theorem C60_panics ops : mark_run meta_new ops = None <-> exists i, In (MarkLine i) ops /\ ~ 0 <= i < 256.
Proof.
  assert (G : forall m, zlen (line_mark m) = 256 -> (mark_run m ops = None <-> exists i, In (MarkLine i) ops /\ ~ 0 <= i < 256)); [|now apply G].
  induction ops as [|o ops IH]; intros m L; cbn [mark_run].
  - split; [discriminate|]. intros (i & [] & _).
  - assert (Same : forall m1, zlen (line_mark m1) = 256 -> (forall i, o = MarkLine i -> 0 <= i < 256) ->
      (mark_run m1 ops = None <-> exists i, In (MarkLine i) (o :: ops) /\ ~ 0 <= i < 256)).
    { intros m1 L1 Ho. rewrite (IH m1 L1). split; intros (i & Hi & Ni); exists i; (split; [|auto]); [right; auto|].
      destruct Hi as [Hi|Hi]; [exfalso; apply Ni; auto|auto]. }
    destruct o as [i| |]; cbn [mark_step].
    + unfold mark_line. pose proof (zset_znth (line_mark m) i true) as Z. destruct (zset _ _ _) as [l|].
      * apply Same; [cbn; lia|]. intros j Ej. assert (j = i) as -> by congruence. lia.
      * split; [|auto]. intros _. exists i. split; [left; reflexivity|]. lia.
    + apply Same; [exact L|discriminate].
    + apply Same; [cbn; unfold zlen in *; now rewrite map_length|discriminate].
Qed.
Example C60_ex : exists m, mark_run meta_new [MarkLine 3; MarkBlock; ResetMarks; MarkLine 255; MarkLine 0] = Some m /\
  znth (line_iter m) 255 = Some true /\ znth (line_iter m) 3 = Some false /\ block_mark m = false.
Proof. eexists. split; [reflexivity|]. repeat split. Qed.

(** * C61 *)
(** Pointers to different allocations are different, as pointers and as words; the word of a pointer to a
    non-empty object is a non-zero machine word, the address at which its bytes are stored. *)
Theorem C61_pointers E H m objs s :
  sys_ok E -> hdr_ok H -> reach E H m objs s ->
  (forall i j x y, nth_error objs i = Some x -> nth_error objs j = Some y -> (rawptr_eq (a_ptr x) (a_ptr y) = true <-> i = j)) /\
  (forall i j x y, nth_error objs i = Some x -> nth_error objs j = Some y -> (rawptr_as_word (a_ptr x) = rawptr_as_word (a_ptr y) <-> i = j)) /\
  (forall x, In x objs -> 0 < rawptr_as_word (a_ptr x) <= 2 ^ 64 /\ (0 < zlen (a_data x) -> rawptr_as_word (a_ptr x) < 2 ^ 64) /\
     mem_read (w_mem (hs_world s)) (rawptr_as_word (a_ptr x)) (length (a_data x)) = a_data x).
Proof.
  intros HE HH Hr. pose proof (C05_no_overlap E H m objs s HE HH Hr) as [Hd Hb].
  assert (K : forall i j x y, nth_error objs i = Some x -> nth_error objs j = Some y -> (a_ptr x = a_ptr y <-> i = j)).
  { intros i j x y Hx Hy. split; [|intros ->; congruence]. intros Ep. destruct (Nat.eq_dec i j) as [|N]; [auto|exfalso].
    destruct (Hb x (nth_error_In _ _ Hx)) as (_ & _ & _ & Px & _). destruct (Hb y (nth_error_In _ _ Hy)) as (_ & _ & _ & Py & _).
    destruct (Hd i j x y N Hx Hy); unfold a_lo in *; lia. }
  split; [intros i j x y Hx Hy; unfold rawptr_eq; rewrite Z.eqb_eq; now apply K|]. split; [exact K|].
  intros x Hx. destruct (Hb x Hx) as (b & _ & H1 & H2 & H3 & Hg). apply granted_in in Hg as (i & _ & Hs).
  destruct (so_valid E HE _ _ _ Hs) as (P0 & P1 & _). cbn in P1. pose proof (ho_size H HH) as Hh.
  pose proof (storage_round (h_size H) (zlen (a_data x))) as [_ Hrb]. pose proof (zlen_nonneg (a_data x)). unfold a_hi, a_lo, rawptr_as_word in *.
  split; [lia|]. split; [lia|]. apply (C06_contents E H m objs s HE HH Hr x Hx).
Qed.
Example C61_ex : reach env_ex ex_h ex_m ex_objs4 ex_s4 /\ map a_ptr ex_objs4 = [32792; 32808; 65560].
Proof. split; [exact ex_reach4|vm_compute; reflexivity]. Qed.

(** * C62 *)
Definition sumz (l : list Z) : Z := fold_right Z.add 0 l.
(** Bytes of storage taken by the objects the client holds; bytes of a block given out so far. *)
Definition total_storage (H : header_impl) (objs : list aobj) : Z := sumz (map (fun x => storage_size (h_size H) (zlen (a_data x))) objs).
Definition given (b : bump_block) : Z := 32752 - unused b.
Lemma sumz_app a b : sumz (a ++ b) = sumz a + sumz b.
Proof. induction a as [|x a IH]; cbn [app sumz fold_right]; [reflexivity|]. unfold sumz in IH. rewrite IH. unfold sumz. lia. Qed.
Lemma sumz_perm a b : Permutation a b -> sumz a = sumz b.
Proof. induction 1; cbn [sumz fold_right] in *; unfold sumz in *; lia. Qed.
Lemma total_app H a b : total_storage H (a ++ b) = total_storage H a + total_storage H b.
Proof. unfold total_storage. rewrite map_app. apply sumz_app. Qed.
(** Nothing is lost and nothing counted twice: the storage of all allocations is what was taken from the blocks. *)
Theorem C62_accounting E H m objs s : sys_ok E -> hdr_ok H -> reach E H m objs s ->
  sumz (map given (heap_blocks (hs_blocks s))) = total_storage H objs.
Proof.
  intros HE HH Hr. induction Hr as [|objs s o r s' Hr IH Hleg Hex]; [reflexivity|].
  pose proof (reach_Inv _ _ _ _ _ HE HH Hr) as HI.
  destruct (payload_of o) as [n|] eqn:Hp.
  - destruct (exec_request E H objs s o n HH (inv_good _ _ _ _ HI) Hleg Hp) as (Heq & Hd & _). rewrite Heq in Hex. unfold request in Hex.
    set (sz := storage_size (h_size H) n) in *.
    assert (Hobj : forall p, total_storage H (abs_step H objs o (Ok p)) = total_storage H objs + sz).
    { intros p. destruct o as [ob|k|? ? ?]; cbn [abs_step data_of payload_of] in *; [| |discriminate]; rewrite total_app; unfold total_storage at 2; cbn [map sumz fold_right a_data]; rewrite Hd; fold sz; lia. }
    assert (Herr : forall e, abs_step H objs o (Err e) = objs) by (intros e; destruct o; cbn in *; [reflexivity|reflexivity|discriminate]).
    destruct (class_ok sz) eqn:Hc.
    + unfold class_ok in Hc. apply andb_true_iff in Hc as [Hc1 Hc2]. pose proof (place_outcome E s sz ltac:(lia)) as Hout.
      destruct (place E s sz) as [r0 s1]. cbn [fst snd] in Hout. inversion Hout; subst.
      * assert (r = Ok (base_of b + bb_cursor b + h_size H)) as -> by congruence. rewrite Hobj.
        match type of Hex with (_, ?x) = _ => assert (s' = x) as -> by congruence end. cbn [hs_blocks w_write mkhs].
        rewrite (sumz_perm _ _ (Permutation_map given H1)). rewrite (sumz_perm _ _ (Permutation_map given H0)) in IH.
        cbn [map sumz fold_right] in *. unfold given, unused, bump, bb_set in *. cbn [bb_cursor] in *. lia.
      * assert (r = Ok (p + 16 + h_size H)) as -> by congruence. rewrite Hobj.
        match type of Hex with (_, ?x) = _ => assert (s' = x) as -> by congruence end. cbn [hs_blocks w_write mkhs].
        rewrite (sumz_perm _ _ (Permutation_map given H1)). cbn [map sumz fold_right]. unfold sumz in *.
        unfold given at 1. unfold unused, fresh. cbn [bb_cursor] in *. lia.
      * assert (r = Err OOM) as -> by congruence. rewrite Herr.
        match type of Hex with (_, ?x) = _ => assert (s' = x) as -> by congruence end. exact IH.
    + assert (r = Err BadRequest) as -> by congruence. assert (s' = s) as -> by congruence. rewrite Herr. exact IH.
  - destruct o as [ob|k|p off bs]; try discriminate. cbn [exec abs_step] in *.
    match type of Hex with (_, ?x) = _ => assert (s' = x) as -> by congruence end. cbn [hs_blocks w_write mkhs]. rewrite IH.
    destruct Hleg as (x & Hx & Ex & O1 & O2). unfold total_storage. rewrite map_map. f_equal. apply map_ext_in. intros y Hy.
    destruct (Z.eqb_spec (a_ptr y) p) as [Ey|]; [|reflexivity]. cbn [a_data a_write].
    assert (y = x) as ->.
    { destruct (In_nth_error _ _ Hx) as [i Hi]. destruct (In_nth_error _ _ Hy) as [j Hj].
      destruct (C61_pointers E H m objs s HE HH Hr) as (_ & K & _). unfold rawptr_as_word in K. assert (i = j) by (apply (K i j x y Hi Hj); congruence). congruence. }
    f_equal. unfold zlen. now rewrite splice_length by auto.
Qed.
(** The heap holds at most two blocks (the current one and the overflow block) besides full ones: if no allocation takes more
    than [mx] bytes, each other block is used up but for less than [mx]. *)
Theorem C62_footprint E H m objs s mx : sys_ok E -> hdr_ok H -> reach E H m objs s ->
  (forall x, In x objs -> storage_size (h_size H) (zlen (a_data x)) <= mx) ->
  mx <= 32752 -> (zlen (heap_blocks (hs_blocks s)) - 2) * (32753 - mx) <= total_storage H objs.
Proof.
  intros HE HH Hr Hmx Hm. rewrite <- (C62_accounting E H m objs s HE HH Hr).
  pose proof (C20_waste_bound E H m objs s mx HE HH Hr Hmx) as W.
  pose proof (inv_good _ _ _ _ (reach_Inv _ _ _ _ _ HE HH Hr)) as G. unfold good, heap_blocks in G. unfold heap_blocks.
  apply Forall_app in G as [G1 G]. apply Forall_app in G as [G2 _].
  rewrite !map_app, !sumz_app, !zlen_app.
  assert (O : forall o, Forall (bok E (w_calls (hs_world s))) (opt_list o) -> 0 <= sumz (map given (opt_list o)) /\ zlen (opt_list o) <= 1).
  { intros [b|] F; cbn; [|lia]. inversion F as [|? ? B _]; subst. pose proof (bk_cursor _ _ _ B). unfold given, unused. lia. }
  destruct (O _ G1) as [O1 O2], (O _ G2) as [O3 O4].
  assert (R : zlen (rest (hs_blocks s)) * (32753 - mx) <= sumz (map given (rest (hs_blocks s)))).
  { clear - W. induction (rest (hs_blocks s)) as [|b l IH]; [cbn; lia|]. assert (zlen (b :: l) = 1 + zlen l) as -> by (unfold zlen; cbn [length]; lia).
    cbn [map sumz fold_right]. fold (sumz (map given l)). pose proof (W b (or_introl eq_refl)). specialize (IH (fun x Hx => W x (or_intror Hx))).
    unfold given at 1. lia. }
  pose proof (zlen_nonneg (rest (hs_blocks s))). nia.
Qed.
(** In particular a heap of small objects (at most 128 bytes with their headers) wastes less than 0.4% plus two blocks. *)
Corollary C62_small E H m objs s : sys_ok E -> hdr_ok H -> reach E H m objs s ->
  (forall x, In x objs -> storage_size (h_size H) (zlen (a_data x)) <= 128) ->
  zlen (heap_blocks (hs_blocks s)) <= total_storage H objs / 32625 + 2.
Proof.
  intros HE HH Hr Hmx. pose proof (C62_footprint E H m objs s 128 HE HH Hr Hmx ltac:(lia)). lia.
Qed.
Example C62_ex : total_storage ex_h ex_objs4 = 33040 /\ map given (heap_blocks (hs_blocks ex_s4)) = [32728; 312].
Proof. split; vm_compute; reflexivity. Qed.
