(** Invariants of the heap over arbitrary histories. *)
From Coq Require Import Lia ZifyBool Permutation.
From Verif Require Import Prelude ImmixModel ImmixSpec ImmixBlockProofs.
Ltac Zify.zify_post_hook ::= Z.div_mod_to_equations.

(** ** Memory *)
Lemma zlen_nonneg {A} (l : list A) : 0 <= zlen l. Proof. unfold zlen; lia. Qed.
Lemma zlen_app {A} (l l' : list A) : zlen (l ++ l') = zlen l + zlen l'.
Proof. unfold zlen; rewrite app_length; lia. Qed.
Lemma zlen_repeat {A} (x : A) n : 0 <= n -> zlen (zrepeat x n) = n.
Proof. intros; unfold zlen, zrepeat; rewrite repeat_length; lia. Qed.

Lemma mem_read_length m a n : length (mem_read m a n) = n.
Proof. unfold mem_read. rewrite map_length, seq_length. reflexivity. Qed.

Lemma mem_read_nth m a n i d : (i < n)%nat -> nth i (mem_read m a n) d = m (a + Z.of_nat i).
Proof.
  intros Hi. unfold mem_read.
  rewrite nth_indep with (d' := m (a + Z.of_nat 0)) by (rewrite map_length, seq_length; lia).
  rewrite (map_nth (fun i => m (a + Z.of_nat i))). rewrite seq_nth by lia. reflexivity.
Qed.

Lemma mem_read_ext m m' a n :
  (forall x, a <= x < a + Z.of_nat n -> m x = m' x) -> mem_read m a n = mem_read m' a n.
Proof.
  intros H. unfold mem_read. apply map_ext_in. intros i Hi. apply in_seq in Hi. apply H. lia.
Qed.

Lemma mem_write_out m a bs x : x < a \/ a + zlen bs <= x -> mem_write m a bs x = m x.
Proof.
  intros H. unfold mem_write.
  destruct (Z.leb_spec a x); destruct (Z.ltb_spec x (a + zlen bs)); cbn [andb]; try reflexivity; lia.
Qed.

Lemma mem_write_in m a bs x : a <= x < a + zlen bs ->
  mem_write m a bs x = nth (Z.to_nat (x - a)) bs 0.
Proof.
  intros H. unfold mem_write.
  destruct (Z.leb_spec a x); destruct (Z.ltb_spec x (a + zlen bs)); cbn [andb]; try reflexivity; lia.
Qed.

Lemma mem_read_write_disjoint m b bs a n :
  a + Z.of_nat n <= b \/ b + zlen bs <= a -> mem_read (mem_write m b bs) a n = mem_read m a n.
Proof. intros H. apply mem_read_ext. intros x Hx. apply mem_write_out. lia. Qed.

Lemma mem_read_write_same m a bs n : n = length bs -> mem_read (mem_write m a bs) a n = bs.
Proof.
  intros ->. apply nth_ext with (d := 0) (d' := 0); [apply mem_read_length|].
  intros i Hi. rewrite mem_read_length in Hi. rewrite mem_read_nth by lia.
  rewrite mem_write_in by (unfold zlen; lia). f_equal. lia.
Qed.

Lemma splice_length l off bs : 0 <= off -> off + zlen bs <= zlen l -> length (splice l off bs) = length l.
Proof.
  intros H1 H2. unfold splice, zlen in *. rewrite !app_length, firstn_length, skipn_length. lia.
Qed.

Lemma splice_nth l off bs i :
  0 <= off -> off + zlen bs <= zlen l -> (i < length l)%nat ->
  nth i (splice l off bs) 0 =
  if (off <=? Z.of_nat i) && (Z.of_nat i <? off + zlen bs)
  then nth (Z.to_nat (Z.of_nat i - off)) bs 0 else nth i l 0.
Proof.
  intros H1 H2 Hi. unfold splice, zlen in *.
  assert (length (firstn (Z.to_nat off) l) = Z.to_nat off) as Hf by (rewrite firstn_length; lia).
  destruct (Z.leb_spec off (Z.of_nat i)) as [Ha|Ha]; cbn [andb].
  - rewrite app_nth2 by lia. rewrite Hf.
    destruct (Z.ltb_spec (Z.of_nat i) (off + Z.of_nat (length bs))) as [Hb|Hb].
    + rewrite app_nth1 by lia. f_equal. lia.
    + rewrite app_nth2 by lia.
      rewrite <- (firstn_skipn (Z.to_nat off + length bs) l) at 2.
      rewrite app_nth2; rewrite firstn_length; [|lia]. f_equal. lia.
  - rewrite app_nth1 by lia.
    rewrite <- (firstn_skipn (Z.to_nat off) l) at 2. rewrite app_nth1 by lia. reflexivity.
Qed.

Lemma mem_read_splice m p off bs n :
  0 <= off -> off + zlen bs <= Z.of_nat n ->
  mem_read (mem_write m (p + off) bs) p n = splice (mem_read m p n) off bs.
Proof.
  intros H1 H2. apply nth_ext with (d := 0) (d' := 0).
  - rewrite mem_read_length, splice_length; rewrite ?mem_read_length; [reflexivity|lia|].
    unfold zlen at 2. rewrite mem_read_length. exact H2.
  - intros i Hi. rewrite mem_read_length in Hi. rewrite mem_read_nth by lia.
    rewrite splice_nth; [|lia|unfold zlen at 2; rewrite mem_read_length; exact H2|rewrite mem_read_length; lia].
    destruct (Z.leb_spec off (Z.of_nat i)) as [Ha|Ha]; cbn [andb].
    + destruct (Z.ltb_spec (Z.of_nat i) (off + zlen bs)) as [Hb|Hb].
      * rewrite mem_write_in by lia. f_equal. lia.
      * rewrite mem_write_out by lia. rewrite mem_read_nth by lia. reflexivity.
    + rewrite mem_write_out by lia. rewrite mem_read_nth by lia. reflexivity.
Qed.

Lemma le_bytes_length n v : length (le_bytes n v) = n.
Proof. revert v; induction n; intros; cbn; [reflexivity|f_equal; auto]. Qed.

(** ** Sizes *)
Lemma storage_round hs n : round8 (hs + n) (storage_size hs n).
Proof. unfold round8, storage_size. lia. Qed.

(** ** Good blocks and the system *)
Definition L : layout := {| l_size := 32768; l_align := 32768 |}.

Definition fresh (E : env) (i : nat) (p cursor : Z) : bump_block :=
  {| bb_cursor := cursor; bb_limit := 32768; bb_block := {| blk_ptr := p; blk_size := 32768 |};
     bb_meta := meta_new; bb_meta_addr := boxaddr E i |}.

Definition tick (w : world) : world :=
  {| w_mem := w_mem w; w_calls := S (w_calls w); w_freed := w_freed w |}.

Definition tick_new (E : env) (w : world) (p : Z) : world :=
  {| w_mem := mem_write (w_mem w) p (le_bytes 8 (boxaddr E (w_calls w)));
     w_calls := S (w_calls w); w_freed := w_freed w |}.

Record bok (E : env) (calls : nat) (b : bump_block) : Prop := {
  bk_limit : bb_limit b = 32768;
  bk_cursor : 16 <= bb_cursor b <= 32768;
  bk_align : bb_cursor b mod 8 = 0;
  bk_size : blk_size (bb_block b) = 32768;
  bk_grant : exists i, (i < calls)%nat /\ sys E i L = Some (base_of b) /\ bb_meta_addr b = boxaddr E i }.

Lemma bok_mono E n n' b : (n <= n')%nat -> bok E n b -> bok E n' b.
Proof.
  intros Hn [H1 H2 H3 H4 (i & H5 & H6)]. split; auto. exists i. split; [lia|exact H6].
Qed.

Lemma bump_new_eq E w :
  bump_new E w =
  match sys E (w_calls w) L with
  | None => (Err OOM, tick w)
  | Some p => (Ok (fresh E (w_calls w) p 16), tick_new E w p)
  end.
Proof.
  unfold bump_new, block_new. change (is_power_of_two BLOCK_SIZE) with true. cbn [negb].
  unfold alloc_block. change {| l_size := BLOCK_SIZE; l_align := BLOCK_SIZE |} with L.
  destruct (sys E (w_calls w) L) as [p|]; [|reflexivity].
  unfold fresh, tick_new, bb_write. rewrite FIRST_eq, BLOCK_SIZE_eq.
  cbn [bb_block blk_ptr bb_meta_addr w_mem w_calls w_freed]. rewrite Z.add_0_r. reflexivity.
Qed.

Definition room (b : bump_block) : Z := 32768 - bb_cursor b.
Definition bump (b : bump_block) (size : Z) : bump_block := bb_set b (bb_cursor b + size) 32768.

Lemma inner_alloc_good E n b size :
  bok E n b -> 0 < size < 2 ^ 63 ->
  inner_alloc b size = if size <=? room b then (Ok (Some (base_of b + bb_cursor b)), bump b size)
                       else (Ok None, b).
Proof.
  intros [H1 H2 _ _ _] Hs. rewrite inner_alloc_end by (assumption || lia). unfold room, bump.
  destruct (Z.leb_spec (bb_cursor b + size) 32768); destruct (Z.leb_spec size (32768 - bb_cursor b));
    try lia; reflexivity.
Qed.

Lemma inner_alloc_fresh E i p size : 0 < size <= 32752 ->
  inner_alloc (fresh E i p 16) size = (Ok (Some (p + 16)), fresh E i p (16 + size)).
Proof.
  intros Hs. rewrite inner_alloc_end by (reflexivity || (cbn; lia)). cbn [fresh bb_cursor].
  destruct (Z.leb_spec (16 + size) 32768); [reflexivity|lia].
Qed.

(** Where a request of [size] bytes goes. *)
Definition place (E : env) (s : hstate) (size : Z) : res alloc_error Z * hstate :=
  let bl := hs_blocks s in
  let w := hs_world s in
  let fresh_block (upd : bump_block -> block_list) :=
    match sys E (w_calls w) L with
    | None => (Err OOM, mkhs bl (tick w))
    | Some p => (Ok (p + 16), mkhs (upd (fresh E (w_calls w) p (16 + size))) (tick_new E w p))
    end in
  match head bl with
  | None => fresh_block (fun nb => set_head bl nb)
  | Some hd =>
      if size <=? room hd then (Ok (base_of hd + bb_cursor hd), mkhs (set_head bl (bump hd size)) w)
      else if size <=? 128 then fresh_block (fun nb => push_rest (set_head bl nb) hd)
      else match overflow bl with
           | None => fresh_block (fun nb => set_overflow bl nb)
           | Some ov =>
               if size <=? room ov
               then (Ok (base_of ov + bb_cursor ov), mkhs (set_overflow bl (bump ov size)) w)
               else fresh_block (fun nb => push_rest (set_overflow bl nb) ov)
           end
  end.

Lemma set_head_same bl hd : head bl = Some hd -> set_head bl hd = bl.
Proof. destruct bl; cbn; intros ->; reflexivity. Qed.
Lemma set_overflow_same bl ov : overflow bl = Some ov -> set_overflow bl ov = bl.
Proof. destruct bl; cbn; intros ->; reflexivity. Qed.

Definition good (E : env) (s : hstate) : Prop :=
  Forall (bok E (w_calls (hs_world s))) (heap_blocks (hs_blocks s)).

Lemma good_head E s hd : good E s -> head (hs_blocks s) = Some hd -> bok E (w_calls (hs_world s)) hd.
Proof. unfold good, heap_blocks. intros H Hh. rewrite Hh in H. inversion H; assumption. Qed.
Lemma good_overflow E s ov :
  good E s -> overflow (hs_blocks s) = Some ov -> bok E (w_calls (hs_world s)) ov.
Proof.
  unfold good, heap_blocks. intros H Hh. rewrite Hh in H. apply Forall_app in H as [_ H].
  inversion H; assumption.
Qed.

Lemma find_space_place E s size :
  good E s -> 0 < size <= 32752 -> find_space E s size (class_of size) = place E s size.
Proof.
  intros Hg Hs. unfold find_space, place.
  assert (size_class_eqb (class_of size) Large = false) as ->
    by (unfold class_of; destruct (size <=? 128); reflexivity).
  assert (size_class_eqb (class_of size) Medium = negb (size <=? 128)) as ->
    by (unfold class_of; destruct (size <=? 128); reflexivity).
  destruct (head (hs_blocks s)) as [hd|] eqn:Hh.
  - pose proof (good_head _ _ _ Hg Hh) as Hb.
    assert (current_hole_size hd = Ok (room hd)) as Hhole.
    { unfold current_hole_size, room. destruct Hb as [-> H2 _ _ _].
      destruct (Z.ltb_spec 32768 (bb_cursor hd)); [lia|reflexivity]. }
    assert (room hd = 32768 - bb_cursor hd) as Hroom by reflexivity.
    assert (inner_alloc hd size = if size <=? room hd
              then (Ok (Some (base_of hd + bb_cursor hd)), bump hd size) else (Ok None, hd)) as Hia
      by (eapply inner_alloc_good; [exact Hb|lia]).
    destruct (Z.leb_spec size 128) as [Hsm|Hme]; cbn [negb andb].
    + rewrite Hia. destruct (Z.leb_spec size (room hd)) as [Hf|Hf]; [reflexivity|].
      rewrite bump_new_eq. destruct (sys E (w_calls (hs_world s)) L) as [p|].
      * rewrite inner_alloc_fresh by lia. reflexivity.
      * rewrite set_head_same by assumption. reflexivity.
    + rewrite Hhole.
      destruct (Z.ltb_spec (room hd) size) as [Hlt|Hge].
      * destruct (Z.leb_spec size (room hd)); [lia|].
        unfold overflow_alloc. rewrite CAP_eq.
        destruct (Z.leb_spec size 32752); [|lia]. cbn [negb].
        destruct (overflow (hs_blocks s)) as [ov|] eqn:Ho.
        -- pose proof (good_overflow _ _ _ Hg Ho) as Hbo.
           rewrite (inner_alloc_good _ _ _ size Hbo) by lia.
           destruct (Z.leb_spec size (room ov)); [reflexivity|].
           rewrite bump_new_eq. destruct (sys E (w_calls (hs_world s)) L) as [p|].
           ++ rewrite inner_alloc_fresh by lia. reflexivity.
           ++ rewrite set_overflow_same by assumption. reflexivity.
        -- rewrite bump_new_eq. destruct (sys E (w_calls (hs_world s)) L) as [p|]; [|reflexivity].
           rewrite inner_alloc_fresh by lia. reflexivity.
      * rewrite Hia. destruct (Z.leb_spec size (room hd)); [reflexivity|lia].
  - rewrite bump_new_eq. destruct (sys E (w_calls (hs_world s)) L) as [p|]; [|reflexivity].
    rewrite inner_alloc_fresh by lia. reflexivity.
Qed.

(** Abstract view of a placement: which block receives the space. *)
Inductive outcome (E : env) (s : hstate) (size : Z) : res alloc_error Z -> hstate -> Prop :=
| oc_reuse b others bl' :
    Permutation (heap_blocks (hs_blocks s)) (b :: others) ->
    Permutation (heap_blocks bl') (bump b size :: others) ->
    size <= room b -> rest bl' = rest (hs_blocks s) ->
    outcome E s size (Ok (base_of b + bb_cursor b)) (mkhs bl' (hs_world s))
| oc_new p bl' :
    sys E (w_calls (hs_world s)) L = Some p ->
    Permutation (heap_blocks bl') (fresh E (w_calls (hs_world s)) p (16 + size) ::
                                   heap_blocks (hs_blocks s)) ->
    (rest bl' = rest (hs_blocks s) \/
     exists old, rest bl' = rest (hs_blocks s) ++ [old] /\ room old < size) ->
    outcome E s size (Ok (p + 16)) (mkhs bl' (tick_new E (hs_world s) p))
| oc_oom : sys E (w_calls (hs_world s)) L = None ->
    outcome E s size (Err OOM) (mkhs (hs_blocks s) (tick (hs_world s))).

Lemma place_outcome E s size : 0 < size ->
  outcome E s size (fst (place E s size)) (snd (place E s size)).
Proof.
  intros Hs. unfold place. destruct s as [[hd ov re] w]. cbn [hs_blocks hs_world head overflow].
  destruct hd as [hd|].
  - destruct (Z.leb_spec size (room hd)) as [Hf|Hf].
    + apply (oc_reuse E (mkhs {| head := Some hd; overflow := ov; rest := re |} w) size hd (opt_list ov ++ re));
        [apply Permutation_refl|apply Permutation_refl|exact Hf|reflexivity].
    + destruct (Z.leb_spec size 128) as [H128|H128].
      * destruct (sys E (w_calls w) L) as [p|] eqn:Hsys; [|apply oc_oom; exact Hsys].
        apply oc_new; [exact Hsys| |].
        -- unfold heap_blocks; cbn. constructor.
           rewrite app_assoc. symmetry. apply Permutation_cons_append.
        -- right. exists hd. split; [reflexivity|lia].
      * destruct ov as [ov|].
        -- destruct (Z.leb_spec size (room ov)) as [Hfo|Hfo].
           ++ apply (oc_reuse E (mkhs {| head := Some hd; overflow := Some ov; rest := re |} w) size ov (hd :: re));
                [apply perm_swap|apply perm_swap|exact Hfo|reflexivity].
           ++ destruct (sys E (w_calls w) L) as [p|] eqn:Hsys; [|apply oc_oom; exact Hsys].
              apply oc_new; [exact Hsys| |].
              ** unfold heap_blocks; cbn. etransitivity; [apply perm_swap|]. do 2 constructor.
                 symmetry. apply Permutation_cons_append.
              ** right. exists ov. split; [reflexivity|lia].
        -- destruct (sys E (w_calls w) L) as [p|] eqn:Hsys; [|apply oc_oom; exact Hsys].
           apply oc_new; [exact Hsys|apply perm_swap|left; reflexivity].
  - destruct (sys E (w_calls w) L) as [p|] eqn:Hsys; [|apply oc_oom; exact Hsys].
    apply oc_new; [exact Hsys|reflexivity|left; reflexivity].
Qed.

(** ** Granted blocks *)
Lemma granted_S E n : granted E (S n) = granted E n ++ opt_list (sys E n L).
Proof.
  unfold granted. rewrite seq_S, flat_map_app. cbn. rewrite app_nil_r. fold L.
  destruct (sys E n L); reflexivity.
Qed.

Lemma granted_in E n p : In p (granted E n) <-> exists i, (i < n)%nat /\ sys E i L = Some p.
Proof.
  unfold granted. rewrite in_flat_map. fold L. split.
  - intros (i & Hi & Hp). apply in_seq in Hi. exists i. split; [lia|].
    destruct (sys E i L) as [q|]; [|destruct Hp]. destruct Hp as [->|[]]. reflexivity.
  - intros (i & Hi & Hp). exists i. split; [apply in_seq; lia|]. rewrite Hp. left; reflexivity.
Qed.

Lemma granted_disjoint E : sys_ok E -> forall i j p q,
  i <> j -> sys E i L = Some p -> sys E j L = Some q -> p + 32768 <= q \/ q + 32768 <= p.
Proof. intros HE i j p q Hij Hp Hq. exact (so_disjoint E HE i j L L p q Hij Hp Hq). Qed.

Lemma granted_nodup E n : sys_ok E -> NoDup (granted E n).
Proof.
  intros HE. induction n as [|n IH]; [constructor|].
  rewrite granted_S. destruct (sys E n L) as [p|] eqn:Hp; cbn [opt_list]; [|rewrite app_nil_r; exact IH].
  apply (Permutation_NoDup (l := p :: granted E n)); [apply Permutation_cons_append|].
  constructor; [|exact IH]. intros Hin. apply granted_in in Hin as (i & Hi & Hip).
  destruct (granted_disjoint E HE n i p p ltac:(lia) Hp Hip); lia.
Qed.

(** ** The invariant *)
Definition placed (H : header_impl) (blocks : list bump_block) (o : aobj) : Prop :=
  exists b, In b blocks /\ base_of b + 16 <= a_lo H o /\ a_hi H o <= base_of b + bb_cursor b.

Definition disjoint_objs (H : header_impl) (o1 o2 : aobj) : Prop :=
  a_hi H o1 <= a_lo H o2 \/ a_hi H o2 <= a_lo H o1.

Record obj_ok (H : header_impl) (m : memory) (o : aobj) : Prop := {
  ok_align : a_lo H o mod 8 = 0;
  ok_hdr : zlen (a_hdr o) = h_size H;
  ok_pos : 0 < storage_size (h_size H) (zlen (a_data o)) <= 32752;
  ok_data : mem_read m (a_ptr o) (length (a_data o)) = a_data o;
  ok_hread : mem_read m (a_lo H o) (length (a_hdr o)) = a_hdr o }.

Record Inv (E : env) (H : header_impl) (objs : list aobj) (s : hstate) : Prop := {
  inv_good : good E s;
  inv_granted : Permutation (map base_of (heap_blocks (hs_blocks s)))
                            (granted E (w_calls (hs_world s)));
  inv_placed : Forall (placed H (heap_blocks (hs_blocks s))) objs;
  inv_disj : ForallOrdPairs (disjoint_objs H) objs;
  inv_objs : Forall (obj_ok H (w_mem (hs_world s))) objs;
  inv_meta : Forall (fun b => mem_read (w_mem (hs_world s)) (base_of b) 8
                              = le_bytes 8 (bb_meta_addr b)) (heap_blocks (hs_blocks s));
  inv_freed : w_freed (hs_world s) = [];
  inv_rest : Forall (fun b => exists o, In o objs /\
                 room b < storage_size (h_size H) (zlen (a_data o))) (rest (hs_blocks s)) }.

Lemma Inv_init E H m : Inv E H [] (state0 m).
Proof. split; cbn; constructor. Qed.

Lemma ForallOrdPairs_app1 {A} (R : A -> A -> Prop) l x :
  ForallOrdPairs R l -> Forall (fun y => R y x) l -> ForallOrdPairs R (l ++ [x]).
Proof.
  induction 1 as [|a l Ha Hl IH]; intros Hx; cbn.
  - constructor; constructor.
  - inversion Hx; subst. constructor; [|apply IH; assumption].
    apply Forall_app. split; [assumption|]. constructor; [assumption|constructor].
Qed.

Lemma blocks_same_or_disjoint E H objs s b b' : sys_ok E -> Inv E H objs s ->
  In b (heap_blocks (hs_blocks s)) -> In b' (heap_blocks (hs_blocks s)) ->
  b = b' \/ base_of b + 32768 <= base_of b' \/ base_of b' + 32768 <= base_of b.
Proof.
  intros HE HI Hb Hb'. destruct HI as [Hg Hgr _ _ _ _ _ _].
  assert (NoDup (map base_of (heap_blocks (hs_blocks s)))) as Hnd.
  { eapply Permutation_NoDup; [symmetry; exact Hgr|apply granted_nodup; exact HE]. }
  unfold good in Hg. rewrite Forall_forall in Hg.
  destruct (bk_grant _ _ _ (Hg _ Hb)) as (i & Hi & Hsi & _).
  destruct (bk_grant _ _ _ (Hg _ Hb')) as (j & Hj & Hsj & _).
  destruct (Nat.eq_dec i j) as [->|Hij].
  - left. assert (base_of b = base_of b') as He by congruence.
    clear -Hnd Hb Hb' He. induction (heap_blocks (hs_blocks s)) as [|x l IH]; [destruct Hb|].
    cbn in Hnd. inversion Hnd as [|? ? Hni Hnd']; subst.
    destruct Hb as [->|Hb]; destruct Hb' as [->|Hb']; auto.
    + exfalso. apply Hni. rewrite He. apply in_map; assumption.
    + exfalso. apply Hni. rewrite <- He. apply in_map; assumption.
  - right. eapply granted_disjoint; eauto.
Qed.

Lemma obj_ok_frame H m m' o : hdr_ok H ->
  obj_ok H m o -> (forall x, a_lo H o <= x < a_hi H o -> m' x = m x) -> obj_ok H m' o.
Proof.
  intros HH [H1 H2 H3 H4 H5] Hfr.
  assert (h_size H + zlen (a_data o) <= storage_size (h_size H) (zlen (a_data o))) as Hsz
    by (pose proof (storage_round (h_size H) (zlen (a_data o))) as [_ ?]; lia).
  pose proof (ho_size H HH) as Hhs.
  split; auto.
  - rewrite <- H4 at 2. apply mem_read_ext. intros x Hx. apply Hfr.
    unfold a_hi, a_lo. pose proof (zlen_nonneg (a_data o)). unfold zlen in *. lia.
  - rewrite <- H5 at 2. apply mem_read_ext. intros x Hx. apply Hfr.
    unfold a_hi. fold (zlen (a_hdr o)) in Hx. pose proof (zlen_nonneg (a_data o)). lia.
Qed.

Lemma obj_in_block E H objs s o : Inv E H objs s -> In o objs ->
  exists b, In b (heap_blocks (hs_blocks s)) /\ bok E (w_calls (hs_world s)) b /\
            base_of b + 16 <= a_lo H o /\ a_hi H o <= base_of b + bb_cursor b.
Proof.
  intros HI Ho. pose proof (inv_placed _ _ _ _ HI) as Hp. rewrite Forall_forall in Hp.
  destruct (Hp _ Ho) as (b & Hb & H1). exists b. split; [exact Hb|]. split; [|exact H1].
  pose proof (inv_good _ _ _ _ HI) as Hg. unfold good in Hg. rewrite Forall_forall in Hg. auto.
Qed.

(** Effect of reserving [size] bytes and writing a header and payload there. *)
Definition new_obj (H : header_impl) (space : Z) (hdr data : list Z) : aobj :=
  {| a_ptr := space + h_size H; a_hdr := hdr; a_data := data |}.

Lemma Inv_alloc E H objs s hdr data space s1 :
  sys_ok E -> hdr_ok H -> Inv E H objs s ->
  let size := storage_size (h_size H) (zlen data) in
  0 < size <= 32752 -> zlen hdr = h_size H ->
  outcome E s size (Ok space) s1 ->
  Inv E H (objs ++ [new_obj H space hdr data])
      (w_write (w_write s1 space hdr) (space + h_size H) data).
Proof.
  intros HE HH HI size Hsize Hhdr Hout.
  pose proof (storage_round (h_size H) (zlen data)) as [Hr8 Hrb]. fold size in Hr8, Hrb.
  pose proof (ho_size H HH) as Hhs. pose proof (zlen_nonneg data) as Hd0.
  set (o := new_obj H space hdr data).
  assert (a_lo H o = space) as Hlo by (unfold a_lo, o; cbn; lia).
  assert (a_hi H o = space + size) as Hhi by (unfold a_hi; rewrite Hlo; reflexivity).
  set (mf := fun m => mem_write (mem_write m space hdr) (space + h_size H) data).
  assert (forall m x, x < space \/ space + size <= x -> mf m x = m x) as Hframe.
  { intros m x Hx. unfold mf. rewrite !mem_write_out by lia. reflexivity. }
  assert (forall m, mem_read (mf m) (a_ptr o) (length (a_data o)) = a_data o) as Hdata.
  { intros m. unfold mf, o, new_obj; cbn [a_ptr a_data]. apply mem_read_write_same. reflexivity. }
  assert (forall m, mem_read (mf m) (a_lo H o) (length (a_hdr o)) = a_hdr o) as Hhd.
  { intros m. rewrite Hlo. unfold mf, o, new_obj; cbn [a_hdr].
    rewrite mem_read_write_disjoint by (fold (zlen hdr); lia).
    apply mem_read_write_same. reflexivity. }
  assert (forall m, obj_ok H (mf m) o <-> space mod 8 = 0) as Hook.
  { intros m. split.
    - intros [Ha _ _ _ _]. rewrite Hlo in Ha. exact Ha.
    - intros Ha. split; [rewrite Hlo; exact Ha|exact Hhdr|exact Hsize|apply Hdata|apply Hhd]. }
  pose proof HI as [Hgood Hgr Hpl Hdj Hob Hme Hfr Hre].
  assert (forall x : bump_block, In x (rest (hs_blocks s)) -> exists o0, In o0 (objs ++ [o]) /\
             room x < storage_size (h_size H) (zlen (a_data o0))) as Hre1.
  { intros x Hx. rewrite Forall_forall in Hre. destruct (Hre x Hx) as (o0 & Ho0 & Hl).
    exists o0. split; [apply in_or_app; left; exact Ho0|exact Hl]. }
  inversion Hout as [b others bl' Hp1 Hp2 Hroom Hrest Hsp Hs1|p bl' Hsys Hp2 Hrest Hsp Hs1|]; subst s1; rewrite Hsp.
  - (* reuse of block b *)
    assert (In b (heap_blocks (hs_blocks s))) as Hbin
      by (eapply Permutation_in; [symmetry; exact Hp1|left; reflexivity]).
    assert (bok E (w_calls (hs_world s)) b) as Hbok
      by (unfold good in Hgood; rewrite Forall_forall in Hgood; auto).
    pose proof Hbok as [Hbl Hbc Hba Hbs (i & Hi & Hsi & Hmi)].
    assert (bok E (w_calls (hs_world s)) (bump b size)) as Hbok'.
    { split; cbn; [reflexivity| | |exact Hbs|exists i; auto].
      - unfold room in Hroom. lia.
      - lia. }
    assert (space mod 8 = 0) as Hspace8.
    { rewrite <- Hsp. destruct (so_valid E HE _ _ _ Hsi) as (_ & _ & Hal). cbn in Hal. lia. }
    assert (forall b', In b' others ->
      base_of b' + 32768 <= base_of b \/ base_of b + 32768 <= base_of b') as Hothers.
    { intros b' Hb'.
      assert (In b' (heap_blocks (hs_blocks s))) as Hb'in
        by (eapply Permutation_in; [symmetry; exact Hp1|right; exact Hb']).
      destruct (blocks_same_or_disjoint E H objs s b b' HE HI Hbin Hb'in) as [Heq|Hd]; [|lia].
      exfalso. subst b'.
      assert (NoDup (map base_of (b :: others))) as Hnd.
      { eapply Permutation_NoDup; [|apply granted_nodup with (n := w_calls (hs_world s)); exact HE].
        symmetry. etransitivity; [|exact Hgr]. apply Permutation_map. symmetry; exact Hp1. }
      apply NoDup_cons_iff in Hnd as [Hni _]. apply Hni. apply in_map. exact Hb'. }
    assert (forall b', In b' others -> bok E (w_calls (hs_world s)) b') as Hobok.
    { intros b' Hb'. unfold good in Hgood. rewrite Forall_forall in Hgood. apply Hgood.
      eapply Permutation_in; [symmetry; exact Hp1|right; exact Hb']. }
    assert (forall o', In o' objs -> a_hi H o' <= space \/ space + size <= a_lo H o') as Hsep.
    { intros o' Ho'. rewrite Forall_forall in Hpl. destruct (Hpl _ Ho') as (b' & Hb' & H1 & H2).
      eapply Permutation_in in Hb'; [|exact Hp1]. destruct Hb' as [<-|Hb'].
      - left. lia.
      - destruct (Hobok _ Hb') as [_ Hc' _ _ _]. unfold room in Hroom.
        destruct (Hothers _ Hb'); lia. }
    split; cbn [hs_blocks hs_world w_write mkhs w_mem w_calls w_freed].
    + unfold good; cbn. rewrite Forall_forall. intros x Hx.
      eapply Permutation_in in Hx; [|exact Hp2]. destruct Hx as [<-|Hx]; [exact Hbok'|auto].
    + etransitivity; [apply Permutation_map; exact Hp2|].
      etransitivity; [|exact Hgr]. symmetry. etransitivity; [apply Permutation_map; exact Hp1|].
      reflexivity.
    + apply Forall_app. split.
      * rewrite Forall_forall in *. intros o' Ho'. destruct (Hpl _ Ho') as (b' & Hb' & H1 & H2).
        eapply Permutation_in in Hb'; [|exact Hp1]. destruct Hb' as [<-|Hb'].
        -- exists (bump b size). split; [eapply Permutation_in; [symmetry; exact Hp2|left; reflexivity]|].
           cbn. change (base_of (bump b size)) with (base_of b). lia.
        -- exists b'. split; [eapply Permutation_in; [symmetry; exact Hp2|right; exact Hb']|lia].
      * constructor; [|constructor]. exists (bump b size).
        split; [eapply Permutation_in; [symmetry; exact Hp2|left; reflexivity]|].
        rewrite Hlo, Hhi, <- Hsp. change (base_of (bump b size)) with (base_of b).
        cbn [bump bb_set bb_cursor]. lia.
    + apply ForallOrdPairs_app1; [exact Hdj|]. rewrite Forall_forall. intros o' Ho'.
      unfold disjoint_objs. rewrite Hlo, Hhi. destruct (Hsep _ Ho'); lia.
    + apply Forall_app. split.
      * rewrite Forall_forall in *. intros o' Ho'. eapply obj_ok_frame; [exact HH|apply Hob; exact Ho'|].
        intros x Hx. apply Hframe. destruct (Hsep _ Ho'); lia.
      * constructor; [|constructor]. apply Hook. exact Hspace8.
    + rewrite Forall_forall in *. intros x Hx.
      eapply Permutation_in in Hx; [|exact Hp2].
      rewrite <- (mem_read_ext (w_mem (hs_world s))).
      * destruct Hx as [<-|Hx]; [exact (Hme _ Hbin)|]. apply Hme.
        eapply Permutation_in; [symmetry; exact Hp1|right; exact Hx].
      * intros y Hy. symmetry. apply Hframe. destruct Hx as [<-|Hx].
        -- change (base_of (bump b size)) with (base_of b) in Hy. lia.
        -- unfold room in Hroom. destruct (Hothers _ Hx); lia.
    + exact Hfr.
    + rewrite Hrest. rewrite Forall_forall. exact Hre1.
  - (* a new block at p *)
    set (nb := fresh E (w_calls (hs_world s)) p (16 + size)) in *.
    destruct (so_valid E HE _ _ _ Hsys) as (Hp0 & Hp64 & Hpal). cbn in Hp64, Hpal.
    assert (space mod 8 = 0) as Hspace8 by lia.
    assert (bok E (S (w_calls (hs_world s))) nb) as Hnbok.
    { split; cbn; [reflexivity|lia|lia|reflexivity|].
      exists (w_calls (hs_world s)). split; [lia|]. split; [exact Hsys|reflexivity]. }
    assert (forall b', In b' (heap_blocks (hs_blocks s)) -> bok E (w_calls (hs_world s)) b') as Hobok
      by (unfold good in Hgood; rewrite Forall_forall in Hgood; exact Hgood).
    assert (forall b', In b' (heap_blocks (hs_blocks s)) ->
      base_of b' + 32768 <= p \/ p + 32768 <= base_of b') as Hothers.
    { intros b' Hb'. destruct (Hobok _ Hb') as [_ _ _ _ (i & Hi & Hsi & _)].
      eapply (granted_disjoint E HE i (w_calls (hs_world s))); [lia|exact Hsi|exact Hsys]. }
    assert (forall o', In o' objs -> a_hi H o' <= p \/ p + 32768 <= a_lo H o') as Hsep.
    { intros o' Ho'. rewrite Forall_forall in Hpl. destruct (Hpl _ Ho') as (b' & Hb' & H1 & H2).
      destruct (Hobok _ Hb') as [_ Hc' _ _ _]. destruct (Hothers _ Hb'); lia. }
    set (m1 := mem_write (w_mem (hs_world s)) p (le_bytes 8 (boxaddr E (w_calls (hs_world s))))).
    assert (forall x, x < p \/ p + 32768 <= x -> mf m1 x = w_mem (hs_world s) x) as Hframe1.
    { intros x Hx. rewrite Hframe by lia. unfold m1. apply mem_write_out.
      unfold zlen. rewrite le_bytes_length. lia. }
    split; cbn [hs_blocks hs_world w_write mkhs w_mem w_calls w_freed tick_new].
    + unfold good; cbn. rewrite Forall_forall. intros x Hx.
      eapply Permutation_in in Hx; [|exact Hp2]. destruct Hx as [<-|Hx]; [exact Hnbok|].
      eapply bok_mono; [|apply Hobok; exact Hx]. lia.
    + rewrite granted_S, Hsys. cbn [opt_list].
      etransitivity; [apply Permutation_map; exact Hp2|]. cbn [map].
      change (base_of nb) with p.
      etransitivity; [|apply Permutation_cons_append]. constructor. exact Hgr.
    + apply Forall_app. split.
      * rewrite Forall_forall in *. intros o' Ho'. destruct (Hpl _ Ho') as (b' & Hb' & H1).
        exists b'. split; [eapply Permutation_in; [symmetry; exact Hp2|right; exact Hb']|exact H1].
      * constructor; [|constructor]. exists nb.
        split; [eapply Permutation_in; [symmetry; exact Hp2|left; reflexivity]|].
        rewrite Hlo, Hhi. change (base_of nb) with p. cbn [nb fresh bb_cursor]. lia.
    + apply ForallOrdPairs_app1; [exact Hdj|]. rewrite Forall_forall. intros o' Ho'.
      unfold disjoint_objs. rewrite Hlo, Hhi. destruct (Hsep _ Ho'); lia.
    + apply Forall_app. split.
      * rewrite Forall_forall in *. intros o' Ho'. eapply obj_ok_frame; [exact HH|apply Hob; exact Ho'|].
        intros x Hx. apply Hframe1. destruct (Hsep _ Ho'); lia.
      * constructor; [|constructor]. apply (Hook m1). exact Hspace8.
    + rewrite Forall_forall in *. intros x Hx.
      eapply Permutation_in in Hx; [|exact Hp2]. destruct Hx as [<-|Hx].
      * change (base_of nb) with p. cbn [nb fresh bb_meta_addr].
        rewrite (mem_read_ext _ m1) by (intros y Hy; apply Hframe; lia).
        unfold m1. apply mem_read_write_same. rewrite le_bytes_length. reflexivity.
      * rewrite <- (Hme _ Hx). apply mem_read_ext. intros y Hy. apply Hframe1.
        destruct (Hothers _ Hx); lia.
    + exact Hfr.
    + destruct Hrest as [->|(old & -> & Hold)]; [rewrite Forall_forall; exact Hre1|].
      apply Forall_app. split; [rewrite Forall_forall; exact Hre1|].
      constructor; [|constructor]. exists o. split; [apply in_or_app; right; left; reflexivity|exact Hold].
Qed.

Lemma Inv_tick E H objs s : Inv E H objs s -> sys E (w_calls (hs_world s)) L = None ->
  Inv E H objs (mkhs (hs_blocks s) (tick (hs_world s))).
Proof.
  intros [Hgood Hgr Hpl Hdj Hob Hme Hfr Hre] Hn. split; unfold mkhs, tick; cbn [hs_blocks hs_world w_calls w_mem w_freed]; auto.
  - unfold good in *. cbn. eapply Forall_impl; [|exact Hgood]. intros b. apply bok_mono. lia.
  - rewrite granted_S, Hn. cbn. rewrite app_nil_r. exact Hgr.
Qed.

(** ** The two allocation calls *)
Lemma usize_add_ok a b : 0 <= a -> 0 <= b -> a + b < 2 ^ 64 -> usize_add a b = Ok (a + b).
Proof.
  intros. unfold usize_add. destruct (Z.ltb_spec USIZE_MAX (a + b)) as [Hov|_]; [rewrite UMAX_eq in Hov; lia|].
  reflexivity.
Qed.

Definition class_ok (sz : Z) : bool := (0 <? sz) && (sz <=? 32752).

Lemma class_of_served sz : 0 < sz <= 32752 -> get_for_size sz = Ok (class_of sz).
Proof.
  intros H. rewrite get_for_size_spec by lia. unfold class_of.
  destruct (Z.eqb_spec sz 0); [lia|]. destruct (Z.leb_spec sz 128); [reflexivity|].
  destruct (Z.leb_spec sz 32752); [reflexivity|lia].
Qed.

Lemma find_space_rejected E s sz : 0 <= sz -> class_ok sz = false ->
  match get_for_size sz with
  | Ok c => find_space E s sz c = (Err BadRequest, s)
  | Err e => e = BadRequest
  | Panic _ => False
  end.
Proof.
  intros H0 Hc. unfold class_ok in Hc. rewrite get_for_size_spec by lia.
  destruct (Z.eqb_spec sz 0); [reflexivity|].
  destruct (Z.ltb_spec 0 sz); [|lia]. cbn [andb] in Hc.
  destruct (Z.leb_spec sz 32752); [discriminate|].
  destruct (Z.leb_spec sz 128); [lia|].
  destruct (Z.leb_spec sz 4294967295); reflexivity.
Qed.

(** Common form of [alloc] and [alloc_array]. *)
Definition request (E : env) (H : header_impl) (s : hstate) (n : Z)
           (hdr : size_class -> list Z) (data : list Z) : res alloc_error Z * hstate :=
  let sz := storage_size (h_size H) n in
  if class_ok sz then
    match place E s sz with
    | (Ok space, s1) =>
        (Ok (space + h_size H),
         w_write (w_write s1 space (hdr (class_of sz))) (space + h_size H) data)
    | (Err e, s1) => (Err e, s1)
    | (Panic p, s1) => (Panic p, s1)
    end
  else (Err BadRequest, s).

Lemma request_alloc E H s ob :
  hdr_ok H -> good E s -> zlen (ob_bytes ob) < 2 ^ 62 ->
  alloc E H s ob = request E H s (zlen (ob_bytes ob))
     (fun c => h_new H (ob_tid ob) (zlen (ob_bytes ob)) c Allocated) (ob_bytes ob).
Proof.
  intros HH Hg Hn. pose proof (ho_size H HH) as Hhs. pose proof (zlen_nonneg (ob_bytes ob)) as H0.
  unfold alloc, request. rewrite usize_add_ok by lia.
  rewrite alloc_size_of_eq by lia.
  change (8 * ((h_size H + zlen (ob_bytes ob) + 7) / 8)) with (storage_size (h_size H) (zlen (ob_bytes ob))).
  set (sz := storage_size (h_size H) (zlen (ob_bytes ob))).
  pose proof (storage_round (h_size H) (zlen (ob_bytes ob))) as [Hr8 Hrb]. fold sz in Hr8, Hrb.
  destruct (class_ok sz) eqn:Hc.
  - unfold class_ok in Hc. apply andb_true_iff in Hc as [Hc1 Hc2].
    rewrite class_of_served by lia. rewrite find_space_place by (assumption || lia).
    assert (as_u32 (zlen (ob_bytes ob)) = zlen (ob_bytes ob)) as ->.
    { unfold as_u32. apply Z.mod_small. lia. }
    destruct (place E s sz) as [[space|e|p] s1]; reflexivity.
  - pose proof (find_space_rejected E s sz ltac:(lia) Hc) as Hrej.
    destruct (get_for_size sz) as [c|e|p]; [rewrite Hrej; reflexivity|rewrite Hrej; reflexivity|destruct Hrej].
Qed.

Lemma request_array E H s n :
  hdr_ok H -> good E s -> 0 <= n < 2 ^ 32 ->
  alloc_array E H s n = request E H s n (fun c => h_new_array H n c Allocated) (zrepeat 0 n).
Proof.
  intros HH Hg Hn. pose proof (ho_size H HH) as Hhs.
  unfold alloc_array, request. rewrite usize_add_ok by lia.
  rewrite alloc_size_of_eq by lia.
  change (8 * ((h_size H + n + 7) / 8)) with (storage_size (h_size H) n).
  set (sz := storage_size (h_size H) n).
  pose proof (storage_round (h_size H) n) as [Hr8 Hrb]. fold sz in Hr8, Hrb.
  destruct (class_ok sz) eqn:Hc.
  - unfold class_ok in Hc. apply andb_true_iff in Hc as [Hc1 Hc2].
    rewrite class_of_served by lia. rewrite find_space_place by (assumption || lia).
    destruct (place E s sz) as [[space|e|p] s1]; reflexivity.
  - pose proof (find_space_rejected E s sz ltac:(lia) Hc) as Hrej.
    destruct (get_for_size sz) as [c|e|p]; [rewrite Hrej; reflexivity|rewrite Hrej; reflexivity|destruct Hrej].
Qed.

Lemma Inv_request E H objs s n hdr data r s' :
  sys_ok E -> hdr_ok H -> Inv E H objs s -> zlen data = n ->
  (forall c, zlen (hdr c) = h_size H) ->
  request E H s n hdr data = (r, s') ->
  match r with
  | Ok p => Inv E H (objs ++ [{| a_ptr := p; a_hdr := hdr (class_of (storage_size (h_size H) n));
                                 a_data := data |}]) s'
            /\ 0 < storage_size (h_size H) n <= 32752
  | Err BadRequest => s' = s /\ (storage_size (h_size H) n <= 0 \/ 32752 < storage_size (h_size H) n)
  | Err OOM => Inv E H objs s' /\ hs_blocks s' = hs_blocks s /\ hs_world s' = tick (hs_world s)
               /\ sys E (w_calls (hs_world s)) L = None /\ 0 < storage_size (h_size H) n <= 32752
  | Panic _ => False
  end.
Proof.
  intros HE HH HI Hn Hhdr Hreq. unfold request in Hreq.
  set (sz := storage_size (h_size H) n) in *.
  destruct (class_ok sz) eqn:Hc; unfold class_ok in Hc.
  - apply andb_true_iff in Hc as [Hc1 Hc2].
    assert (0 < sz <= 32752) as Hsz by lia.
    pose proof (place_outcome E s sz ltac:(lia)) as Hout.
    destruct (place E s sz) as [[space|e|p] s1]; cbn [fst snd] in Hout.
    + injection Hreq as <- <-. split; [|exact Hsz].
      subst n. exact (Inv_alloc E H objs s (hdr (class_of sz)) data space s1 HE HH HI Hsz (Hhdr _) Hout).
    + inversion Hout as [| |Hn']; subst. injection Hreq as <- <-.
      split; [apply Inv_tick; assumption|]. auto.
    + inversion Hout.
  - injection Hreq as <- <-. split; [reflexivity|].
    apply andb_false_iff in Hc as [Hc|Hc]; lia.
Qed.

Lemma Inv_write E H objs s p off bs :
  sys_ok E -> hdr_ok H -> Inv E H objs s -> op_legal objs (OpWrite p off bs) ->
  Inv E H (map (fun x => if a_ptr x =? p then a_write x off bs else x) objs) (w_write s (p + off) bs).
Proof.
  intros HE HH HI (x & Hx & Hp & Hoff & Hlen). pose proof HI as [Hgood Hgr Hpl Hdj Hob Hme Hfr Hre].
  pose proof (ho_size H HH) as Hhs.
  destruct (obj_in_block _ _ _ _ _ HI Hx) as (bx & Hbx & Hbokx & Hx1 & Hx2).
  assert (forall o, In o objs -> h_size H + zlen (a_data o) <= storage_size (h_size H) (zlen (a_data o))) as Hsz
    by (intros o _; pose proof (storage_round (h_size H) (zlen (a_data o))) as [_ ?]; lia).
  assert (forall o, In o objs -> a_ptr o = p -> o = x) as Huniq.
  { intros o Ho Hop.
    assert (o = x \/ disjoint_objs H o x) as [|Hd]; [|assumption|exfalso].
    { clear -Hdj Ho Hx. induction Hdj as [|a l Ha Hl IH]; [destruct Ho|].
      rewrite Forall_forall in Ha. destruct Ho as [->|Ho]; destruct Hx as [->|Hx]; auto.
      right. unfold disjoint_objs. destruct (Ha _ Ho); auto. }
    rewrite Forall_forall in Hob. pose proof (ok_pos _ _ _ (Hob _ Ho)). pose proof (ok_pos _ _ _ (Hob _ Hx)).
    unfold disjoint_objs, a_hi, a_lo in Hd. lia. }
  assert (forall o, In o objs -> o <> x -> disjoint_objs H o x) as Hdis.
  { intros o Ho Hne. clear -Hdj Ho Hx Hne. induction Hdj as [|a l Ha Hl IH]; [destruct Ho|].
    rewrite Forall_forall in Ha. destruct Ho as [->|Ho]; destruct Hx as [->|Hx]; auto; [contradiction|].
    unfold disjoint_objs. destruct (Ha _ Ho); auto. }
  set (f := fun y => if a_ptr y =? p then a_write y off bs else y).
  assert (forall o, In o objs -> a_lo H (f o) = a_lo H o /\ a_hi H (f o) = a_hi H o
                                 /\ zlen (a_data (f o)) = zlen (a_data o)) as Hf.
  { intros o Ho. unfold f. destruct (Z.eqb_spec (a_ptr o) p) as [He|He]; [|auto].
    pose proof (Huniq o Ho He) as ->.
    assert (zlen (splice (a_data x) off bs) = zlen (a_data x)) as Hl
      by (unfold zlen at 1; rewrite splice_length by assumption; reflexivity).
    unfold a_hi, a_lo, a_write; cbn. rewrite Hl. auto. }
  assert (forall y, y < a_ptr x \/ a_ptr x + zlen (a_data x) <= y ->
            mem_write (w_mem (hs_world s)) (p + off) bs y = w_mem (hs_world s) y) as Hframe
    by (intros y Hy; apply mem_write_out; lia).
  assert (a_ptr x = a_lo H x + h_size H) as Hxp by (unfold a_lo; lia).
  assert (a_ptr x + zlen (a_data x) <= a_hi H x) as Hxe by (unfold a_hi, a_lo; specialize (Hsz x Hx); lia).
  split; cbn [hs_blocks hs_world w_write mkhs w_mem w_calls w_freed].
  - exact Hgood.
  - exact Hgr.
  - apply Forall_map. rewrite Forall_forall in *. intros o Ho. fold (f o).
    destruct (Hpl _ Ho) as (b & Hb & H1).
    exists b. split; [exact Hb|]. destruct (Hf o Ho) as (E1 & E2 & _). rewrite E1, E2. exact H1.
  - fold f. clear -Hdj Hf. induction Hdj as [|a l Ha Hl IH]; cbn; constructor.
    + apply Forall_map. rewrite Forall_forall in *. intros o Ho. unfold disjoint_objs.
      destruct (Hf a) as (-> & -> & _); [left; reflexivity|].
      destruct (Hf o) as (-> & -> & _); [right; exact Ho|]. apply Ha; exact Ho.
    + apply IH. intros o Ho. apply Hf. right; exact Ho.
  - apply Forall_map. rewrite Forall_forall in *. intros o Ho. fold (f o).
    destruct (Z.eq_dec (a_ptr o) p) as [He|He].
    + pose proof (Huniq o Ho He) as ->. destruct (Hf x Hx) as (E1 & E2 & E3).
      pose proof (Hob x Hx) as [O1 O2 O3 O4 O5].
      assert (f x = a_write x off bs) as Efx by (unfold f; destruct (Z.eqb_spec (a_ptr x) p); [reflexivity|contradiction]).
      split; [rewrite E1; exact O1| |rewrite E3; exact O3| |].
      * rewrite Efx; exact O2.
      * rewrite Efx. cbn [a_write a_ptr a_data].
        rewrite splice_length by assumption. rewrite <- He. rewrite mem_read_splice by assumption.
        rewrite O4. reflexivity.
      * rewrite E1, Efx. cbn [a_write a_hdr]. rewrite <- O5 at 2.
        apply mem_read_ext. intros y Hy. apply Hframe. fold (zlen (a_hdr x)) in Hy. lia.
    + assert (f o = o) as -> by (unfold f; destruct (Z.eqb_spec (a_ptr o) p); [contradiction|reflexivity]).
      eapply obj_ok_frame; [exact HH|apply Hob; exact Ho|].
      intros y Hy. apply Hframe.
      assert (o <> x) as Hne by (intros ->; contradiction).
      destruct (Hdis o Ho Hne); lia.
  - rewrite Forall_forall in *. intros b Hb. rewrite <- (Hme b Hb).
    apply mem_read_ext. intros y Hy. apply Hframe.
    pose proof (inv_good _ _ _ _ HI) as Hg. unfold good in Hg. rewrite Forall_forall in Hg.
    destruct Hbokx as [_ Hcx _ _ _]. pose proof (zlen_nonneg (a_data x)).
    unfold a_hi in *.
    destruct (blocks_same_or_disjoint E H objs s b bx HE HI Hb Hbx) as [->|Hd]; lia.
  - exact Hfr.
  - rewrite Forall_forall in *. intros b Hb. destruct (Hre b Hb) as (o & Ho & Hl).
    exists (f o). split; [apply in_map; exact Ho|]. destruct (Hf o Ho) as (_ & _ & ->). exact Hl.
Qed.
