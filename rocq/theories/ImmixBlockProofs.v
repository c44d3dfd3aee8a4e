(** Lemmas about sizes, hole search and bump allocation in one block. *)
From Coq Require Import Lia ZifyBool.
From Verif Require Import Prelude ImmixModel ImmixSpec.
Ltac Zify.zify_post_hook ::= Z.div_mod_to_equations.
Arguments Z.mul : simpl never.
Arguments Z.add : simpl never.
Arguments Z.sub : simpl never.
Arguments Z.div : simpl never.
Arguments Z.modulo : simpl never.
Arguments Z.pow : simpl never.

(** ** Constants *)
Lemma BLOCK_SIZE_eq : BLOCK_SIZE = 32768. Proof. reflexivity. Qed.
Lemma LINE_SIZE_eq : LINE_SIZE = 128. Proof. reflexivity. Qed.
Lemma LINE_COUNT_eq : LINE_COUNT = 256. Proof. reflexivity. Qed.
Lemma FIRST_eq : FIRST_OBJECT_OFFSET = 16. Proof. reflexivity. Qed.
Lemma CAP_eq : BLOCK_CAPACITY = 32752. Proof. reflexivity. Qed.
Lemma UMAX_eq : USIZE_MAX = 18446744073709551615. Proof. reflexivity. Qed.
Ltac consts := rewrite ?BLOCK_SIZE_eq, ?LINE_SIZE_eq, ?LINE_COUNT_eq, ?FIRST_eq, ?CAP_eq, ?UMAX_eq in *.

(** ** Vec lemmas *)
Lemma znth_nth_error {A} (l : list A) i :
  0 <= i -> znth l i = nth_error l (Z.to_nat i).
Proof.
  revert i; induction l as [|x l IH]; intros i Hi; cbn [znth].
  - destruct (Z.to_nat i); reflexivity.
  - destruct (Z.eqb_spec i 0) as [->|Hne]; [reflexivity|].
    rewrite IH by lia. replace (Z.to_nat i) with (S (Z.to_nat (i - 1))) by lia. reflexivity.
Qed.

Lemma znth_neg {A} (l : list A) i : i < 0 -> znth l i = None.
Proof.
  revert i; induction l as [|x l IH]; intros i Hi; cbn [znth]; [reflexivity|].
  destruct (Z.eqb_spec i 0); [lia|]. apply IH; lia.
Qed.

Lemma znth_Some_range {A} (l : list A) i x : znth l i = Some x -> 0 <= i < zlen l.
Proof.
  intros H. destruct (Z_lt_dec i 0) as [Hn|Hn]; [rewrite znth_neg in H by lia; discriminate|].
  rewrite znth_nth_error in H by lia.
  assert (nth_error l (Z.to_nat i) <> None) as H1 by congruence.
  apply nth_error_Some in H1. unfold zlen; lia.
Qed.

Lemma znth_None {A} (l : list A) i : zlen l <= i -> znth l i = None.
Proof.
  intros H. destruct (znth l i) eqn:E; [|reflexivity]. apply znth_Some_range in E; lia.
Qed.

Lemma znth_in_range {A} (l : list A) i : 0 <= i < zlen l -> exists x, znth l i = Some x.
Proof.
  intros H. rewrite znth_nth_error by lia.
  destruct (nth_error l (Z.to_nat i)) eqn:E; [eauto|].
  apply nth_error_None in E. unfold zlen in H; lia.
Qed.

Lemma skipn_znth {A} (l : list A) i x r :
  0 <= i -> skipn (Z.to_nat i) l = x :: r -> znth l i = Some x /\ skipn (Z.to_nat (i + 1)) l = r.
Proof.
  intros Hi Hs. rewrite znth_nth_error by lia.
  replace (Z.to_nat (i + 1)) with (S (Z.to_nat i)) by lia.
  remember (Z.to_nat i) as n eqn:En. clear En Hi i.
  revert l Hs. induction n as [|n IH]; intros l Hs.
  - destruct l as [|y l]; cbn in Hs; [discriminate|]. injection Hs as -> ->. split; reflexivity.
  - destruct l as [|y l]; cbn in Hs; [discriminate|]. apply IH in Hs. exact Hs.
Qed.

Lemma skipn_nil_len {A} (l : list A) i : 0 <= i -> skipn (Z.to_nat i) l = [] -> zlen l <= i.
Proof.
  intros Hi H. assert (length (skipn (Z.to_nat i) l) = O) as H1 by (rewrite H; reflexivity).
  rewrite skipn_length in H1. unfold zlen; lia.
Qed.

(** ** Rounding and classes *)
Lemma land_not7 s : 0 <= s < 2 ^ 64 -> Z.land s (unot 7) = 8 * (s / 8).
Proof.
  intros Hs.
  assert (unot 7 = Z.ldiff (Z.ones 64) (Z.ones 3)) as -> by reflexivity.
  assert (Z.land s (Z.ldiff (Z.ones 64) (Z.ones 3)) = Z.ldiff (Z.land s (Z.ones 64)) (Z.ones 3)) as ->.
  { apply Z.bits_inj'; intros n Hn. rewrite !Z.land_spec, !Z.ldiff_spec, Z.land_spec.
    rewrite Bool.andb_assoc. reflexivity. }
  rewrite Z.land_ones by lia. rewrite (Z.mod_small s) by lia.
  rewrite Z.ldiff_ones_r by lia.
  rewrite Z.shiftr_div_pow2, Z.shiftl_mul_pow2 by lia.
  change (2 ^ 3) with 8. lia.
Qed.

Lemma alloc_size_of_eq n : 0 <= n -> n + 7 < 2 ^ 64 -> alloc_size_of n = Ok (8 * ((n + 7) / 8)).
Proof.
  intros Hn Hb. unfold alloc_size_of, usize_add, WORD.
  destruct (Z.ltb_spec USIZE_MAX (n + (8 - 1))) as [Hl|Hl]; [rewrite UMAX_eq in Hl; lia|].
  f_equal. change (8 - 1) with 7. rewrite land_not7 by lia. reflexivity.
Qed.

Lemma alloc_size_of_round n r : 0 <= n -> n + 7 < 2 ^ 64 ->
  (alloc_size_of n = Ok r <-> round8 n r).
Proof.
  intros Hn Hb. rewrite alloc_size_of_eq by assumption. unfold round8. split.
  - intros E. assert (r = 8 * ((n + 7) / 8)) by congruence. lia.
  - intros [H1 H2]. f_equal. lia.
Qed.

Lemma alloc_size_of_overflow n : 0 <= n < 2 ^ 64 -> 2 ^ 64 <= n + 7 ->
  alloc_size_of n = Panic POverflow.
Proof.
  intros Hn Hb. unfold alloc_size_of, usize_add, WORD.
  destruct (Z.ltb_spec USIZE_MAX (n + (8 - 1))) as [Hl|Hl]; [reflexivity|rewrite UMAX_eq in Hl; lia].
Qed.

Lemma get_for_size_spec n : 0 <= n ->
  get_for_size n =
  if n =? 0 then Err BadRequest
  else if n <=? 128 then Ok Small
  else if n <=? 32752 then Ok Medium
  else if n <=? 4294967295 then Ok Large else Err BadRequest.
Proof.
  intros Hn. unfold get_for_size.
  change SMALL_OBJECT_MIN with 1; change SMALL_OBJECT_MAX with 128; change MEDIUM_OBJECT_MIN with 129;
  change MEDIUM_OBJECT_MAX with 32752; change LARGE_OBJECT_MIN with 32753;
  change LARGE_OBJECT_MAX with 4294967295.
  destruct (Z.eqb_spec n 0).
  { subst n; reflexivity. }
  destruct (Z.leb_spec 1 n); [|lia].
  destruct (Z.leb_spec n 128); cbn [andb]; [reflexivity|].
  destruct (Z.leb_spec 129 n); [|lia].
  destruct (Z.leb_spec n 32752); cbn [andb]; [reflexivity|].
  destruct (Z.leb_spec 32753 n); [|lia].
  destruct (Z.leb_spec n 4294967295); cbn [andb]; reflexivity.
Qed.

(** ** Hole search *)
Definition first_run (lines : list bool) (k s e : Z) : Prop :=
  usable_run lines k s e /\ forall i, k <= i < s -> ~ usable lines k i.

Lemma marked_not_unmarked lines i : znth lines i = Some true -> ~ unmarked lines i.
Proof. unfold unmarked; congruence. Qed.

Section HoleLoop.
  Variable lines : list bool.
  Variable k : Z.
  Hypothesis Hlen : zlen lines = 256.
  Hypothesis Hk : 0 <= k.

  Inductive loop_inv (i count : Z) (start : option Z) (stop : Z) : Prop :=
  | inv_marked : count = 0 -> start = None ->
      (i = k \/ ~ unmarked lines (i - 1)) ->
      (forall j, k <= j < i -> ~ usable lines k j) -> loop_inv i count start stop
  | inv_conservative : count = 1 -> start = None -> k <= i - 1 -> unmarked lines (i - 1) ->
      (forall j, k <= j < i -> ~ usable lines k j) -> loop_inv i count start stop
  | inv_hole s : 1 <= count -> start = Some s -> stop = i -> k <= s < i -> i < 256 ->
      (forall j, s <= j < i -> usable lines k j) ->
      (forall j, k <= j < s -> ~ usable lines k j) -> loop_inv i count start stop.

  Lemma not_usable_before s :
    (forall j, k <= j < s -> ~ usable lines k j) -> ~ usable lines k (s - 1).
  Proof. intros H Hu. pose proof Hu as [H1 _]. apply (H (s - 1)); [lia|exact Hu]. Qed.

  Lemma usable_256 : ~ usable lines k 256.
  Proof.
    intros (_ & Hu & _). unfold unmarked in Hu. apply znth_Some_range in Hu. lia.
  Qed.

  Lemma hole_loop_spec rest : forall i count start stop,
    k <= i -> rest = skipn (Z.to_nat i) lines -> loop_inv i count start stop ->
    match hole_loop rest i count start stop with
    | Some (c, l) => exists s e, c = s * 128 /\ l = e * 128 /\ first_run lines k s e
    | None => forall j, ~ usable lines k j
    end.
  Proof.
    induction rest as [|marked rest IH]; intros i count start stop Hki Hrest Hinv.
    - cbn [hole_loop]. symmetry in Hrest. apply skipn_nil_len in Hrest; [|lia].
      intros j Hj.
      assert (0 <= j < 256) as Hjr.
      { destruct Hj as (? & Hu & _). unfold unmarked in Hu. apply znth_Some_range in Hu. lia. }
      pose proof Hj as (Hj1 & _).
      destruct Hinv as [_ _ _ Hn|_ _ _ _ Hn|s _ _ _ _ Hlt _ _]; [| |lia];
        (apply (Hn j); [lia|exact Hj]).
    - symmetry in Hrest. apply skipn_znth in Hrest as [Hnth Hskip]; [|lia].
      pose proof (znth_Some_range _ _ _ Hnth) as Hir. rewrite Hlen in Hir.
      cbn [hole_loop]. rewrite LINE_COUNT_eq.
      destruct marked; cbn [negb andb orb].
      + (* marked line *)
        apply marked_not_unmarked in Hnth as Hnu.
        assert (~ usable lines k i) as Hni by (intros (_ & Hu & _); auto).
        assert (forall j, k <= j < i + 1 -> (forall j0, k <= j0 < i -> ~ usable lines k j0) ->
                 ~ usable lines k j) as Hext.
        { intros j Hj Hall. destruct (Z.eq_dec j i) as [->|]; [exact Hni|apply Hall; lia]. }
        destruct Hinv as [Hc Hs Hprev Hn|Hc Hs Hk1 Hprev Hn|s Hc Hs Hst Hsr Hlt Hall Hn].
        * subst count start. cbn [Z.ltb Z.compare].
          apply IH; [lia|symmetry; exact Hskip|].
          apply inv_marked; [reflexivity|reflexivity|right; rewrite Z.add_simpl_r; exact Hnu|].
          intros j Hj; apply Hext; [lia|exact Hn].
        * subst count start. cbn [Z.ltb Z.compare].
          apply IH; [lia|symmetry; exact Hskip|].
          apply inv_marked; [reflexivity|reflexivity|right; rewrite Z.add_simpl_r; exact Hnu|].
          intros j Hj; apply Hext; [lia|exact Hn].
        * subst start stop. destruct (Z.ltb_spec 0 count); [|lia].
          rewrite LINE_SIZE_eq. exists s, i. split; [reflexivity|]. split; [reflexivity|].
          split; [|exact Hn]. split; [lia|]. split; [exact Hall|].
          split; [exact Hni|]. apply not_usable_before; exact Hn.
      + (* unmarked line *)
        assert (unmarked lines i) as Hu by exact Hnth.
        destruct Hinv as [Hc Hs Hprev Hn|Hc Hs Hk1 Hprev Hn|s Hc Hs Hst Hsr Hlt Hall Hn].
        * subst count start. cbn [Z.add]. change (0 + 1) with 1. change (1 =? 1) with true. cbn [andb].
          destruct (Z.ltb_spec 0 i) as [Hi0|Hi0].
          -- (* conservatively skipped *)
             apply IH; [lia|symmetry; exact Hskip|].
             apply inv_conservative; [reflexivity|reflexivity|lia|rewrite Z.add_simpl_r; exact Hu|].
             intros j Hj. destruct (Z.eq_dec j i) as [->|]; [|apply Hn; lia].
             intros (_ & _ & [Hz|[Hkj Hup]]); [lia|].
             destruct Hprev as [->|Hnu]; [lia|auto].
          -- (* line zero *)
             assert (i = 0) by lia. subst i. assert (k = 0) by lia.
             change (0 <? 1) with true. cbn [andb].
             destruct (Z.leb_spec 256 (0 + 1)); [lia|].
             apply IH; [lia|symmetry; exact Hskip|].
             apply inv_hole with (s := 0); [lia|reflexivity|reflexivity|lia|lia| |].
             ++ intros j Hj. assert (j = 0) by lia. subst j. split; [lia|]. split; [exact Hu|left; reflexivity].
             ++ intros j Hj; lia.
        * subst count start. change (1 + 1) with 2. change (2 =? 1) with false. cbn [andb].
          change (0 <? 2) with true. cbn [andb].
          assert (usable lines k i) as Hui.
          { split; [lia|]. split; [exact Hu|]. right. split; [lia|exact Hprev]. }
          destruct (Z.leb_spec 256 (i + 1)) as [He|He].
          -- rewrite LINE_SIZE_eq. exists i, (i + 1). split; [reflexivity|]. split; [reflexivity|].
             assert (i + 1 = 256) as E256 by lia.
             split; [|exact Hn]. split; [lia|]. split.
             ++ intros j Hj. assert (j = i) by lia. subst j. exact Hui.
             ++ split; [rewrite E256; apply usable_256|apply not_usable_before; exact Hn].
          -- apply IH; [lia|symmetry; exact Hskip|].
             apply inv_hole with (s := i); [lia|reflexivity|reflexivity|lia|lia| |exact Hn].
             intros j Hj. assert (j = i) by lia. subst j. exact Hui.
        * subst start stop.
          destruct (Z.eqb_spec (count + 1) 1); [lia|]. cbn [andb].
          destruct (Z.ltb_spec 0 (count + 1)); [|lia]. cbn [andb].
          assert (usable lines k i) as Hui.
          { split; [lia|]. split; [exact Hu|]. right. split; [lia|].
            destruct (Hall (i - 1)) as (_ & Hup & _); [lia|exact Hup]. }
          assert (forall j, s <= j < i + 1 -> usable lines k j) as Hall'.
          { intros j Hj. destruct (Z.eq_dec j i) as [->|]; [exact Hui|apply Hall; lia]. }
          destruct (Z.leb_spec 256 (i + 1)) as [He|He].
          -- rewrite LINE_SIZE_eq. exists s, (i + 1). split; [reflexivity|]. split; [reflexivity|].
             assert (i + 1 = 256) as E256 by lia.
             split; [|exact Hn]. split; [lia|]. split; [exact Hall'|].
             split; [rewrite E256; apply usable_256|apply not_usable_before; exact Hn].
          -- apply IH; [lia|symmetry; exact Hskip|].
             apply inv_hole with (s := s); [lia|reflexivity|reflexivity|lia|lia|exact Hall'|exact Hn].
  Qed.
End HoleLoop.

Lemma find_hole_spec m at_ :
  zlen (line_mark m) = 256 -> 0 <= at_ <= 32768 ->
  match find_next_available_hole m at_ with
  | Ok (Some (c, l)) =>
      exists s e, c = s * 128 /\ l = e * 128 /\ first_run (line_mark m) (at_ / 128) s e
  | Ok None => forall j, ~ usable (line_mark m) (at_ / 128) j
  | _ => False
  end.
Proof.
  intros Hlen Hat. unfold find_next_available_hole. rewrite LINE_SIZE_eq, Hlen.
  destruct (Z.ltb_spec 256 (at_ / 128)); [lia|].
  apply hole_loop_spec; [exact Hlen|lia|lia|reflexivity|].
  apply inv_marked; [reflexivity|reflexivity|left; reflexivity|intros j Hj; lia].
Qed.

Lemma usable_run_bounds lines k s e :
  zlen lines = 256 -> 0 <= k -> usable_run lines k s e -> k <= s /\ s < e /\ e <= 256.
Proof.
  intros Hlen Hk (Hse & Hall & _ & _).
  destruct (Hall s) as (H1 & _ & _); [lia|].
  destruct (Hall (e - 1)) as (_ & H2 & _); [lia|].
  unfold unmarked in H2. apply znth_Some_range in H2. lia.
Qed.

Lemma first_run_unique lines k s e s' e' :
  first_run lines k s e -> first_run lines k s' e' -> s = s' /\ e = e'.
Proof.
  intros [(Hse & Hall & He & Hs) Hn] [(Hse' & Hall' & He' & Hs') Hn'].
  assert (s = s').
  { destruct (Z_lt_dec s s') as [Hlt|Hge].
    - exfalso. destruct (Hall s) as (Hk & _ & _); [lia|]. apply (Hn' s); [lia|apply Hall; lia].
    - destruct (Z_lt_dec s' s) as [Hlt|Hge']; [|lia].
      exfalso. destruct (Hall' s') as (Hk & _ & _); [lia|]. apply (Hn s'); [lia|apply Hall'; lia]. }
  subst s'. split; [reflexivity|].
  destruct (Z_lt_dec e e') as [Hlt|Hge].
  - exfalso. apply He. apply Hall'. lia.
  - destruct (Z_lt_dec e' e) as [Hlt|Hge']; [|lia].
    exfalso. apply He'. apply Hall. lia.
Qed.

(** ** Bump allocation *)
Record bwf (b : bump_block) : Prop := {
  bw_lines : zlen (line_mark (bb_meta b)) = 256;
  bw_cursor : 0 <= bb_cursor b <= bb_limit b;
  bw_limit : bb_limit b <= 32768;
  bw_shape : bb_limit b = bb_cursor b \/ bb_limit b mod 128 = 0 }.

Definition lines_of (b : bump_block) : list bool := line_mark (bb_meta b).
Definition base_of (b : bump_block) : Z := blk_ptr (bb_block b).

Inductive alloc_outcome (b : bump_block) (size : Z) : option Z -> bump_block -> Prop :=
| ao_here : bb_cursor b + size <= bb_limit b ->
    alloc_outcome b size (Some (base_of b + bb_cursor b))
                  (bb_set b (bb_cursor b + size) (bb_limit b))
| ao_hole s e : bb_limit b < bb_cursor b + size ->
    usable_run (lines_of b) (bb_limit b / 128) s e -> size <= 128 * (e - s) ->
    (forall s' e', usable_run (lines_of b) (bb_limit b / 128) s' e' -> s' < s ->
                   128 * (e' - s') < size) ->
    alloc_outcome b size (Some (base_of b + 128 * s)) (bb_set b (128 * s + size) (128 * e))
| ao_none b' : bb_limit b < bb_cursor b + size ->
    (forall s e, usable_run (lines_of b) (bb_limit b / 128) s e -> 128 * (e - s) < size) ->
    (b' = b \/ exists s e, usable_run (lines_of b) (bb_limit b / 128) s e /\
                           b' = bb_set b (128 * s) (128 * e)) ->
    alloc_outcome b size None b'.

Lemma usable_from lines k s e i :
  usable_run lines k s e -> e <= i -> (usable lines e i <-> usable lines k i).
Proof.
  intros (Hse & Hall & He & _) Hi.
  assert (k <= s) as Hks by (destruct (Hall s) as (H & _); lia).
  assert (~ unmarked lines e \/ e = 0) as Hme.
  { destruct (Z.eq_dec e 0); [right; assumption|left].
    intros Hu. apply He. split; [lia|]. split; [exact Hu|]. right. split; [lia|].
    destruct (Hall (e - 1)) as (_ & H & _); [lia|exact H]. }
  split.
  - intros (H1 & H2 & H3). split; [lia|]. split; [exact H2|].
    destruct H3 as [H3|[H3 H4]]; [left; exact H3|right; split; [lia|exact H4]].
  - intros (H1 & H2 & H3). split; [lia|]. split; [exact H2|].
    destruct H3 as [H3|[H3 H4]]; [left; exact H3|].
    destruct (Z.eq_dec i e) as [->|]; [|right; split; [lia|exact H4]].
    destruct Hme as [Hme|Hme]; [contradiction|left; exact Hme].
Qed.

Lemma run_from_later lines k s e s' e' :
  usable_run lines k s e -> usable_run lines e s' e' -> usable_run lines k s' e' /\ e < s'.
Proof.
  intros Hr Hr'. pose proof Hr as (Hse & Hall & He & _).
  destruct Hr' as (Hse' & Hall' & He' & Hs').
  assert (e <= s') as Hes by (destruct (Hall' s') as (H & _); lia).
  assert (s' <> e) as Hne.
  { intros ->. apply He. apply (usable_from lines k s e e Hr); [lia|]. apply Hall'. lia. }
  split; [|lia].
  split; [exact Hse'|]. split; [|split].
  - intros i Hi. apply (usable_from lines k s e i Hr); [lia|]. apply Hall'; exact Hi.
  - intros Hu. apply He'. apply (usable_from lines k s e e' Hr); [lia|exact Hu].
  - intros Hu. apply Hs'. apply (usable_from lines k s e (s' - 1) Hr); [lia|exact Hu].
Qed.

Lemma run_from_earlier lines k s e s' e' :
  usable_run lines k s e -> usable_run lines k s' e' -> s < s' -> usable_run lines e s' e'.
Proof.
  intros Hr Hr' Hlt. pose proof Hr as (Hse & Hall & He & _).
  destruct Hr' as (Hse' & Hall' & He' & Hs').
  assert (e < s') as Hes.
  { destruct (Z_lt_dec e s') as [|Hge]; [assumption|exfalso].
    destruct (Z.eq_dec s' e) as [->|].
    - apply He. apply Hall'. lia.
    - apply Hs'. apply Hall. lia. }
  split; [exact Hse'|]. split; [|split].
  - intros i Hi. apply (usable_from lines k s e i Hr); [lia|]. apply Hall'; exact Hi.
  - intros Hu. apply He'. apply (usable_from lines k s e e' Hr); [lia|exact Hu].
  - intros Hu. apply Hs'. apply (usable_from lines k s e (s' - 1) Hr); [lia|exact Hu].
Qed.

Lemma no_usable_no_run lines k : (forall j, ~ usable lines k j) -> forall s e, ~ usable_run lines k s e.
Proof. intros H s e (Hse & Hall & _). apply (H s). apply Hall. lia. Qed.

Lemma inner_alloc_fuel_spec fuel : forall b size,
  bwf b -> 0 <= size < 2 ^ 63 -> 256 - bb_limit b / 128 < Z.of_nat fuel ->
  exists r b', inner_alloc_fuel fuel b size = (Ok r, b') /\ alloc_outcome b size r b'.
Proof.
  induction fuel as [|fuel IH]; intros b size Hwf Hsize Hfuel.
  { destruct Hwf. lia. }
  pose proof Hwf as [Hlines Hcur Hlim Hshape].
  cbn [inner_alloc_fuel]. unfold usize_add.
  destruct (Z.ltb_spec USIZE_MAX (bb_cursor b + size)) as [Hov|_].
  { rewrite UMAX_eq in Hov. lia. }
  destruct (Z.ltb_spec (bb_limit b) (bb_cursor b + size)) as [Hfull|Hfits].
  2:{ eexists _, _. split; [reflexivity|]. apply ao_here. exact Hfits. }
  rewrite BLOCK_SIZE_eq.
  destruct (Z.ltb_spec (bb_limit b) 32768) as [Hlt|Hge].
  2:{ eexists _, _. split; [reflexivity|]. apply ao_none; [exact Hfull| |left; reflexivity].
      intros s e Hr. apply usable_run_bounds in Hr; [|exact Hlines|lia]. lia. }
  pose proof (find_hole_spec (bb_meta b) (bb_limit b) Hlines ltac:(lia)) as Hhole.
  destruct (find_next_available_hole (bb_meta b) (bb_limit b)) as [[[c l]|]| |]; [| |contradiction|contradiction].
  - destruct Hhole as (s & e & -> & -> & Hrun & Hfirst).
    assert (0 <= bb_limit b / 128) as Hk0 by lia.
    pose proof (usable_run_bounds _ _ _ _ Hlines Hk0 Hrun) as Hb.
    set (b1 := bb_set b (s * 128) (e * 128)).
    assert (bwf b1) as Hwf1.
    { split; cbn; [exact Hlines|lia|lia|right; lia]. }
    destruct (IH b1 size Hwf1 Hsize) as (r & b' & Heq & Hout).
    { cbn. lia. }
    exists r, b'. split; [exact Heq|].
    cbn in Hout. inversion Hout as [Hfit Hr0 Hb0|s2 e2 Hfull2 Hrun2 Hfit2 Hfirst2 Hr0 Hb0|b2 Hfull2 Hno2 Hb2 Hr0 Hb0]; subst.
    + cbn in *. replace (base_of b1 + s * 128) with (base_of b + 128 * s) by (unfold base_of; cbn; lia).
      replace (bb_set b1 (s * 128 + size) (e * 128)) with (bb_set b (128 * s + size) (128 * e))
        by (unfold bb_set; cbn; f_equal; lia).
      apply ao_hole; [exact Hfull|exact Hrun|lia|].
      intros s' e' Hr' Hlt'. exfalso.
      destruct Hr' as (H1 & H2 & _). apply (Hfirst s'); [|apply H2; lia].
      destruct (H2 s') as (H3 & _); lia.
    + cbn in Hrun2, Hfull2, Hfirst2. replace (e * 128 / 128) with e in * by lia.
      change (lines_of b1) with (lines_of b) in *.
      destruct (run_from_later _ _ _ _ _ _ Hrun Hrun2) as [Hrun2k Hes2].
      change (bb_set b1 (128 * s2 + size) (128 * e2)) with (bb_set b (128 * s2 + size) (128 * e2)).
      change (base_of b1) with (base_of b).
      apply ao_hole; [exact Hfull|exact Hrun2k|exact Hfit2|].
      intros s' e' Hr' Hlt'.
      destruct (Z_lt_dec s s') as [Hss|Hss].
      * apply (Hfirst2 s' e'); [|exact Hlt']. eapply run_from_earlier; eauto.
      * assert (first_run (lines_of b) (bb_limit b / 128) s' e') as Hfr.
        { split; [exact Hr'|]. intros i Hi. apply Hfirst. lia. }
        assert (s' = s /\ e' = e) as [-> ->] by (eapply first_run_unique; [exact Hfr|split; [exact Hrun|exact Hfirst]]).
        cbn in *. lia.
    + cbn in Hno2, Hfull2, Hb2. replace (e * 128 / 128) with e in * by lia.
      change (lines_of b1) with (lines_of b) in *.
      apply ao_none; [exact Hfull| |].
      * intros s' e' Hr'.
        destruct (Z_lt_dec s s') as [Hss|Hss].
        -- apply (Hno2 s' e'). eapply run_from_earlier; eauto.
        -- assert (first_run (lines_of b) (bb_limit b / 128) s' e') as Hfr.
           { split; [exact Hr'|]. intros i Hi. apply Hfirst. lia. }
           assert (s' = s /\ e' = e) as [-> ->] by (eapply first_run_unique; [exact Hfr|split; [exact Hrun|exact Hfirst]]).
           cbn in *. lia.
      * right. destruct Hb2 as [->|(s2 & e2 & Hr2 & ->)].
        -- exists s, e. split; [exact Hrun|]. unfold b1. f_equal; lia.
        -- exists s2, e2. split; [|reflexivity].
           apply (run_from_later _ _ _ _ _ _ Hrun Hr2).
  - eexists _, _. split; [reflexivity|]. apply ao_none; [exact Hfull| |left; reflexivity].
    intros s e Hr. exfalso. eapply no_usable_no_run; eauto.
Qed.

Lemma inner_alloc_spec b size :
  bwf b -> 0 <= size < 2 ^ 63 ->
  exists r b', inner_alloc b size = (Ok r, b') /\ alloc_outcome b size r b'.
Proof.
  intros Hwf Hsize. unfold inner_alloc. apply inner_alloc_fuel_spec; [exact Hwf|exact Hsize|].
  destruct Hwf. rewrite LINE_COUNT_eq. lia.
Qed.

Lemma alloc_outcome_wf b size r b' :
  bwf b -> 0 <= size -> alloc_outcome b size r b' -> bwf b' /\ bb_meta b' = bb_meta b
  /\ bb_block b' = bb_block b /\ bb_meta_addr b' = bb_meta_addr b.
Proof.
  intros Hwf Hsize Hout. pose proof Hwf as [Hlines Hcur Hlim Hshape].
  destruct Hout as [Hfit|s e Hfull Hrun Hfit Hfirst|b' Hfull Hno Hb'].
  - split; [|repeat split]. split; cbn; [exact Hlines|lia|lia|].
    destruct Hshape; [left; lia|right; assumption].
  - apply usable_run_bounds in Hrun as Hb; [|exact Hlines|lia].
    split; [|repeat split]. split; cbn; [exact Hlines|lia|lia|right; lia].
  - destruct Hb' as [->|(s & e & Hrun & ->)]; [split; [exact Hwf|repeat split]|].
    apply usable_run_bounds in Hrun as Hb; [|exact Hlines|lia].
    split; [|repeat split]. split; cbn; [exact Hlines|lia|lia|right; lia].
Qed.

(** ** Sequences of requests on one block *)
Definition floor_of (b : bump_block) : Z :=
  if (bb_limit b =? bb_cursor b) && (bb_limit b <? 128) then 0 else bb_cursor b.

Definition free_off (b : bump_block) (x : Z) : Prop :=
  bb_cursor b <= x < bb_limit b \/ usable (lines_of b) (bb_limit b / 128) (x / 128).

Lemma run_start_ge b s e : bwf b -> usable_run (lines_of b) (bb_limit b / 128) s e ->
  floor_of b <= 128 * s.
Proof.
  intros [Hlines Hcur Hlim Hshape] Hr.
  apply usable_run_bounds in Hr as Hb; [|exact Hlines|lia].
  destruct Hr as (Hse & Hall & _).
  destruct (Hall s) as (H1 & _ & H3); [lia|].
  unfold floor_of.
  destruct (Z.eqb_spec (bb_limit b) (bb_cursor b)); destruct (Z.ltb_spec (bb_limit b) 128);
    cbn [andb]; lia.
Qed.

Lemma serve_spec sizes : forall b,
  bwf b -> Forall (fun n => 0 < n < 2 ^ 63) sizes ->
  exists rs b', serve b sizes = (rs, b') /\ bwf b'
    /\ bb_meta b' = bb_meta b /\ bb_block b' = bb_block b
    /\ Forall (fun r => exists o, r = Ok o) rs
    /\ increasing (base_of b + floor_of b) (ranges sizes rs)
    /\ Forall (fun '(a, e) => forall x, a <= x < e ->
                 0 <= x - base_of b < 32768 /\ free_off b (x - base_of b)) (ranges sizes rs).
Proof.
  induction sizes as [|n sizes IH]; intros b Hwf Hsz.
  - exists [], b. cbn. repeat (split; auto).
  - inversion Hsz as [|? ? Hn Hsz']; subst.
    destruct (inner_alloc_spec b n Hwf ltac:(lia)) as (r & b1 & Hal & Hout).
    assert (0 <= n) as Hn0 by lia.
    destruct (alloc_outcome_wf _ _ _ _ Hwf Hn0 Hout) as (Hwf1 & Hm1 & Hb1 & _).
    destruct (IH b1 Hwf1 Hsz') as (rs & b' & Hs & Hwf' & Hm' & Hb' & Hok & Hinc & Hfree).
    exists (Ok r :: rs), b'. cbn [serve]. rewrite Hal, Hs.
    split; [reflexivity|]. split; [exact Hwf'|]. split; [congruence|]. split; [congruence|].
    split; [constructor; [eauto|exact Hok]|].
    assert (base_of b1 = base_of b) as Hbase by (unfold base_of; rewrite Hb1; reflexivity).
    assert (lines_of b1 = lines_of b) as Hlines1 by (unfold lines_of; rewrite Hm1; reflexivity).
    rewrite Hbase in *. pose proof Hwf as [Hlines Hcur Hlim Hshape].
    assert (forall x, free_off b1 x -> free_off b x) as Hmono.
    { intros x. unfold free_off. rewrite Hlines1.
      destruct Hout as [Hfit|s e Hfull Hrun Hfit Hfirst|b2 Hfull Hno Hb2]; cbn.
      - intros [H|H]; [left; lia|right; exact H].
      - replace (128 * e / 128) with e by lia. intros [H|H].
        + right. pose proof Hrun as (_ & Hall & _). apply Hall. lia.
        + right. apply (usable_from _ _ _ _ _ Hrun); [destruct H; lia|exact H].
      - destruct Hb2 as [->|(s & e & Hrun & ->)]; [tauto|]. cbn.
        replace (128 * e / 128) with e by lia. intros [H|H].
        + right. pose proof Hrun as (_ & Hall & _). apply Hall. lia.
        + right. apply (usable_from _ _ _ _ _ Hrun); [destruct H; lia|exact H]. }
    assert (Forall (fun '(a, e) => forall x, a <= x < e ->
                 0 <= x - base_of b < 32768 /\ free_off b (x - base_of b)) (ranges sizes rs)) as Hfree'.
    { eapply Forall_impl; [|exact Hfree]. intros [a e] H x Hx. destruct (H x Hx) as [H1 H2].
      split; [exact H1|apply Hmono; exact H2]. }
    assert (floor_of b <= floor_of b1 /\ (r = None \/ floor_of b1 = bb_cursor b1)) as [Hfl Hfl'].
    { destruct Hout as [Hfit|s e Hfull Hrun Hfit Hfirst|b2 Hfull Hno Hb2]; unfold floor_of; cbn [bb_limit bb_cursor bb_set].
      - destruct (Z.eqb_spec (bb_limit b) (bb_cursor b)); [lia|].
        destruct Hshape as [|Hsh]; [lia|].
        destruct (Z.ltb_spec (bb_limit b) 128); [lia|].
        rewrite !Bool.andb_false_r. cbn [andb]. split; [lia|right; reflexivity].
      - pose proof (run_start_ge b s e Hwf Hrun) as Hge. unfold floor_of in Hge.
        apply usable_run_bounds in Hrun as Hb; [|exact Hlines|lia].
        destruct (Z.ltb_spec (128 * e) 128); [lia|]. rewrite Bool.andb_false_r.
        split; [lia|right; reflexivity].
      - split; [|left; reflexivity]. destruct Hb2 as [->|(s & e & Hrun & ->)]; [lia|].
        cbn [bb_limit bb_cursor bb_set].
        pose proof (run_start_ge b s e Hwf Hrun) as Hge. unfold floor_of in Hge.
        apply usable_run_bounds in Hrun as Hb; [|exact Hlines|lia].
        destruct (Z.ltb_spec (128 * e) 128); [lia|]. rewrite Bool.andb_false_r. lia. }
    destruct r as [a|]; cbn [ranges].
    + assert (base_of b + floor_of b <= a /\ a + n = base_of b + bb_cursor b1
              /\ forall x, a <= x < a + n -> 0 <= x - base_of b < 32768 /\ free_off b (x - base_of b))
        as (Ha1 & Ha2 & Ha3).
      { inversion Hout as [Hfit Ha Hbb|s e Hfull Hrun Hfit Hfirst Ha Hbb|]; subst; cbn.
        - split; [unfold floor_of; destruct ((bb_limit b =? bb_cursor b) && (bb_limit b <? 128)); lia|].
          split; [lia|]. intros x Hx. split; [lia|]. left; lia.
        - pose proof (run_start_ge b s e Hwf Hrun) as Hge.
          apply usable_run_bounds in Hrun as Hb; [|exact Hlines|lia].
          split; [lia|]. split; [lia|]. intros x Hx. split; [lia|]. right.
          pose proof Hrun as (_ & Hall & _). apply Hall. lia. }
      split.
      * cbn [increasing]. split; [exact Ha1|]. split; [lia|].
        destruct Hfl' as [|Hfl']; [discriminate|]. rewrite Ha2, <- Hfl'. exact Hinc.
      * constructor; [exact Ha3|exact Hfree'].
    + split; [|exact Hfree'].
      clear -Hinc Hfl. destruct (ranges sizes rs) as [|[a e] l]; cbn in *; [exact I|].
      destruct Hinc as (H1 & H2 & H3). split; [lia|auto].
Qed.

(** A fresh block: [limit] is the block end, nothing is marked. *)
Lemma inner_alloc_end b n :
  bb_limit b = 32768 -> 0 <= bb_cursor b <= 32768 -> 0 <= n < 2 ^ 63 ->
  inner_alloc b n =
  if bb_cursor b + n <=? 32768
  then (Ok (Some (base_of b + bb_cursor b)), bb_set b (bb_cursor b + n) 32768)
  else (Ok None, b).
Proof.
  intros Hl Hc Hn. unfold inner_alloc. cbn [inner_alloc_fuel]. unfold usize_add.
  destruct (Z.ltb_spec USIZE_MAX (bb_cursor b + n)) as [Hov|_]; [rewrite UMAX_eq in Hov; lia|].
  rewrite BLOCK_SIZE_eq, Hl.
  destruct (Z.ltb_spec 32768 (bb_cursor b + n)) as [H|H];
    destruct (Z.leb_spec (bb_cursor b + n) 32768); try lia; reflexivity.
Qed.

Lemma serve_fresh n count : 0 < n < 2 ^ 63 -> forall b,
  bb_limit b = 32768 -> 0 <= bb_cursor b <= 32768 ->
  forall j, (j < count)%nat ->
  nth_error (fst (serve b (repeat n count))) j =
  Some (Ok (if bb_cursor b + (Z.of_nat j + 1) * n <=? 32768
            then Some (base_of b + bb_cursor b + Z.of_nat j * n) else None)).
Proof.
  intros Hn. induction count as [|count IH]; intros b Hl Hc j Hj; [lia|].
  cbn [repeat serve]. rewrite inner_alloc_end by (assumption || lia).
  destruct (Z.leb_spec (bb_cursor b + n) 32768) as [Hle|Hgt].
  - specialize (IH (bb_set b (bb_cursor b + n) 32768) eq_refl ltac:(cbn; lia)).
    destruct (serve (bb_set b (bb_cursor b + n) 32768) (repeat n count)) as [xs b2] eqn:Hs.
    cbn [fst] in *. destruct j as [|j].
    + cbn [nth_error]. change (Z.of_nat 0) with 0. do 2 f_equal.
      destruct (Z.leb_spec (bb_cursor b + (0 + 1) * n) 32768); [|lia]. f_equal. lia.
    + cbn [nth_error]. rewrite IH by lia. cbn [bb_set bb_cursor]. do 2 f_equal.
      change (base_of (bb_set b (bb_cursor b + n) 32768)) with (base_of b).
      destruct (Z.leb_spec (bb_cursor b + n + (Z.of_nat j + 1) * n) 32768);
        destruct (Z.leb_spec (bb_cursor b + (Z.of_nat (S j) + 1) * n) 32768); try lia; try reflexivity.
      f_equal. lia.
  - specialize (IH b Hl Hc).
    destruct (serve b (repeat n count)) as [xs b2] eqn:Hs.
    cbn [fst] in *. destruct j as [|j].
    + cbn [nth_error]. change (Z.of_nat 0) with 0. do 2 f_equal.
      destruct (Z.leb_spec (bb_cursor b + (0 + 1) * n) 32768); [lia|reflexivity].
    + cbn [nth_error]. rewrite IH by lia. do 2 f_equal.
      destruct (Z.leb_spec (bb_cursor b + (Z.of_nat j + 1) * n) 32768);
        destruct (Z.leb_spec (bb_cursor b + (Z.of_nat (S j) + 1) * n) 32768); try nia; reflexivity.
Qed.
