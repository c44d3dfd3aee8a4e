(** [CodeHash::alloc]: exactly when it succeeds, and what it computes. *)
From Verif Require Import Prelude StdModel BrassTypes DecoderModel CodeModel FormatSpec ReaderSpec HashModel HashSpec AcceptSpec.
From Verif Require Import CodeGenericProofs FormatProofs StringsProofs ReaderSizes CrcProofs HashProofs.
From Coq Require Import Lia ZifyBool.

(** * Sequences of assignments *)
Fixpoint puts (us : list (Z * Z)) (l : list Z) : R (list Z) :=
  match us with [] => Ok l | (k, v) :: r => l <~ need PIndex (zset l k v) ;; puts r l end.
Lemma puts_app a : forall b l, puts (a ++ b) l = (l <~ puts a l ;; puts b l).
Proof.
  induction a as [|[k v] a IH]; intros b l; cbn [app puts]; [reflexivity|].
  destruct (zset l k v); cbn [need rbind]; [apply IH|reflexivity].
Qed.
Lemma zset_get {A} (l : list A) : forall k v l', zset l k v = Some l' ->
  0 <= k < zlen l /\ zlen l' = zlen l /\ forall j, znth l' j = if j =? k then Some v else znth l j.
Proof.
  induction l as [|x l IH]; intros k v l' E; cbn [zset] in E; [discriminate|].
  destruct (Z.eqb_spec k 0) as [->|Hk].
  - injection E as <-. rewrite !zlen_cons. pose proof (zlen_nonneg l). split; [lia|split; [reflexivity|]].
    intros j. cbn [znth]. destruct (Z.eqb_spec j 0); reflexivity.
  - destruct (zset l (k - 1) v) as [l1|] eqn:E1; [|discriminate]. cbn [option_map] in E. injection E as <-.
    destruct (IH _ _ _ E1) as (R & L & G). rewrite !zlen_cons. split; [lia|split; [lia|]]. intros j. cbn [znth].
    destruct (Z.eqb_spec j 0) as [->|Hj]; [destruct (Z.eqb_spec 0 k); [lia|reflexivity]|]. rewrite G.
    destruct (Z.eqb_spec (j - 1) (k - 1)), (Z.eqb_spec j k); try lia; reflexivity.
Qed.
Lemma zset_ok {A} (l : list A) : forall k v, 0 <= k < zlen l -> exists l', zset l k v = Some l'.
Proof.
  induction l as [|x l IH]; intros k v H; [cbn in H; lia|]. cbn [zset]. destruct (Z.eqb_spec k 0); [eauto|].
  rewrite zlen_cons in H. destruct (IH (k - 1) v) as [l' ->]; [lia|]. cbn. eauto.
Qed.
Lemma znth_ext {A} : forall (a b : list A), zlen a = zlen b -> (forall k, 0 <= k < zlen a -> znth a k = znth b k) -> a = b.
Proof.
  induction a as [|x a IH]; intros [|y b] L H; [reflexivity| | |].
  1: rewrite zlen_cons in L; pose proof (zlen_nonneg b); change (zlen (@nil A)) with 0 in L; lia.
  1: rewrite zlen_cons in L; pose proof (zlen_nonneg a); change (zlen (@nil A)) with 0 in L; lia.
  rewrite !zlen_cons in *. pose proof (zlen_nonneg a).
  assert (E : Some x = Some y) by (apply (H 0); lia). injection E as <-. f_equal. apply IH; [lia|]. intros k Hk.
  specialize (H (k + 1) ltac:(lia)). cbn [znth] in H. destruct (Z.eqb_spec (k + 1) 0); [lia|]. now replace (k + 1 - 1) with k in H by lia.
Qed.
Lemma puts_get us : forall l l', puts us l = Ok l' ->
  slots_in (zlen l) us /\ zlen l' = zlen l /\
  forall k d, znth l k = Some d -> znth l' k = Some (latest us k d).
Proof.
  induction us as [|[j v] us IH]; intros l l' E; cbn [puts] in E.
  - injection E as <-. repeat split; auto. constructor.
  - apply rbind_ok in E as (l1 & E1 & E). apply need_ok in E1. destruct (zset_get _ _ _ _ E1) as (R & L & G).
    destruct (IH _ _ E) as (S & L2 & G2). rewrite L in *. repeat split; [constructor; auto|auto|].
    intros k d Hd. cbn [latest]. destruct (Z.eqb_spec j k) as [->|Hj].
    + apply G2. rewrite G, Z.eqb_refl. reflexivity.
    + apply G2. rewrite G. destruct (Z.eqb_spec k j); [congruence|exact Hd].
Qed.
Lemma puts_ok us : forall l, slots_in (zlen l) us -> exists l', puts us l = Ok l'.
Proof.
  induction us as [|[j v] us IH]; intros l S; cbn [puts]; [eauto|]. inversion S; subst. cbn [fst] in *.
  destruct (zset_ok l j v H1) as [l1 E]. rewrite E. cbn [need rbind]. apply IH.
  destruct (zset_get _ _ _ _ E) as (_ & L & _). now rewrite L.
Qed.

(** A loop whose every round assigns. *)
Lemma puts_len us l l' : puts us l = Ok l' -> zlen l' = zlen l.
Proof. intros E. now apply puts_get in E. Qed.
Lemma rloop_puts {A} (N : Z) (good : A -> Prop) (put : A -> list (Z * Z)) (body : Z -> list Z -> R (list Z)) : forall (suf pre items : list A) l,
  items = pre ++ suf -> zlen l = N ->
  (forall i x l, zlen pre <= i -> znth items i = Some x -> zlen l = N -> good x -> body i l = puts (put x) l) ->
  (forall i x l l', zlen pre <= i -> znth items i = Some x -> zlen l = N -> body i l = Ok l' -> good x) ->
  forall l', rloop (length suf) (zlen pre) body l = Ok l' <-> Forall good suf /\ puts (flat_map put suf) l = Ok l'.
Proof.
  induction suf as [|x suf IH]; intros pre items l E Ll H1 H2 l'; cbn [length rloop flat_map puts].
  - split; [auto|tauto].
  - assert (Z : znth items (zlen pre) = Some x) by (subst; now rewrite znth_app_r0).
    rewrite puts_app. replace (zlen pre + 1) with (zlen (pre ++ [x])) by (rewrite zlen_app; reflexivity).
    assert (IH' := fun l Ll l' => IH (pre ++ [x]) items l ltac:(rewrite <- app_assoc; exact E) Ll
      ltac:(intros; apply H1; [rewrite zlen_app in *; change (zlen [x]) with 1 in *; lia|auto|auto|auto])
      ltac:(intros i y l1 l2 Hi; apply H2; rewrite zlen_app in *; change (zlen [x]) with 1 in *; lia) l').
    split; intros G.
    + apply rbind_ok in G as (l1 & G1 & G). pose proof (H2 _ _ _ _ (Z.le_refl _) Z Ll G1) as Gx.
      rewrite (H1 _ _ l (Z.le_refl _) Z Ll Gx) in G1. pose proof (puts_len _ _ _ G1) as L1.
      rewrite G1. cbn [rbind]. apply IH' in G as [Gs G]; [auto|lia].
    + destruct G as [Gf G]. inversion Gf; subst. rewrite (H1 _ _ l (Z.le_refl _) Z eq_refl H3).
      apply rbind_ok in G as (l1 & G1 & G). pose proof (puts_len _ _ _ G1) as L1. rewrite G1. cbn [rbind]. apply IH'; auto.
Qed.
Lemma rfor_puts {A} (N : Z) (good : A -> Prop) (put : A -> list (Z * Z)) (body : Z -> list Z -> R (list Z)) items l : zlen l = N ->
  (forall i x l, 0 <= i -> znth items i = Some x -> zlen l = N -> good x -> body i l = puts (put x) l) ->
  (forall i x l l', 0 <= i -> znth items i = Some x -> zlen l = N -> body i l = Ok l' -> good x) ->
  forall l', rfor (zlen items) body l = Ok l' <-> Forall good items /\ puts (flat_map put items) l = Ok l'.
Proof.
  intros Ll H1 H2 l'. unfold rfor. replace (Z.to_nat (zlen items)) with (length items) by (unfold zlen; lia).
  exact (rloop_puts N good put body items [] items l eq_refl Ll H1 H2 l').
Qed.
Lemma number_len {A} (l : list A) : forall i, zlen (number i l) = zlen l.
Proof. induction l as [|x l IH]; intros i; cbn [number]; rewrite ?zlen_cons; [reflexivity|now rewrite IH]. Qed.
Lemma number_get {A} (l : list A) : forall i k, 0 <= k -> znth (number i l) k = option_map (fun x => (i + k, x)) (znth l k).
Proof.
  induction l as [|x l IH]; intros i k H; cbn [number znth]; [reflexivity|]. destruct (Z.eqb_spec k 0) as [->|].
  - cbn [option_map]. now rewrite Z.add_0_r.
  - rewrite IH by lia. now replace (i + 1 + (k - 1)) with (i + k) by lia.
Qed.
Lemma number_in {A} (l : list A) k p : 0 <= k -> znth (number 0 l) k = Some p -> fst p = k /\ znth l k = Some (snd p).
Proof.
  intros Hk E. rewrite number_get in E by auto. destruct (znth l k); [|discriminate]. cbn [option_map] in E.
  assert (p = (k, a)) as -> by (injection E as <-; f_equal; lia). auto.
Qed.
Lemma as_i32_i32 x : as_i32 x = i32 x.
Proof.
  unfold as_i32, i32, to_signed. change (2 ^ (32 - 1)) with 2147483648. change (2 ^ 32) with 4294967296. change (2 ^ 31) with 2147483648.
  pose proof (Z.div_mod x 4294967296 ltac:(lia)) as E. pose proof (Z.mod_pos_bound x 4294967296 ltac:(lia)) as B.
  set (q := x / 4294967296) in *. set (m := x mod 4294967296) in *. clearbody q m. subst x.
  destruct (Z.ltb_spec m 2147483648).
  - replace (4294967296 * q + m + 2147483648) with (m + 2147483648 + q * 4294967296) by lia.
    rewrite Z.mod_add, Z.mod_small by lia. lia.
  - replace (4294967296 * q + m + 2147483648) with (m - 2147483648 + (q + 1) * 4294967296) by lia.
    rewrite Z.mod_add, Z.mod_small by lia. lia.
Qed.
Lemma i32_range' x : - 2 ^ 31 <= i32 x < 2 ^ 31.
Proof. unfold i32. pose proof (Z.mod_pos_bound (x + 2 ^ 31) (2 ^ 32) eq_refl). change (2 ^ 32) with (2 ^ 31 + 2 ^ 31) in *. lia. Qed.
Lemma i32_small x : 0 <= x < 2 ^ 31 -> i32 x = x.
Proof. intros H. unfold i32. rewrite Z.mod_small; [lia|]. change (2 ^ 32) with (2 ^ 31 + 2 ^ 31). lia. Qed.
Lemma zset_neg {A} (l : list A) : forall k v, k < 0 -> zset l k v = None.
Proof. induction l as [|x l IH]; intros k v H; cbn [zset]; [reflexivity|]. destruct (Z.eqb_spec k 0); [lia|]. rewrite IH by lia. reflexivity. Qed.
Lemma zset_out {A} (l : list A) : forall k v, zlen l <= k -> zset l k v = None.
Proof.
  induction l as [|x l IH]; intros k v H; cbn [zset]; [reflexivity|]. rewrite zlen_cons in H. pose proof (zlen_nonneg l).
  destruct (Z.eqb_spec k 0); [lia|]. rewrite IH by lia. reflexivity.
Qed.
(** [as usize] of a signed value is harmless for indexing vectors of fewer than 2^63 elements. *)
Lemma as_usize_cases k n : - 2 ^ 31 <= k < 2 ^ 32 -> n < 2 ^ 63 -> (0 <= k /\ as_usize k = k) \/ (k < 0 /\ n < as_usize k).
Proof.
  intros Hk Hn. unfold as_usize. destruct (Z.lt_ge_cases k 0) as [H|H].
  - right. split; [auto|]. replace (k mod 2 ^ 64) with (k + 2 ^ 64).
    + lia.
    + symmetry. rewrite <- (Z.mod_add k 1) by lia. rewrite Z.mod_small; lia.
  - left. split; [auto|]. apply Z.mod_small. lia.
Qed.
Lemma zset_usize {A} (l : list A) k v : - 2 ^ 31 <= k < 2 ^ 32 -> zlen l < 2 ^ 63 -> zset l (as_usize k) v = zset l k v.
Proof.
  intros Hk Hl. destruct (as_usize_cases k (zlen l) Hk Hl) as [[_ ->]|[Hn Hu]]; [reflexivity|].
  rewrite (zset_neg l k v) by auto. apply zset_out. lia.
Qed.
Lemma znth_usize {A} (l : list A) k : - 2 ^ 31 <= k < 2 ^ 32 -> zlen l < 2 ^ 63 -> znth l (as_usize k) = znth l k.
Proof.
  intros Hk Hl. destruct (as_usize_cases k (zlen l) Hk Hl) as [[_ ->]|[Hn Hu]]; [reflexivity|].
  rewrite (znth_neg l k) by auto. apply znth_none. lia.
Qed.
Lemma entry_get {A} (d : A) l k x : znth l k = Some x -> entry d l k = x.
Proof.
  intros E. pose proof (znth_some_range _ _ _ E). rewrite FormatProofs.znth_nth_error in E by lia. unfold entry. now apply nth_error_nth.
Qed.
Lemma znth_entry {A} (d : A) l k : 0 <= k < zlen l -> znth l k = Some (entry d l k).
Proof. intros H. destruct (znth_in l k H) as [x E]. rewrite E. f_equal. symmetry. now apply entry_get. Qed.

(** * Types of loaded modules *)
Lemma counted_default : counted vt_default. Proof. split; [exact I|discriminate]. Qed.
Lemma type_ok_counted ss T t : type_ok ss T t -> counted t /\ Forall (fun u => In u T) (mentions t) /\ (t <> vt_default -> targeted t).
Proof.
  assert (P : forall k, In k prim_kinds -> one_of k [HREF; HNULL] = false /\ k <> HABSTRACT /\ one_of k [HFUN; HMETHOD] = false /\
     one_of k [HOBJ; HSTRUCT] = false /\ one_of k [HVIRTUAL] = false /\ one_of k [HENUM] = false).
  { intros k Hk. cbn in Hk. repeat (destruct Hk as [<-|Hk]; [repeat split; discriminate|]). destruct Hk. }
  destruct t as [u a p k]. destruct u, a, p; cbn [type_ok]; try tauto.
  - intros (Hk & -> & _ & F & Hr). unfold counted, targeted, mentions. cbn [vt_union vt_kind vt_abs_name vt_tparam].
    destruct Hk as [<-|[<-|[]]]; (repeat split; [discriminate| |discriminate]); cbn [one_of existsb Z.eqb Pos.eqb HFUN HMETHOD orb];
      apply Forall_app; auto.
  - destruct rt; [tauto|]. intros H; exfalso; exact H.
  - destruct rt; tauto.
  - destruct rt; tauto.
  - destruct rt; [tauto|]. intros (Hk & _ & _ & -> & _ & _ & _ & F & _). unfold counted, targeted, mentions. cbn [vt_union vt_kind vt_abs_name vt_tparam].
    assert (Fm : Forall (fun u => In u T) (map (@fd_t vtype) fields)).
    { rewrite Forall_map. eapply Forall_impl; [|exact F]. unfold field_ok. tauto. }
    destruct Hk as [<-|[<-|[]]]; (repeat split; [discriminate| |discriminate]); exact Fm.
  - intros (-> & -> & F). unfold counted, targeted, mentions. cbn [vt_union vt_kind vt_abs_name vt_tparam].
    repeat split; [discriminate| |discriminate].
    cbn. rewrite Forall_map. eapply Forall_impl; [|exact F]. unfold field_ok. tauto.
  - intros (-> & _ & -> & F & _). unfold counted, targeted, mentions. cbn [vt_union vt_kind vt_abs_name vt_tparam].
    repeat split; [|discriminate| |discriminate].
    + eapply Forall_impl; [|exact F]. unfold construct_ok. intros c (_ & H & _). auto.
    + cbn. apply Forall_forall. intros u Hu. apply in_flat_map in Hu as (c & Hc & Hu). rewrite Forall_forall in F.
      destruct (F c Hc) as (_ & _ & G). rewrite Forall_forall in G. auto.
  - intros (-> & _). unfold counted, targeted, mentions. cbn [vt_union vt_kind vt_abs_name vt_tparam].
    repeat split; try discriminate; constructor.
  - intros (Hk & Hv). unfold counted, targeted, mentions. cbn [vt_union vt_kind vt_abs_name vt_tparam].
    cbn in Hk. destruct Hk as [<-|[<-|[<-|[]]]]; (repeat split; [discriminate| |discriminate]); cbn; auto.
  - intros H. unfold counted, targeted, mentions. cbn [vt_union vt_kind vt_abs_name vt_tparam].
    destruct H as [H| ->].
    + destruct (P k H) as (P1 & P2 & P3 & P4 & P5 & P6). rewrite P1, P3, P4, P5, P6. repeat split; auto. discriminate.
    + repeat split; try discriminate; [constructor|]. intros N _. now destruct N.
Qed.

(** * Generic helpers *)
Lemma number_app {A} (a : list A) : forall b i, number i (a ++ b) = number i a ++ number (i + zlen a) b.
Proof.
  induction a as [|x a IH]; intros b i; cbn [app number].
  - change (zlen (@nil A)) with 0. now rewrite Z.add_0_r.
  - rewrite IH, zlen_cons. cbn [app]. now replace (i + 1 + zlen a) with (i + (1 + zlen a)) by lia.
Qed.
Lemma number_map {A B} (f : A -> B) l : forall i, number i (map f l) = map (fun p => (fst p, f (snd p))) (number i l).
Proof. induction l as [|x l IH]; intros i; cbn; [reflexivity|now rewrite IH]. Qed.
Lemma flat_map_single {A B} (f : A -> B) l : flat_map (fun x => [f x]) l = map f l.
Proof. induction l; cbn; congruence. Qed.
Lemma rfor_fill {A} (items : list A) (val : Z -> A -> Z) (body : Z -> list Z -> R (list Z)) l0 : zlen l0 = zlen items ->
  (forall i x l, 0 <= i -> znth items i = Some x -> zlen l = zlen items -> znth l i = znth l0 i ->
     exists l', body i l = Ok l' /\ zlen l' = zlen l /\ forall j, znth l' j = if j =? i then Some (val i x) else znth l j) ->
  rfor (zlen items) body l0 = Ok (map (fun p => val (fst p) (snd p)) (number 0 items)).
Proof.
  intros L H. pose proof (zlen_nonneg items) as N.
  destruct (rfor_ok (fun i l => zlen l = zlen items /\ forall j, 0 <= j ->
     znth l j = if j <? i then option_map (val j) (znth items j) else znth l0 j) (zlen items) body l0 N) as (r & E & Lr & Hr).
  - split; [auto|]. intros j Hj. destruct (Z.ltb_spec j 0); [lia|reflexivity].
  - intros i l Hi (Ll & Hl). destruct (znth_in items i Hi) as [x Zx].
    destruct (H i x l ltac:(lia) Zx Ll) as (l' & E & L' & G).
    { rewrite Hl by lia. destruct (Z.ltb_spec i i); [lia|reflexivity]. }
    exists l'. split; [auto|]. split; [lia|]. intros j Hj. rewrite G. destruct (Z.eqb_spec j i) as [->|].
    + destruct (Z.ltb_spec i (i + 1)); [|lia]. now rewrite Zx.
    + rewrite Hl by auto. destruct (Z.ltb_spec j i), (Z.ltb_spec j (i + 1)); try lia; reflexivity.
  - rewrite E. f_equal. apply znth_ext.
    + rewrite Lr. rewrite zlen_map. now rewrite number_len.
    + intros k Hk. rewrite Hr by lia. destruct (Z.ltb_spec k (zlen items)); [|lia].
      rewrite znth_map, number_get by lia. destruct (znth items k); reflexivity.
Qed.
Lemma number_snd {A B} (f : A -> B) (l : list A) : forall i, map (fun p => f (snd p)) (number i l) = map f l.
Proof. induction l as [|x l IH]; intros i; cbn; [reflexivity|now rewrite IH]. Qed.
Lemma zlen_zrepeat {A} (x : A) k : 0 <= k -> zlen (zrepeat x k) = k.
Proof. intros H. unfold zlen, zrepeat. rewrite repeat_length. lia. Qed.
Lemma fill_one (l : list Z) i v : 0 <= i < zlen l ->
  exists l', need PIndex (zset l i v) = Ok l' /\ zlen l' = zlen l /\ forall j, znth l' j = if j =? i then Some v else znth l j.
Proof.
  intros H. destruct (zset_ok l i v H) as [l' E]. rewrite E. exists l'. split; [reflexivity|]. now apply zset_get in E.
Qed.
Lemma firstn_snoc {A} : forall (l : list A) i x, nth_error l i = Some x -> firstn (S i) l = firstn i l ++ [x].
Proof.
  induction l as [|y l IH]; intros [|i] x E; cbn in E; try discriminate.
  - injection E as ->. reflexivity.
  - cbn [firstn app]. f_equal. now apply IH.
Qed.
Lemma rfor_each {A} k (body : Z -> A -> R A) acc r : rfor k body acc = Ok r -> forall j, 0 <= j < k -> exists a b, body j a = Ok b.
Proof.
  unfold rfor. intros E j Hj. assert (G : forall m i acc, rloop m i body acc = Ok r -> i <= j < i + Z.of_nat m -> exists a b, body j a = Ok b).
  { induction m as [|m IH]; intros i a0 E0 Hi; [lia|]. cbn [rloop] in E0. apply rbind_ok in E0 as (a1 & E1 & E0).
    destruct (Z.eq_dec i j) as [<-|]; [eauto|]. apply (IH (i + 1) a1 E0). lia. }
  apply (G _ _ _ E). lia.
Qed.
Lemma combine_get {A B} : forall (a : list A) (b : list B) i, znth (combine a b) i =
  match znth a i, znth b i with Some x, Some y => Some (x, y) | _, _ => None end.
Proof.
  induction a as [|x a IH]; intros [|y b] i; cbn [combine znth]; [reflexivity|reflexivity| |].
  - destruct (i =? 0); [reflexivity|]. destruct (znth a (i - 1)); reflexivity.
  - destruct (i =? 0); [reflexivity|apply IH].
Qed.
Lemma combine_len {A B} (a : list A) (b : list B) : zlen b <= zlen a -> zlen (combine a b) = zlen b.
Proof. intros H. unfold zlen in *. rewrite combine_length. lia. Qed.
Lemma skipn4 {A} (l : list A) : 4 <= zlen l -> zlen (firstn 4 l) = 4.
Proof. unfold zlen. intros H. rewrite firstn_length. lia. Qed.
Lemma arity_setglobal : arity OSetGlobal = Some (Some 2). Proof. reflexivity. Qed.
Lemma arity_int : arity OInt = Some (Some 2). Proof. reflexivity. Qed.
Lemma opcode_p1 o : opcode_ok o -> o_op o = OSetGlobal -> exists x, o_p1 o = Some x /\ i32_range x.
Proof.
  intros (R & _ & H) E. rewrite E, arity_setglobal in H. destruct H as (H & _).
  destruct (o_p1 o) as [x|] eqn:P; [|destruct (proj2 H); [lia|reflexivity]]. exists x. split; [auto|]. apply R. now left.
Qed.
Lemma opcode_p2 o : opcode_ok o -> o_op o = OInt -> exists x, o_p2 o = Some x /\ i32_range x.
Proof.
  intros (R & _ & H) E. rewrite E, arity_int in H. destruct H as (_ & H & _).
  destruct (o_p2 o) as [x|] eqn:P; [|destruct (proj2 H); [lia|reflexivity]]. exists x. split; [auto|]. apply R. right. now left.
Qed.
Lemma entry_out {A} (d : A) l k : zlen l <= k -> entry d l k = d.
Proof. intros H. unfold entry, zlen in *. apply nth_overflow. lia. Qed.
Lemma znth_repeat {A} (x : A) k i : 0 <= i < k -> znth (zrepeat x k) i = Some x.
Proof.
  intros H. rewrite FormatProofs.znth_nth_error by lia. unfold zrepeat. destruct (nth_error (repeat x (Z.to_nat k)) (Z.to_nat i)) eqn:E.
  - apply nth_error_In, repeat_spec in E. now subst.
  - apply nth_error_None in E. rewrite repeat_length in E. lia.
Qed.
Lemma latest_app a : forall b k d, latest (a ++ b) k d = latest b k (latest a k d).
Proof. induction a as [|[j v] a IH]; intros b k d; cbn [app latest]; auto. Qed.
Lemma slots_app m a b : slots_in m (a ++ b) <-> slots_in m a /\ slots_in m b.
Proof. apply Forall_app. Qed.

Section Alloc.
Context (c : code) (CO : contents_ok c) (SO : sizes_ok c).
Let D := declared c.
Let n := c_ntypes c.
Lemma types_table : c_types c = D ++ zrepeat vt_default n /\ zlen D = n.
Proof.
  unfold contents_ok in CO. destruct CO as (_ & _ & _ & _ & _ & _ & _ & (D0 & L & E & _) & _).
  assert (declared c = D0) as ED; [|unfold D, n; rewrite ED; auto].
  unfold declared. rewrite E, <- L. replace (Z.to_nat (zlen D0)) with (length D0) by (unfold zlen; lia).
  rewrite firstn_app, Nat.sub_diag, firstn_all. cbn [firstn]. apply app_nil_r.
Qed.
Lemma declared_types t : In t D -> counted t /\ targeted t /\ Forall counted (mentions t) /\ type_ok (c_strings c) (vt_default :: D) t.
Proof.
  destruct types_table as [ET LD].
  unfold contents_ok in CO. destruct CO as (_ & _ & _ & _ & _ & _ & _ & (D0 & L & E & H) & _).
  assert (D = D0) as ED.
  { rewrite ET in E. apply app_inv_tail in E. exact E. }
  rewrite <- ED in H. intros Ht.
  assert (S : forall u, In u D -> counted u).
  { intros u Hu. apply In_nth_error in Hu as [m Em]. destruct (H (Z.of_nat m) u) as [_ T].
    - rewrite FormatProofs.znth_nth_error by lia. now rewrite Nat2Z.id.
    - now apply type_ok_counted in T. }
  apply In_nth_error in Ht as [m Em]. destruct (H (Z.of_nat m) t) as [Nd T].
  { rewrite FormatProofs.znth_nth_error by lia. now rewrite Nat2Z.id. }
  destruct (type_ok_counted _ _ _ T) as (C & M & Tg). split; [auto|split; [auto|]].
  assert (I : forall x, In x (vt_default :: firstn (Z.to_nat (Z.of_nat m)) D) -> In x (vt_default :: D)).
  { intros x [Hx|Hx]; [now left|right]. rewrite <- (firstn_skipn (Z.to_nat (Z.of_nat m)) D). apply in_or_app. now left. }
  split; [|eapply type_ok_mono; [exact I|exact T]].
  eapply Forall_impl; [|exact M]. cbv beta. intros u Hu. apply I in Hu as [<-|Hu]; [apply counted_default|auto].
Qed.
Lemma counts : 0 <= n < 2 ^ 31 /\ 0 <= c_nglobals c < 2 ^ 31 /\ 0 <= c_nfunctions c < 2 ^ 31 /\ 0 <= c_nnatives c < 2 ^ 31 /\ 0 <= c_nconstants c /\
  0 <= c_nints c < 2 ^ 31.
Proof.
  destruct SO as (F & _). rewrite Forall_forall in F. repeat split; apply F; cbn; tauto.
Qed.

(** ** Phase 1: function indices *)
Definition index_puts : list (Z * Z) := map (fun p => (snd p, i32 (fst p))) (number 0 (findexes c)).
Lemma phase_indexes l l' : alloc_indexes c l = Ok l' <-> puts index_puts l = Ok l'.
Proof.
  destruct SO as (_ & _ & _ & _ & _ & _ & _ & _ & _ & Nn & Nf & _).
  unfold alloc_indexes. rewrite <- Nf, <- Nn.
  assert (P1 : forall l l', rfor (zlen (c_functions c)) (fun i l => f <~ need PIndex (znth (c_functions c) i) ;; need PIndex (zset l (hf_findex f) (as_i32 i))) l = Ok l'
     <-> puts (map (fun p => (hf_findex (snd p), i32 (fst p))) (number 0 (c_functions c))) l = Ok l').
  { intros l0 l0'. rewrite <- (number_len (c_functions c) 0).
    rewrite (rfor_puts (zlen l0) (fun _ => True) (fun p => [(hf_findex (snd p), i32 (fst p))])).
    - rewrite flat_map_single. split; [tauto|]. intros H. split; [apply Forall_forall; auto|auto].
    - reflexivity.
    - intros i x l1 Hi Z _ _. apply number_in in Z as [Ei Z]; [|auto]. rewrite Z. cbn [need rbind puts]. rewrite as_i32_i32, Ei.
      destruct (zset l1 _ _); reflexivity.
    - auto. }
  assert (P2 : forall l l', rfor (zlen (c_natives c)) (fun i l => x <~ need PIndex (znth (c_natives c) i) ;; need PIndex (zset l (n_findex x) (as_i32 (i + zlen (c_functions c))))) l = Ok l'
     <-> puts (map (fun p => (n_findex (snd p), i32 (fst p + zlen (c_functions c)))) (number 0 (c_natives c))) l = Ok l').
  { intros l0 l0'. rewrite <- (number_len (c_natives c) 0).
    rewrite (rfor_puts (zlen l0) (fun _ => True) (fun p => [(n_findex (snd p), i32 (fst p + zlen (c_functions c)))])).
    - rewrite flat_map_single. split; [tauto|]. intros H. split; [apply Forall_forall; auto|auto].
    - reflexivity.
    - intros i x l1 Hi Z _ _. apply number_in in Z as [Ei Z]; [|auto]. rewrite Z. cbn [need rbind puts]. rewrite as_i32_i32, Ei.
      destruct (zset l1 _ _); reflexivity.
    - auto. }
  assert (E : index_puts = map (fun p => (hf_findex (snd p), i32 (fst p))) (number 0 (c_functions c)) ++
     map (fun p => (n_findex (snd p), i32 (fst p + zlen (c_functions c)))) (number 0 (c_natives c))).
  { unfold index_puts, findexes. rewrite number_app, map_app, !number_map, !map_map. cbn [fst snd]. f_equal. rewrite zlen_map.
    assert (G : forall l i j, map (fun p => (n_findex (snd p), i32 (fst p))) (number (i + j) l) =
       map (fun p => (n_findex (snd p), i32 (fst p + j))) (number i l)).
    { induction l0 as [|x l0 IH]; intros i j; cbn [number map fst snd]; [reflexivity|]. f_equal.
      rewrite <- IH. now replace (i + j + 1) with (i + 1 + j) by lia. }
    apply (G (c_natives c) 0 (zlen (c_functions c))). }
  rewrite E, puts_app. split; intros H.
  - apply rbind_ok in H as (l1 & H1 & H). apply P1 in H1. rewrite H1. cbn [rbind]. now apply P2.
  - apply rbind_ok in H as (l1 & H1 & H). apply P1 in H1. rewrite H1. cbn [rbind]. now apply P2.
Qed.

(** ** Phases that fill one slot per round *)
Lemma types_get i : 0 <= i < n -> znth (c_types c) i = znth D i.
Proof. intros H. destruct types_table as [E L]. rewrite E. apply znth_app_l. lia. Qed.

Lemma phase_types1 : alloc_types1 c (zrepeat 0 n) = Ok (map outer_hash D).
Proof.
  destruct types_table as [ET LD]. destruct counts as (Cn & _). unfold alloc_types1. fold n. rewrite <- LD.
  rewrite (rfor_fill D (fun _ t => outer_hash t)).
  - now rewrite number_snd.
  - apply zlen_zrepeat. lia.
  - intros i x l Hi Z Ll _. pose proof (znth_some_range _ _ _ Z) as R. rewrite types_get, Z by lia. cbn [need rbind].
    apply znth_In in Z. destruct (declared_types x Z) as (C & T & M & _). rewrite vt_hash_false by auto. cbn [rbind].
    apply fill_one. lia.
Qed.

Definition no_forward : Prop := Forall (fun t => Forall (fun u => In u D) (mixed t)) D.
Lemma phase_types2 ch : ch_code ch = c -> ch_type_hashes ch = map outer_hash D ->
  (no_forward -> alloc_types2 ch c = Ok (map signature D ++ zrepeat 0 n)) /\
  (forall r, alloc_types2 ch c = Ok r -> no_forward).
Proof.
  intros Ec Eh. destruct types_table as [ET LD]. destruct counts as (Cn & _).
  assert (ET' : c_types (ch_code ch) = D ++ zrepeat vt_default n) by now rewrite Ec.
  split.
  - intros NF. unfold alloc_types2. fold n.
    destruct (rfor_ok (fun i l => l = map signature (firstn (Z.to_nat i) D) ++ zrepeat 0 n) n (fun i l =>
      a <~ need PIndex (znth (ch_type_hashes ch) i) ;; b <~ hash_type_rec ch i ;; need PInsert (zinsert l i (Z.lxor a b))) (zrepeat 0 n)) as (r & E & Hr).
    + lia.
    + reflexivity.
    + intros i l Hi ->. destruct (znth_in D i ltac:(lia)) as [t Zt]. pose proof (znth_In _ _ _ Zt) as It.
      destruct (declared_types t It) as (C & T & M & _). rewrite Eh, znth_map, Zt. cbn [option_map need rbind].
      unfold no_forward in NF. rewrite Forall_forall in NF.
      rewrite (hash_type_rec_in D (zrepeat vt_default n) outer_hash ch i t ET' Eh); auto.
      2:{ rewrite znth_app_l; [auto|]. lia. }
      cbn [rbind]. assert (Li : zlen (map signature (firstn (Z.to_nat i) D)) = i).
      { rewrite zlen_map. unfold zlen in *. rewrite firstn_length. lia. }
      rewrite zinsert_mid by (symmetry; exact Li). cbn [need]. eexists. split; [reflexivity|].
      rewrite Z2Nat.inj_add by lia. change (Z.to_nat 1) with 1%nat. rewrite Nat.add_1_r.
      rewrite FormatProofs.znth_nth_error in Zt by lia. rewrite (firstn_snoc _ _ _ Zt).
      rewrite map_app, <- app_assoc. reflexivity.
    + rewrite E, Hr. f_equal. f_equal. f_equal. apply firstn_all2. unfold zlen in LD. lia.
  - intros r E. unfold no_forward. apply Forall_forall. intros t It. destruct (all_in_dec D (mixed t)) as [H|H]; [auto|exfalso].
    apply In_nth_error in It as [m Em]. unfold alloc_types2 in E. fold n in E.
    assert (Hm : (m < length D)%nat) by (apply nth_error_Some; congruence).
    destruct (rfor_each _ _ _ _ E (Z.of_nat m)) as (a & b & B); [unfold zlen in LD; lia|].
    apply rbind_ok in B as (x & _ & B). apply rbind_ok in B as (y & B & _).
    assert (Zt : znth (D ++ zrepeat vt_default n) (Z.of_nat m) = Some t).
    { rewrite znth_app_l by (unfold zlen; lia). rewrite FormatProofs.znth_nth_error by lia. now rewrite Nat2Z.id. }
    apply nth_error_In in Em. destruct (declared_types t Em) as (C & _).
    destruct (hash_type_rec_out D _ outer_hash ch _ t ET' Eh Zt C H) as [p Ep]. congruence.
Qed.

(** ** Phases over globals *)
Let G := firstn (Z.to_nat (c_nglobals c)) (c_globals c).
Let ng := c_nglobals c.
Lemma globals_table : c_globals c = G ++ zrepeat vt_default ng /\ zlen G = ng /\ Forall (fun t => In t D) G.
Proof.
  unfold contents_ok in CO. destruct CO as (_ & _ & _ & _ & _ & _ & _ & _ & (G0 & L & E & H) & _).
  assert (G = G0) as ->; [|auto].
  unfold G. rewrite E, <- L. replace (Z.to_nat (zlen G0)) with (length G0) by (unfold zlen; lia).
  rewrite firstn_app, Nat.sub_diag, firstn_all. cbn [firstn]. apply app_nil_r.
Qed.
Lemma globals_get i : 0 <= i < ng -> znth (c_globals c) i = znth G i.
Proof. intros H. destruct globals_table as (E & L & _). rewrite E. apply znth_app_l. lia. Qed.
Lemma code_hash_type_in ch t zs : ch_code ch = c -> ch_type_hashes ch = map signature D ++ zs -> In t D ->
  code_hash_type ch t = Ok (signature_crc t).
Proof.
  intros Ec Eh Ht. destruct types_table as [ET _]. unfold code_hash_type, write_type. rewrite Ec, Eh, ET, hash_at_declared by auto.
  cbn [rbind]. unfold rret. rewrite write_u32_le. unfold signature_crc, crc32. reflexivity.
Qed.

Section Globals.
Context (ch : code_hash) (zs : list Z) (Ec : ch_code ch = c) (Eh : ch_type_hashes ch = map signature D ++ zs).
Lemma phase_globals1 : alloc_globals1 ch c (zrepeat 0 ng) = Ok (map (fun p => default_sign (fst p) (snd p)) (number 0 G)).
Proof.
  destruct globals_table as (EG & LG & FG). destruct counts as (_ & Cg & _). unfold alloc_globals1. fold ng. rewrite <- LG.
  apply rfor_fill; [apply zlen_zrepeat; lia|].
  intros i t l Hi Z Ll _. pose proof (znth_some_range _ _ _ Z) as Ri. rewrite globals_get, Z by lia.
  destruct (fill_one l i (as_i32 (Z.lor i 2147483648)) ltac:(lia)) as (l1 & E1 & L1 & G1). rewrite E1. cbn [need rbind].
  rewrite as_i32_i32 in G1. unfold default_sign. destruct (vt_kind t =? HABSTRACT).
  - rewrite (code_hash_type_in ch t zs) by (auto; rewrite Forall_forall in FG; apply FG; eapply znth_In; eauto). cbn [rbind].
    destruct (fill_one l1 i (as_i32 (signature_crc t)) ltac:(lia)) as (l2 & E2 & L2 & G2). rewrite E2. exists l2. split; [auto|].
    split; [lia|]. intros j. rewrite G2, G1, as_i32_i32. destruct (j =? i); reflexivity.
  - exists l1. auto.
Qed.
Lemma phase_globals2 l l' : zlen l = ng -> alloc_globals2 ch c l = Ok l' <-> puts (flat_map owner D) l = Ok l'.
Proof.
  intros Ll. destruct types_table as [ET LD]. destruct counts as (Cn & Cg & _). unfold alloc_globals2. fold n. rewrite <- LD.
  rewrite (rfor_puts ng (fun _ => True) owner); [split; [tauto|]; intros H; split; [apply Forall_forall; auto|auto]|auto| |auto].
  intros i t l1 Hi Z L1 _. pose proof (znth_some_range _ _ _ Z) as Ri. rewrite types_get, Z by lia. cbn [need rbind].
  pose proof (znth_In _ _ _ Z) as Ht. rewrite (code_hash_type_in ch t zs) by auto. cbn [rbind]. cbv zeta.
  destruct (declared_types t Ht) as (_ & _ & _ & T). unfold owner.
  assert (P : forall g, 0 <= g < 2 ^ 31 ->
     (g0 <~ need PIndex (znth [g] 0) ;; need PIndex (zset l1 (as_usize (g0 - 1)) (as_i32 (signature_crc t)))) = puts [(g - 1, i32 (signature_crc t))] l1).
  { intros g Hg. cbn [znth need rbind puts]. change (0 =? 0) with true. cbn [need rbind].
    rewrite zset_usize, as_i32_i32 by (change (2 ^ 32) with (2 ^ 31 + 2 ^ 31); change (2 ^ 63) with (2 ^ 31 * 2 ^ 32); lia).
    destruct (zset l1 _ _); reflexivity. }
  assert (PK : forall k, In k prim_kinds \/ k = HNULL \/ k = HABSTRACT \/ k = HVIRTUAL \/ In k param_kinds \/ In k [HFUN; HMETHOD] ->
     (k =? HOBJ) || (k =? HSTRUCT) = false /\ (k =? HENUM) = false).
  { intros k H. cbn in H. repeat (destruct H as [H|H]); try contradiction; subst k; split; reflexivity. }
  destruct t as [u a p k]. cbn [vt_union vt_kind]. destruct u, a, p; cbn [type_ok] in T; try contradiction;
    try (destruct (PK k ltac:(tauto)) as [-> ->]; reflexivity).
  - destruct rt; contradiction.
  - destruct rt; contradiction.
  - destruct rt; contradiction.
  - destruct rt; [contradiction|]. destruct T as (Hk & _ & _ & _ & _ & _ & _ & _ & _ & g & -> & Hg).
    replace ((k =? HOBJ) || (k =? HSTRUCT)) with true by (destruct Hk as [<-|[<-|[]]]; reflexivity). apply P; auto.
  - destruct T as (-> & _ & _ & _ & g & -> & Hg). change ((HENUM =? HOBJ) || (HENUM =? HSTRUCT)) with false. cbn iota.
    change (HENUM =? HENUM) with true. cbn iota. apply P; auto.
Qed.
Lemma phase_finish l : zlen l = ng ->
  alloc_finish ch c l = Ok (map (fun p => Z.lxor (entry 0 l (fst p)) (i32 (signature_crc (snd p)))) (number 0 G)).
Proof.
  intros Ll. destruct globals_table as (EG & LG & FG). unfold alloc_finish. fold ng. rewrite <- LG.
  apply (rfor_fill G (fun i t => Z.lxor (entry 0 l i) (i32 (signature_crc t)))); [lia|].
  intros i t l1 Hi Z L1 El. pose proof (znth_some_range _ _ _ Z) as Ri. rewrite globals_get, Z by lia. cbn [need rbind].
  rewrite (code_hash_type_in ch t zs) by (auto; rewrite Forall_forall in FG; apply FG; eapply znth_In; eauto). cbn [rbind].
  rewrite El, (znth_entry 0 l i) by lia. cbn [need rbind]. rewrite as_i32_i32. apply fill_one. lia.
Qed.
End Globals.

(** ** Constants *)
Lemma hash_constant_ok k tt : constant_ok k -> entry vt_default (c_globals c) (k_global k) = tt -> constant_hashable c k ->
  hash_constant c k tt = Ok (crc32 (flat_map (field_bytes c) (constant_fields c k))).
Proof.
  intros (K1 & K2 & K3) Et (H1 & H2). unfold hash_constant, constant_fields in *. rewrite Et in *. rewrite <- K2.
  destruct (vt_union tt) as [| nm sp fields nf np nb pr bs gs rt | | | | | |] eqn:U.
  2: {
    rewrite <- (combine_len fields (k_fields k) H1). rewrite (rfor_writes (combine fields (k_fields k)) _ (field_bytes c)).
    - reflexivity.
    - intros i fx h Hi Z. pose proof (znth_In _ _ _ Z) as Hin. rewrite Forall_forall in H2. specialize (H2 _ Hin).
      rewrite combine_get in Z. destruct (znth fields i) as [f|]; [|discriminate]. destruct (znth (k_fields k) i) as [x|] eqn:Zx; [|discriminate].
      assert (fx = (f, x)) as -> by congruence. cbn [need rbind field_bytes fst snd] in *. destruct H2 as [Hint Hstr].
      assert (0 <= x) by (rewrite Forall_forall in K3; apply K3; eapply znth_In; eauto).
      destruct (Z.eqb_spec (vt_kind (fd_t f)) HI32) as [Ek|Ek].
      + rewrite (znth_entry 0 (c_ints c) x) by (specialize (Hint Ek); lia). reflexivity.
      + destruct (Z.eqb_spec (vt_kind (fd_t f)) HBYTES) as [Ek2|Ek2].
        * specialize (Hstr Ek2). unfold str in *. rewrite (znth_entry (A := list BinNums.Z) [] (c_strings c) x) by lia. reflexivity.
        * reflexivity. }
  all: rewrite (rfor_list (k_fields k) _ (fun h _ => h));
    [ assert (F : forall (l : list Z) (h : hasher), fold_left (fun h _ => h) l h = h) by (induction l; cbn; auto); rewrite F; reflexivity
    | intros i x h Hi Z; rewrite Z; reflexivity ].
Qed.
Lemma hash_constant_good k tt r : constant_ok k -> entry vt_default (c_globals c) (k_global k) = tt ->
  hash_constant c k tt = Ok r -> constant_hashable c k.
Proof.
  intros (K1 & K2 & K3) Et E. unfold hash_constant, constant_hashable, constant_fields in *. rewrite Et in *.
  apply rbind_ok in E as (h & E & _). destruct (vt_union tt) as [| nm sp fields nf np nb pr bs gs rt | | | | | |] eqn:U.
  2: {
    pose proof (rfor_each _ _ _ _ E) as Each. rewrite <- K2 in Each. split.
    - pose proof (zlen_nonneg fields). destruct (Z.lt_ge_cases (zlen fields) (zlen (k_fields k))) as [Hl|]; [exfalso|lia].
      destruct (Each (zlen fields)) as (a & b & B); [lia|]. apply rbind_ok in B as (x & _ & B). apply rbind_ok in B as (f & B & _).
      apply need_ok in B. rewrite znth_none in B by lia. discriminate.
    - apply Forall_forall. intros [f x] Hin. cbn [fst snd]. apply In_nth_error in Hin as [m Em].
      assert (Z : znth (combine fields (k_fields k)) (Z.of_nat m) = Some (f, x)).
      { rewrite FormatProofs.znth_nth_error by lia. now rewrite Nat2Z.id. }
      rewrite combine_get in Z. destruct (znth fields (Z.of_nat m)) as [f'|] eqn:Zf; [|discriminate].
      destruct (znth (k_fields k) (Z.of_nat m)) as [x'|] eqn:Zx; [|discriminate].
      assert (f' = f) as -> by congruence. assert (x' = x) as -> by congruence.
      destruct (Each (Z.of_nat m)) as (a & b & B); [now apply znth_some_range in Zx|].
      rewrite Zx, Zf in B. cbn [need rbind] in B. destruct (Z.eqb_spec (vt_kind (fd_t f)) HI32) as [Ek|Ek].
      + apply rbind_ok in B as (v & B & _). apply need_ok in B. apply znth_some_range in B. split; [lia|]. rewrite Ek. discriminate.
      + split; [tauto|]. intros Ek2. rewrite Ek2 in B. change (HBYTES =? HBYTES) with true in B. cbn iota in B.
        apply rbind_ok in B as (v & B & _). apply need_ok in B. apply znth_some_range in B. lia. }
  all: split; [exact I|constructor].
Qed.
Lemma phase_constants l l' : zlen l = ng ->
  alloc_constants c l = Ok l' <-> Forall (constant_hashable c) (c_constants c) /\ puts (map (constant_sign c) (c_constants c)) l = Ok l'.
Proof.
  intros Ll. destruct SO as (_ & _ & _ & _ & _ & _ & _ & _ & Lg & _ & _ & Nc).
  assert (KO : Forall constant_ok (c_constants c)) by (unfold contents_ok in CO; tauto). rewrite Forall_forall in KO.
  destruct counts as (_ & Cg & _).
  unfold alloc_constants. rewrite <- Nc.
  rewrite (rfor_puts ng (fun k => constant_hashable c k /\ k_global k < zlen (c_globals c)) (fun k => [constant_sign c k])).
  - rewrite flat_map_single. split; intros [H1 H2]; split; auto.
    + eapply Forall_impl; [|exact H1]. cbv beta. tauto.
    + destruct (puts_get _ _ _ H2) as (Sl & _). unfold slots_in in Sl. rewrite Forall_map in Sl.
      rewrite Forall_forall in *. intros k Hk. split; [auto|]. specialize (Sl k Hk). cbn [constant_sign fst] in Sl.
      unfold ng in *. lia.
  - auto.
  - intros i k l1 Hi Z L1 [H1 H2]. pose proof (KO k (znth_In _ _ _ Z)) as K. rewrite Z. cbn [need rbind].
    rewrite (znth_entry vt_default (c_globals c) (k_global k)) by (destruct K; lia). cbn [need rbind].
    rewrite (hash_constant_ok k _ K eq_refl H1). cbn [rbind puts]. unfold constant_sign. rewrite as_i32_i32. destruct (zset l1 _ _); reflexivity.
  - intros i k l1 l2 Hi Z L1 B. pose proof (KO k (znth_In _ _ _ Z)) as K. rewrite Z in B. cbn [need rbind] in B.
    apply rbind_ok in B as (tt & Bt & B). apply need_ok in Bt. apply rbind_ok in B as (x & Bx & B).
    split; [|now apply znth_some_range in Bt]. eapply hash_constant_good; [exact K| |exact Bx]. now apply entry_get.
Qed.

(** ** Boot code *)
Definition boot_round (ops : list opcode) (i : Z) (l : list Z) : R (list Z) :=
    op <~ need PIndex (znth ops i) ;;
    if o_op op =? OSetGlobal then
      t <~ need PIndex (znth (c_globals c) i) ;;
      if vt_kind t =? HENUM then
        o2 <~ need PIndex (znth ops (i - 2)) ;;
        if o_op o2 =? OGetArray then
          o3 <~ need PIndex (znth ops (i - 3)) ;;
          if o_op o3 =? OInt then
            p2 <~ need PUnwrap (o_p2 o3) ;;
            x <~ need PIndex (znth (c_ints c) (as_usize p2)) ;;
            p1 <~ need PUnwrap (o_p1 op) ;;
            need PIndex (zset l (as_usize p1) x)
          else rret l
        else rret l
      else rret l
    else rret l.
Lemma boot_round_spec ops i op l : Forall opcode_ok ops -> 4 <= i -> znth ops i = Some op -> zlen l = ng ->
  (boot_hashable c ops (i, op) -> boot_round ops i l = puts (boot_sign c ops (i, op)) l) /\
  (forall l', boot_round ops i l = Ok l' -> boot_hashable c ops (i, op)).
Proof.
  intros OK Hi Z Ll. destruct counts as (_ & Cg & _ & _ & _ & Ci). destruct SO as (_ & Li & _).
  assert (Hlen : zlen (c_ints c) < 2 ^ 63) by (change (2 ^ 63) with (2 ^ 31 * 2 ^ 32); lia).
  assert (Lng : zlen l < 2 ^ 63) by (change (2 ^ 63) with (2 ^ 31 * 2 ^ 32); unfold ng in *; lia).
  assert (I32 : forall x, i32_range x -> - 2 ^ 31 <= x < 2 ^ 32) by (unfold i32_range; change (2 ^ 32) with (2 ^ 31 + 2 ^ 31); lia).
  pose proof (znth_some_range _ _ _ Z) as Ri.
  rewrite Forall_forall in OK. unfold boot_round, boot_hashable, boot_sign, boot_matches. rewrite Z. cbn [need rbind].
  destruct (Z.eqb_spec (o_op op) OSetGlobal) as [E1|E1]; cbn [andb].
  2: { split; [reflexivity|]. intros l' _. split; [tauto|discriminate]. }
  destruct (Z.lt_ge_cases i (zlen (c_globals c))) as [Hg|Hg].
  2: { rewrite (znth_none (c_globals c)) by lia. cbn [need rbind]. split; [intros [H _]; specialize (H E1); lia|discriminate]. }
  rewrite (znth_entry vt_default (c_globals c) i) by lia. cbn [need rbind].
  destruct (vt_kind (entry vt_default (c_globals c) i) =? HENUM); cbn [andb].
  2: { split; [reflexivity|]. intros l' _. split; [auto|discriminate]. }
  rewrite (znth_entry opcode_default ops (i - 2)) by lia. cbn [need rbind].
  destruct (o_op (entry opcode_default ops (i - 2)) =? OGetArray); cbn [andb].
  2: { split; [reflexivity|]. intros l' _. split; [auto|discriminate]. }
  pose proof (znth_entry opcode_default ops (i - 3) ltac:(lia)) as Z3. rewrite Z3. cbn [need rbind].
  set (o3 := entry opcode_default ops (i - 3)) in *.
  destruct (Z.eqb_spec (o_op o3) OInt) as [E3|E3].
  2: { split; [reflexivity|]. intros l' _. split; [auto|discriminate]. }
  destruct (opcode_p1 op (OK _ (znth_In _ _ _ Z)) E1) as (g & Eg & Rg). destruct (opcode_p2 o3 (OK _ (znth_In _ _ _ Z3)) E3) as (x & Ex & Rx).
  rewrite Eg, Ex. cbn [need rbind]. rewrite znth_usize by auto.
  split.
  - intros [_ H]. destruct (H eq_refl) as (x' & Ex' & Hx). assert (x' = x) as -> by congruence.
    rewrite (znth_entry 0 (c_ints c) x) by lia. cbn [need rbind puts]. rewrite zset_usize by auto. destruct (zset l g _); reflexivity.
  - intros l' H. split; [auto|]. intros _. exists x. split; [auto|]. apply rbind_ok in H as (v & Hv & _). apply need_ok in Hv. now apply znth_some_range in Hv.
Qed.
Lemma phase_boot fidx l l' : zlen fidx = zlen (findexes c) -> (forall k, 0 <= k < zlen (findexes c) -> znth fidx k = Some (index_of c k)) -> zlen l = ng ->
  alloc_boot c fidx l = Ok l' <->
  exists f, boot_function c f /\ Forall (boot_hashable c (hf_ops f)) (skipn 4 (number 0 (hf_ops f))) /\ puts (boot_signs c f) l = Ok l'.
Proof.
  intros Lf Hf Ll. destruct counts as (_ & Cg & Cf & _).
  assert (Nf : zlen (c_functions c) = c_nfunctions c) by (destruct SO; tauto).
  assert (FO : Forall (function_ok D (negb (c_hasdebug c =? 0)) (c_ndebugfiles c)) (c_functions c)) by (unfold contents_ok in CO; tauto).
  rewrite Forall_forall in FO.
  assert (Hlen : zlen (c_functions c) < 2 ^ 63) by (change (2 ^ 63) with (2 ^ 31 * 2 ^ 32); lia).
  assert (IR : forall k, - 2 ^ 31 <= index_of c k < 2 ^ 32).
  { intros k. unfold index_of. assert (Gen : forall us d, Forall (fun u : Z * Z => - 2 ^ 31 <= snd u < 2 ^ 32) us -> - 2 ^ 31 <= d < 2 ^ 32 -> - 2 ^ 31 <= latest us k d < 2 ^ 32).
    { induction us as [|[j v] us IH]; intros d F Hd; cbn [latest]; [auto|]. inversion F; subst. cbn [snd] in *. apply IH; [auto|]. destruct (j =? k); auto. }
    apply Gen; [|change (2 ^ 32) with (2 ^ 31 + 2 ^ 31); lia]. rewrite Forall_map. apply Forall_forall. intros p _. cbn [snd].
    pose proof (i32_range' (fst p)). change (2 ^ 32) with (2 ^ 31 + 2 ^ 31). lia. }
  assert (Loop : forall f, In f (c_functions c) -> rloop (Z.to_nat (hf_nops f - 4)) 4 (boot_round (hf_ops f)) l = Ok l' <->
     Forall (boot_hashable c (hf_ops f)) (skipn 4 (number 0 (hf_ops f))) /\ puts (boot_signs c f) l = Ok l').
  { intros f Hin. destruct (FO f Hin) as (_ & _ & _ & _ & No & Oo & _). unfold boot_signs.
    set (items := number 0 (hf_ops f)). assert (Lit : zlen items = zlen (hf_ops f)) by apply number_len.
    destruct (Z.lt_ge_cases (zlen items) 4) as [Hs|Hs].
    - replace (Z.to_nat (hf_nops f - 4)) with 0%nat by lia. rewrite skipn_all2 by (unfold zlen in Hs; lia). cbn [rloop flat_map puts].
      split; [auto|tauto].
    - assert (E : items = firstn 4 items ++ skipn 4 items) by now rewrite firstn_skipn.
      pose proof (skipn4 items Hs) as L4.
      replace (Z.to_nat (hf_nops f - 4)) with (length (skipn 4 items)) by (rewrite skipn_length; unfold zlen in *; lia).
      rewrite <- L4 at 1. apply (rloop_puts ng (boot_hashable c (hf_ops f)) (boot_sign c (hf_ops f)) _ (skipn 4 items) (firstn 4 items) items l E Ll).
      + intros i [j op] l1 Hi Z L1 Good. apply number_in in Z as [Ej Z]; [|lia]. cbn [fst snd] in *. subst j.
        now apply boot_round_spec; auto; lia.
      + intros i [j op] l1 l2 Hi Z L1 B. apply number_in in Z as [Ej Z]; [|lia]. cbn [fst snd] in *. subst j.
        eapply boot_round_spec; eauto. lia. }
  unfold alloc_boot. fold (boot_round). split.
  - intros E. apply rbind_ok in E as (i & Ei & E). apply need_ok in Ei. apply rbind_ok in E as (f & Ef & E). apply need_ok in Ef.
    pose proof (znth_some_range _ _ _ Ei) as Re. rewrite Lf in Re. rewrite Hf in Ei by auto. assert (i = index_of c (c_entrypoint c)) as -> by congruence.
    rewrite znth_usize in Ef by auto. exists f. pose proof (znth_some_range _ _ _ Ef).
    split; [repeat split; auto; lia|]. apply Loop; [eapply znth_In; eauto|exact E].
  - intros (f & (Re & Ri & Ef) & H). rewrite Hf by auto. cbn [need rbind]. rewrite znth_usize by auto. rewrite Ef. cbn [need rbind].
    apply (proj2 (Loop f (znth_In _ _ _ Ef))). exact H.
Qed.

(** ** Everything *)
Lemma findexes_len : zlen (findexes c) = c_nfunctions c + c_nnatives c.
Proof. unfold findexes. rewrite zlen_app, !zlen_map. destruct SO as (_ & _ & _ & _ & _ & _ & _ & _ & _ & -> & -> & _). reflexivity. Qed.
Definition global_sign (f : hl_function) (p : Z * vtype) : Z :=
  Z.lxor (latest (flat_map owner D ++ map (constant_sign c) (c_constants c) ++ boot_signs c f) (fst p) (default_sign (fst p) (snd p)))
         (i32 (signature_crc (snd p))).

Lemma index_phase_ok : slots_in (zlen (findexes c)) index_puts <-> Forall (fun k => 0 <= k < zlen (findexes c)) (findexes c).
Proof.
  unfold slots_in, index_puts. rewrite Forall_map. cbn [fst].
  assert (Gen : forall l i (P : Z -> Prop), Forall (fun p => P (snd p)) (number i l) <-> Forall P l).
  { induction l as [|x l IH]; intros i P; cbn [number]; split; intros H; constructor; inversion H; subst; auto; try (now apply (IH (i + 1))). }
  apply (Gen (findexes c) 0 (fun k => 0 <= k < zlen (findexes c))).
Qed.
Lemma alloc_sound ch : alloc c = Ok ch ->
  hashable c /\ ch_code ch = c /\ ch_type_hashes ch = map signature D ++ zrepeat 0 n /\
  ch_functions_signs ch = [] /\ ch_functions_hashes ch = [] /\
  zlen (ch_functions_indexes ch) = zlen (findexes c) /\
  (forall k, 0 <= k < zlen (findexes c) -> znth (ch_functions_indexes ch) k = Some (index_of c k)) /\
  exists f, boot_function c f /\ ch_globals_signs ch = map (global_sign f) (number 0 G).
Proof.
  unfold alloc. cbv zeta. intros E. destruct types_table as [ET LD]. destruct globals_table as (EG & LG & FG). destruct counts as (Cn & Cg & Cf & Cnn & _).
  apply rbind_ok in E as (idx & Ei & E). cbn [ch_functions_indexes alloc_start] in Ei.
  apply phase_indexes in Ei. destruct (puts_get _ _ _ Ei) as (Si & Li & Gi).
  rewrite zlen_zrepeat in * by lia. rewrite <- findexes_len in Si, Li.
  assert (Hidx : forall k, 0 <= k < zlen (findexes c) -> znth idx k = Some (index_of c k)).
  { intros k Hk. apply Gi. apply znth_repeat. rewrite <- findexes_len. auto. }
  cbn [alloc_start set_functions_indexes ch_type_hashes ch_functions_indexes ch_globals_signs] in E. fold n ng in E.
  rewrite phase_types1 in E. cbn [rbind] in E.
  match type of E with context [alloc_types2 ?x c] => set (ch1 := x) in E end.
  destruct (phase_types2 ch1 eq_refl eq_refl) as [T1 T2].
  apply rbind_ok in E as (hs2 & E2 & E). pose proof (T2 _ E2) as NF. rewrite (T1 NF) in E2. assert (hs2 = map signature D ++ zrepeat 0 n) as -> by congruence.
  match type of E with context [alloc_globals1 ?x c] => set (ch2 := x) in E end.
  change (ch_globals_signs ch2) with (zrepeat 0 ng) in E. rewrite (phase_globals1 ch2 (zrepeat 0 n) eq_refl eq_refl) in E. cbn [rbind] in E.
  set (l0 := map (fun p => default_sign (fst p) (snd p)) (number 0 G)) in *.
  assert (L0 : zlen l0 = ng) by (unfold l0; rewrite zlen_map, number_len; auto).
  apply rbind_ok in E as (l1 & E1 & E). apply (phase_globals2 ch2 (zrepeat 0 n) eq_refl eq_refl) in E1; [|auto].
  destruct (puts_get _ _ _ E1) as (S1 & L1 & G1). rewrite L0 in *.
  apply rbind_ok in E as (l2 & Ek & E). apply phase_constants in Ek as [Hk Ek]; [|auto].
  destruct (puts_get _ _ _ Ek) as (S2 & L2 & G2). rewrite L1 in *.
  apply rbind_ok in E as (l3 & Eb & E). apply phase_boot in Eb as (f & Bf & Hb & Eb); [|auto|auto|lia].
  destruct (puts_get _ _ _ Eb) as (S3 & L3 & G3). rewrite L2 in *.
  rewrite (phase_finish ch2 (zrepeat 0 n) eq_refl eq_refl) in E by auto. cbn [rbind] in E.
  match type of E with rret ?x = _ => assert (ch = x) as -> by (unfold rret in E; congruence) end. clear E.
  cbn [set_globals_signs ch_code ch_type_hashes ch_functions_signs ch_functions_hashes ch_functions_indexes ch_globals_signs].
  split; [|split; [reflexivity|split; [reflexivity|split; [reflexivity|split; [reflexivity|split; [exact Li|split; [exact Hidx|]]]]]]].
  - unfold hashable. split; [now apply index_phase_ok|]. split; [exact NF|]. split; [exact S1|]. split; [exact S2|]. split; [exact Hk|].
    exists f. auto.
  - exists f. split; [auto|]. apply map_ext_in. intros [i t] Hin.
    assert (Hi : 0 <= i < ng /\ znth l0 i = Some (default_sign i t)).
    { apply In_nth_error in Hin as [m Em].
      assert (Zm : znth (number 0 G) (Z.of_nat m) = Some (i, t)) by (rewrite FormatProofs.znth_nth_error by lia; now rewrite Nat2Z.id).
      pose proof (znth_some_range _ _ _ Zm) as Rm. rewrite number_len in Rm. pose proof Zm as Zm'. apply number_in in Zm' as [Ei' _]; [|lia].
      cbn [fst] in Ei'. split; [lia|]. unfold l0. rewrite znth_map. rewrite <- Ei' in Zm. rewrite Zm. reflexivity. }
    destruct Hi as [Ri Zi]. unfold global_sign. cbn [fst snd]. f_equal.
    rewrite !latest_app. apply entry_get. apply G3, G2, G1. exact Zi.
Qed.
Lemma alloc_complete : hashable c -> exists ch, alloc c = Ok ch.
Proof.
  intros (H1 & NF & S1 & S2 & Hk & f & Bf & Hb & S3). destruct counts as (Cn & Cg & Cf & Cnn & _).
  destruct types_table as [ET LD]. destruct globals_table as (EG & LG & FG).
  unfold alloc. cbv zeta. cbn [alloc_start ch_functions_indexes]. set (z := zrepeat 0 (c_nfunctions c + c_nnatives c)).
  assert (Lz : zlen z = zlen (findexes c)) by (unfold z; rewrite zlen_zrepeat, findexes_len; lia).
  destruct (puts_ok index_puts z) as [idx Ei]; [rewrite Lz; now apply index_phase_ok|].
  destruct (puts_get _ _ _ Ei) as (_ & Li & Gi). rewrite Lz in Li.
  apply phase_indexes in Ei. rewrite Ei. cbn [rbind].
  assert (Hidx : forall k, 0 <= k < zlen (findexes c) -> znth idx k = Some (index_of c k)).
  { intros k Hk'. apply Gi. apply znth_repeat. rewrite <- findexes_len. auto. }
  cbn [alloc_start set_functions_indexes ch_type_hashes ch_functions_indexes ch_globals_signs]. fold n ng. rewrite phase_types1. cbn [rbind].
  match goal with |- context [alloc_types2 ?x c] => set (ch1 := x) end.
  rewrite (proj1 (phase_types2 ch1 eq_refl eq_refl) NF). cbn [rbind].
  match goal with |- context [alloc_globals1 ?x c] => set (ch2 := x) end.
  change (ch_globals_signs ch2) with (zrepeat 0 ng). rewrite (phase_globals1 ch2 (zrepeat 0 n) eq_refl eq_refl). cbn [rbind].
  set (l0 := map (fun p => default_sign (fst p) (snd p)) (number 0 G)) in *.
  assert (L0 : zlen l0 = ng) by (unfold l0; rewrite zlen_map, number_len; auto).
  destruct (puts_ok (flat_map owner D) l0) as [l1 E1]; [now rewrite L0|]. pose proof (puts_len _ _ _ E1) as L1.
  apply (phase_globals2 ch2 (zrepeat 0 n) eq_refl eq_refl) in E1; [|auto]. rewrite E1. cbn [rbind].
  destruct (puts_ok (map (constant_sign c) (c_constants c)) l1) as [l2 E2]; [now rewrite L1, L0|]. pose proof (puts_len _ _ _ E2) as L2.
  rewrite (proj2 (phase_constants l1 l2 ltac:(lia)) (conj Hk E2)). cbn [rbind].
  destruct (puts_ok (boot_signs c f) l2) as [l3 E3]; [now rewrite L2, L1, L0|]. pose proof (puts_len _ _ _ E3) as L3.
  rewrite (proj2 (phase_boot idx l2 l3 Li Hidx ltac:(lia)) (ex_intro _ f (conj Bf (conj Hb E3)))). cbn [rbind].
  rewrite (phase_finish ch2 (zrepeat 0 n) eq_refl eq_refl) by lia. cbn [rbind]. eexists. reflexivity.
Qed.
End Alloc.

(** * Hashing never returns an error: it succeeds or panics *)
Definition no_err {A} (m : R A) : Prop := forall e, m <> Err e.
Lemma ne_ret {A} (a : A) : no_err (Ok a). Proof. discriminate. Qed.
Lemma ne_bind {A B} (m : R A) (k : A -> R B) : no_err m -> (forall a, no_err (k a)) -> no_err (rbind m k).
Proof. intros H1 H2 e. destruct m as [a|e'|p]; cbn [rbind]; [apply H2|exfalso; now apply (H1 e')|discriminate]. Qed.
Lemma ne_need {A} p (o : option A) : no_err (need p o). Proof. destruct o; discriminate. Qed.
Lemma ne_try x : no_err (try_usize x). Proof. unfold try_usize. destruct (x <? 0); discriminate. Qed.
Lemma ne_rfor {A} n (body : Z -> A -> R A) acc : (forall i a, no_err (body i a)) -> no_err (rfor n body acc).
Proof.
  intros H. unfold rfor. generalize (Z.to_nat n), 0, acc. clear n acc. induction n as [|n IH]; intros i a; cbn [rloop]; [discriminate|]. apply ne_bind; auto.
Qed.
Lemma ne_rloop {A} n i (body : Z -> A -> R A) acc : (forall i a, no_err (body i a)) -> no_err (rloop n i body acc).
Proof. intros H. revert i acc. induction n as [|n IH]; intros i a; cbn [rloop]; [discriminate|]. apply ne_bind; auto. Qed.
Ltac ne := intros;
  match goal with
  | |- no_err (rbind _ _) => apply ne_bind; [ne|ne]
  | |- no_err (need _ _) => apply ne_need
  | |- no_err (try_usize _) => apply ne_try
  | |- no_err (rfor _ _ _) => apply ne_rfor; ne
  | |- no_err (rloop _ _ _ _) => apply ne_rloop; ne
  | |- no_err (rret _) => apply ne_ret
  | |- no_err (Ok _) => apply ne_ret
  | |- no_err (if ?b then _ else _) => destruct b; ne
  | |- no_err (match ?x with _ => _ end) => destruct x; ne
  | |- _ => auto
  end.
Lemma ne_hash_at ts hs t : no_err (hash_at ts hs t). Proof. unfold hash_at. ne. Qed.
Lemma ne_write_type ts hs t h : no_err (write_type ts hs t h). Proof. unfold write_type. pose proof ne_hash_at. ne. Qed.
Lemma ne_body b rec t : (forall u, no_err (rec u)) -> no_err (hash_body b rec t).
Proof. intros H. unfold hash_body, hash_fields. cbv zeta. ne. Qed.
Lemma ne_vt_hash b t : no_err (vt_hash b t).
Proof. destruct b; cbn [vt_hash]; unfold vt_hash_rec; repeat (apply ne_body; intros); discriminate. Qed.
Lemma ne_hash_type_rec ch i : no_err (hash_type_rec ch i). Proof. unfold hash_type_rec. cbv zeta. pose proof ne_write_type. ne. Qed.
Lemma ne_code_hash_type ch t : no_err (code_hash_type ch t). Proof. unfold code_hash_type. pose proof ne_write_type. ne. Qed.
Lemma ne_alloc c : no_err (alloc c).
Proof.
  pose proof ne_vt_hash. pose proof ne_hash_type_rec. pose proof ne_code_hash_type.
  unfold alloc, alloc_indexes, alloc_types1, alloc_types2, alloc_globals1, alloc_globals2, alloc_constants, hash_constant, alloc_boot, alloc_finish. cbv zeta. ne.
Qed.
Lemma ne_fun_sign ch f : no_err (hash_fun_sign ch f). Proof. unfold hash_fun_sign. cbv zeta. pose proof ne_write_type. ne. Qed.
Lemma ne_native ch f : no_err (hash_native ch f). Proof. unfold hash_native. cbv zeta. pose proof ne_write_type. ne. Qed.
Lemma ne_hash_op ch o h : no_err (hash_op ch o h).
Proof. unfold hash_op, write_extras, write_extra, write_call, write_p, hfun. cbv zeta. pose proof ne_write_type. ne. Qed.
Lemma ne_hash_fun ch f : no_err (hash_fun ch f). Proof. unfold hash_fun. pose proof ne_write_type. pose proof ne_hash_op. ne. Qed.
Lemma ne_finalize ch : no_err (finalize ch).
Proof. unfold finalize. cbv zeta. pose proof ne_fun_sign. pose proof ne_native. pose proof ne_hash_fun. ne. Qed.
