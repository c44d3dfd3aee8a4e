(** String tables and names. *)
From Verif Require Import Prelude StdModel BrassTypes DecoderModel CodeModel FormatSpec CodeGenericProofs
  Utf8Proofs FormatProofs.
From Coq Require Import Lia.

Lemma eats_slice_advance {B} c bs size (k : list Z -> M B) b2 b c2 :
  size = zlen bs -> eats c (k bs) b2 b c2 ->
  eats c (bind (fun s => if zlen (d_buf s) <? size then (Panic PSlice, s)
                         else (Ok (firstn (Z.to_nat size) (d_buf s)), s))
               (fun sl => advance size ;;; k sl)) (bs ++ b2) b c2.
Proof.
  intros -> H p rest. pose proof (zlen_nonneg (b2 ++ rest)).
  unfold bind at 1. cbn [mk d_buf]. rewrite <- app_assoc.
  replace (zlen (bs ++ b2 ++ rest) <? zlen bs) with false by (symmetry; apply Z.ltb_ge; rewrite zlen_app; lia).
  rewrite to_nat_zlen, firstn_app, Nat.sub_diag, firstn_all. cbn [firstn]. rewrite app_nil_r.
  unfold bind, advance. cbn [mk d_buf d_pos d_code errs d_log].
  replace (zlen (bs ++ b2 ++ rest) <? zlen bs) with false by (symmetry; apply Z.ltb_ge; rewrite zlen_app; lia).
  rewrite to_nat_zlen, skipn_app, Nat.sub_diag, skipn_all. cbn [skipn app].
  change {| d_buf := b2 ++ rest; d_pos := p + zlen bs; d_code := c; errs := None; d_log := [] |}
    with (mk (b2 ++ rest) (p + zlen bs) c).
  rewrite H, zlen_app. f_equal. f_equal. lia.
Qed.

Definition text_of (ss : list str) : list Z := flat_map (fun s => s ++ [0]) ss.
Lemma utf8_0 : utf8 [0].
Proof. exists [0]. split; [repeat constructor; unfold scalar; lia|reflexivity]. Qed.
Lemma text_utf8 (ss : list str) : Forall utf8 ss -> utf8 (text_of ss).
Proof.
  induction 1; cbn [text_of flat_map]; [apply utf8_nil|].
  apply utf8_app; [apply utf8_app; [auto|apply utf8_0]|auto].
Qed.

Lemma str_from_at a b : utf8 b -> str_from (a ++ b) (zlen a) = Some b.
Proof.
  intros U. unfold str_from. rewrite boundary_at by auto.
  rewrite to_nat_zlen, skipn_app, Nat.sub_diag, skipn_all. reflexivity.
Qed.
Lemma str_to_at a b : utf8 b -> str_to (a ++ b) (zlen a) = Some a.
Proof.
  intros U. unfold str_to. rewrite boundary_at by auto.
  rewrite to_nat_zlen, firstn_app, Nat.sub_diag, firstn_all. cbn. now rewrite app_nil_r.
Qed.

Lemma eats_strings_loop c : forall (ss : list str) pre acc lens,
  Forall (fun s : str => utf8 s /\ zlen s < 8192) ss ->
  eats c (strings_loop (length ss) (pre ++ text_of ss) (zlen pre) acc lens)
    (flat_map (fun s => enc_index (zlen s)) ss) (acc ++ ss, lens ++ map zlen ss) c.
Proof.
  induction ss as [|s ss IH]; intros pre acc lens F; cbn [length strings_loop flat_map map].
  - rewrite !app_nil_r. apply eats_ret.
  - apply Forall_cons_iff in F. destruct F as [[Us Ls] F].
    assert (Ut : utf8 (text_of ss)) by (apply text_utf8; eapply Forall_impl; [|exact F]; cbn; tauto).
    assert (Ut0 : utf8 ([0] ++ text_of ss)) by (apply utf8_app; [apply utf8_0|auto]).
    eapply eats_bind.
    { apply eats_unwrap, eats_UINDEX. pose proof (zlen_nonneg s). unfold usmall. lia. }
    change (text_of (s :: ss)) with ((s ++ [0]) ++ text_of ss). rewrite <- (app_assoc s).
    eapply eats_bind_nil. { apply eats_expect, str_from_at. now apply utf8_app. }
    eapply eats_bind_nil. { apply eats_expect, str_to_at; auto. }
    cbv zeta.
    replace (zlen (pre ++ s ++ [0] ++ text_of ss) <=? zlen pre + zlen s) with false.
    2: { symmetry. apply Z.leb_gt. rewrite !zlen_app. pose proof (zlen_nonneg (text_of ss)).
         change (zlen [0]) with 1. lia. }
    replace (pre ++ s ++ [0] ++ text_of ss) with ((pre ++ s ++ [0]) ++ text_of ss)
      by now rewrite <- !app_assoc.
    replace (zlen pre + zlen s + 1) with (zlen (pre ++ s ++ [0]))
      by (rewrite !zlen_app; change (zlen [0]) with 1; rewrite ?Z.add_assoc; reflexivity).
    replace (acc ++ s :: ss) with ((acc ++ [s]) ++ ss) by now rewrite <- app_assoc.
    replace (lens ++ zlen s :: map zlen ss) with ((lens ++ [zlen s]) ++ map zlen ss) by now rewrite <- app_assoc.
    apply IH. exact F.
Qed.

Lemma text_size (ss : list str) : Forall (fun s : str => utf8 s /\ zlen s < 8192) ss -> zlen (text_of ss) <= 8192 * zlen ss.
Proof.
  induction 1 as [|s ss [_ H] F IH]; [cbn; lia|]. cbn [text_of flat_map].
  change (flat_map (fun s => s ++ [0]) ss) with (text_of ss).
  rewrite !zlen_app, (zlen_cons s). change (zlen [0]) with 1. lia.
Qed.

Lemma eats_read_strings_gen c ss n lens : n = zlen ss -> Forall (fun s : str => utf8 s /\ zlen s < 8192) ss ->
  zlen (text_of ss) < 2 ^ 31 ->
  eats c (read_strings n lens) (enc_strings ss) (ss, lens ++ map zlen ss) c.
Proof.
  intros -> F Hsz. unfold read_strings, enc_strings. cbv zeta.
  pose proof (zlen_nonneg (text_of ss)). fold (text_of ss) in *.
  assert (Ut : utf8 (text_of ss)) by (apply text_utf8; eapply Forall_impl; [|exact F]; cbn; tauto).
  eapply eats_bind. { apply eats_unwrap, eats_i32. unfold i32_range. lia. }
  assert (E : i32_as_usize (zlen (text_of ss)) = zlen (text_of ss)).
  { unfold i32_as_usize. destruct (Z.ltb_spec (zlen (text_of ss)) 0); lia. }
  eapply (eats_slice_advance c (text_of ss) _ (fun slice => strings_loop _ (from_utf8_lossy slice) 0 [] lens)).
  { exact E. }
  rewrite lossy_id, to_nat_zlen by auto.
  apply (eats_strings_loop c ss [] [] lens F).
Qed.
Lemma eats_read_strings c ss n lens : n = zlen ss -> wf_strings ss ->
  eats c (read_strings n lens) (enc_strings ss) (ss, lens ++ map zlen ss) c.
Proof.
  intros E [N F]. apply eats_read_strings_gen; auto. pose proof (text_size ss F). unfold usmall in N. lia.
Qed.

(** * Names: the lookup cache *)
(** One lookup of string [n] in cache [u]. *)
Definition cache1 (ss : list str) (u : list (option str)) (n : Z) : list (option str) :=
  match znth u n with
  | Some (Some _) => u
  | _ => match zinsert u n (Some (nm ss n)) with Some u' => u' | None => u end
  end.
Definition cache (ss : list str) := fold_left (cache1 ss).
(** Looking up the names [ns] in order finds for each the right string. *)
Fixpoint cache_ok (ss : list str) (u : list (option str)) (ns : list Z) : Prop :=
  match ns with
  | [] => True
  | n :: r => (znth u n = Some None \/ znth u n = Some (Some (nm ss n))) /\
              0 <= n < zlen ss /\ cache_ok ss (cache1 ss u n) r
  end.
Lemma cache_ok_app ss a : forall u b, cache_ok ss u (a ++ b) <-> cache_ok ss u a /\ cache_ok ss (cache ss a u) b.
Proof.
  induction a as [|n a IH]; intros u b; cbn [app cache_ok cache fold_left]; [tauto|].
  rewrite IH. unfold cache. tauto.
Qed.
Lemma cache_app ss a b u : cache ss (a ++ b) u = cache ss b (cache ss a u).
Proof. apply fold_left_app. Qed.

Lemma set_ustrings_id c : set_ustrings (c_ustrings c) c = c.
Proof. destruct c; reflexivity. Qed.
Lemma set_ustrings_twice u v c : set_ustrings u (set_ustrings v c) = set_ustrings u c.
Proof. reflexivity. Qed.

Lemma zinsert_some {A} (l : list A) i x : 0 <= i <= zlen l -> exists l', zinsert l i x = Some l'.
Proof.
  intros H. rewrite <- (firstn_skipn (Z.to_nat i) l).
  eexists. apply zinsert_mid. unfold zlen in *. rewrite firstn_length_le by lia. lia.
Qed.
Lemma znth_some_range {A} (l : list A) i x : znth l i = Some x -> 0 <= i < zlen l.
Proof.
  revert i; induction l as [|y l IH]; intros i H; cbn [znth] in H; [discriminate|].
  rewrite zlen_cons. pose proof (zlen_nonneg l). destruct (Z.eqb_spec i 0); [lia|]. apply IH in H. lia.
Qed.

Lemma get_ustring_ok c n :
  (znth (c_ustrings c) n = Some None \/ znth (c_ustrings c) n = Some (Some (nm (c_strings c) n))) ->
  0 <= n < zlen (c_strings c) ->
  get_ustring c n = Ok (nm (c_strings c) n, set_ustrings (cache1 (c_strings c) (c_ustrings c) n) c).
Proof.
  intros H Hn. unfold get_ustring, cache1. destruct H as [H|H]; rewrite H.
  - rewrite (znth_nth (A := str) _ _ [] Hn). fold (nm (c_strings c) n).
    destruct (zinsert_some (c_ustrings c) n (Some (nm (c_strings c) n))) as [u' ->].
    { apply znth_some_range in H. lia. }
    reflexivity.
  - now rewrite set_ustrings_id.
Qed.

Lemma eats_to_i32 c x : x <= I32_MAX -> eats c (to_i32 x) [] x c.
Proof. intros H. unfold to_i32. destruct (Z.ltb_spec I32_MAX x); [lia|]. apply eats_ret. Qed.

Lemma eats_read_ustring c n :
  c_nstrings c = zlen (c_strings c) -> usmall (c_nstrings c) ->
  cache_ok (c_strings c) (c_ustrings c) [n] ->
  eats c read_ustring (enc_index n) (nm (c_strings c) n)
    (set_ustrings (cache1 (c_strings c) (c_ustrings c) n) c).
Proof.
  intros Hn Hs (H & Hr & _). unfold read_ustring, usmall in *.
  eapply eats_bind_last. { apply eats_unwrap, eats_INDEX. unfold small. lia. }
  eapply eats_bind_nil; [apply eats_get_code|].
  eapply eats_bind_nil. { apply eats_to_i32. unfold I32_MAX. lia. }
  destruct (Z.ltb_spec n 0), (Z.leb_spec (c_nstrings c) n); try lia. cbn [orb].
  eapply eats_bind_nil. { rewrite get_ustring_ok by auto. apply eats_lift. }
  eapply eats_bind_nil; [apply eats_put_code|]. apply eats_ret.
Qed.

(** The first-use condition of the specification makes every lookup right. *)
Lemma zinsert_len {A} (l : list A) : forall n x l', zinsert l n x = Some l' -> zlen l' = zlen l + 1.
Proof.
  induction l as [|y l IH]; intros n x l' E; cbn [zinsert] in E; destruct (n =? 0); inversion E; subst;
    try (rewrite !zlen_cons; lia).
  destruct (zinsert l (n - 1) x) as [l1|] eqn:E1; inversion E; subst.
  apply IH in E1. rewrite !zlen_cons. lia.
Qed.
Lemma cache1_len ss u n : zlen u <= zlen (cache1 ss u n).
Proof.
  unfold cache1. destruct (znth u n) as [[|]|]; [lia| |];
    (destruct (zinsert u n (Some (nm ss n))) as [u'|] eqn:E; [apply zinsert_len in E|]; lia).
Qed.

Lemma znth_insert {A} (l : list A) : forall i x l' j, zinsert l i x = Some l' -> 0 <= i -> 0 <= j ->
  znth l' j = if j <? i then znth l j else if j =? i then Some x else znth l (j - 1).
Proof.
  induction l as [|y l IH]; intros i x l' j H Hi Hj; cbn [zinsert] in H.
  - destruct (Z.eqb_spec i 0); [|discriminate]. inversion H; subst. cbn [znth].
    destruct (Z.ltb_spec j 0); [lia|]. destruct (j =? 0); reflexivity.
  - destruct (Z.eqb_spec i 0) as [->|N].
    + inversion H; subst. cbn [znth]. destruct (Z.ltb_spec j 0); [lia|]. destruct (j =? 0); reflexivity.
    + destruct (zinsert l (i - 1) x) as [l1|] eqn:E; inversion H; subst. cbn [znth].
      destruct (Z.eqb_spec j 0) as [->|Nj].
      * destruct (Z.ltb_spec 0 i); [reflexivity|lia].
      * rewrite (IH _ _ _ (j - 1) E) by lia.
        destruct (Z.ltb_spec (j - 1) (i - 1)), (Z.ltb_spec j i); try lia; [reflexivity|].
        destruct (Z.eqb_spec (j - 1) (i - 1)), (Z.eqb_spec j i); try lia; [reflexivity|].
        destruct (Z.eqb_spec (j - 1) 0); [lia|reflexivity].
Qed.

(** [u] holds exactly the names in [seen], each at its index. *)
Definition cache_inv (ss : list str) (seen : list Z) (u : list (option str)) : Prop :=
  zlen ss <= zlen u /\
  (forall n, In n seen -> znth u n = Some (Some (nm ss n))) /\
  (forall j, 0 <= j < zlen u -> ~ In j seen -> znth u j = Some None).

Lemma cache_inv_step ss seen u n :
  cache_inv ss seen u -> 0 <= n < zlen ss -> Forall (fun m => 0 <= m) seen ->
  In n seen \/ Forall (fun m => m < n) seen ->
  (znth u n = Some None \/ znth u n = Some (Some (nm ss n))) /\ cache_inv ss (n :: seen) (cache1 ss u n).
Proof.
  intros (L & S & N) Hn Pos H.
  destruct (in_dec Z.eq_dec n seen) as [I|I].
  - pose proof (S n I) as E. split; [now right|]. unfold cache1. rewrite E. split; [auto|]. split.
    + intros m [<-|Hm]; auto.
    + intros j Hj Nj. apply N; [auto|]. intro; apply Nj; now right.
  - destruct H as [H|H]; [contradiction|].
    assert (E : znth u n = Some None) by (apply N; [lia|auto]).
    split; [now left|]. split; [pose proof (cache1_len ss u n); lia|].
    unfold cache1. rewrite E.
    destruct (zinsert_some u n (Some (nm ss n))) as [u' Eu]; [lia|]. rewrite Eu.
    rewrite Forall_forall in H, Pos. split.
    + intros m [<-|Hm].
      * rewrite (znth_insert _ _ _ _ _ Eu) by lia. rewrite Z.ltb_irrefl, Z.eqb_refl. reflexivity.
      * pose proof (H m Hm). pose proof (Pos m Hm). rewrite (znth_insert _ _ _ _ _ Eu) by lia.
        destruct (Z.ltb_spec m n); [auto|lia].
    + intros j Hj Nj. rewrite (znth_insert _ _ _ _ _ Eu) by lia.
      apply zinsert_len in Eu.
      destruct (Z.ltb_spec j n).
      * apply N; [lia|]. intro; apply Nj; now right.
      * destruct (Z.eqb_spec j n); [subst; exfalso; apply Nj; now left|].
        apply N; [lia|]. intros Hin. specialize (H _ Hin). lia.
Qed.

Lemma increasing_cache_ok ss : forall ns seen u,
  Forall (fun n => 0 <= n < zlen ss) ns -> Forall (fun m => 0 <= m) seen ->
  increasing_first_use seen ns -> cache_inv ss seen u -> cache_ok ss u ns.
Proof.
  induction ns as [|n ns IH]; intros seen u F P I V; [exact Logic.I|].
  apply Forall_cons_iff in F. destruct F as [Hn F]. destruct I as [I1 I2].
  destruct (cache_inv_step ss seen u n V Hn P I1) as [A B].
  cbn [cache_ok]. split; [auto|]. split; [auto|]. apply (IH (n :: seen)); auto. constructor; [lia|auto].
Qed.
Lemma znth_repeat {A} (x : A) n j : 0 <= j < n -> znth (zrepeat x n) j = Some x.
Proof.
  intros H. rewrite znth_nth_error by lia. unfold zrepeat.
  rewrite nth_error_repeat by lia. reflexivity.
Qed.
Lemma cache_inv_init ss : cache_inv ss [] (zrepeat None (zlen ss)).
Proof.
  pose proof (zlen_nonneg ss). unfold cache_inv. rewrite zlen_repeat by lia. split; [lia|].
  split; [intros n []|]. intros j Hj _. now apply znth_repeat.
Qed.
Lemma cache_ok_init ss ns : Forall (fun n => 0 <= n < zlen ss) ns -> increasing_first_use [] ns ->
  cache_ok ss (zrepeat None (zlen ss)) ns.
Proof. intros. eapply increasing_cache_ok; eauto. apply cache_inv_init. Qed.
