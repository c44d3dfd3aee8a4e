(** The denotations of string tables and functions. *)
From Verif Require Import Prelude StdModel BrassTypes DecoderModel CodeModel FormatSpec ReaderSpec ErrSpec GrammarSpec.
From Verif Require Import CodeGenericProofs FormatProofs Utf8Proofs StringsProofs ReaderPost ReaderTables ErrProofs GrammarDen GrammarTypes GrammarFuns.
From Coq Require Import Lia ZifyBool.
Ltac Zify.zify_post_hook ::= Z.div_mod_to_equations.

(** * Pieces of a text *)
Definition sliced (text : str) (cur k : Z) (s : str) : Prop := exists tail, str_from text cur = Some tail /\ str_to tail k = Some s.
Lemma split_at (text : str) (cur : Z) : utf8 text -> 0 <= cur -> is_char_boundary text cur = true ->
  exists pre post, text = pre ++ post /\ zlen pre = cur /\ utf8 pre /\ utf8 post /\ firstn (Z.to_nat cur) text = pre /\ skipn (Z.to_nat cur) text = post.
Proof.
  intros (cs & F & ->) H B. rewrite <- (Z2Nat.id cur) in B by lia. destruct (boundary_split cs _ F B) as (a & b & -> & E1 & E2 & E3). apply Forall_app in F as (Fa & Fb).
  exists (flat_map utf8_char a), (flat_map utf8_char b). split; [apply flat_map_app|]. split; [unfold zlen; lia|]. split; [exists a; auto|]. split; [exists b; auto|]. auto.
Qed.
Lemma sliced_piece text cur k s : utf8 text -> 0 <= cur -> 0 <= k -> (sliced text cur k s <-> piece_at text cur k s).
Proof.
  intros U Hc Hk. split.
  - intros (tail & H1 & H2). unfold str_from in H1. destruct (is_char_boundary text cur) eqn:B1; [|discriminate]. injection H1 as <-.
    destruct (split_at _ _ U Hc B1) as (pre & post & -> & L & Up & Uq & _ & E). rewrite E in H2. unfold str_to in H2. destruct (is_char_boundary post k) eqn:B2; [|discriminate]. injection H2 as <-.
    destruct (split_at _ _ Uq Hk B2) as (p2 & q2 & -> & L2 & Up2 & Uq2 & E2 & _). rewrite E2. exists pre, q2. auto 10.
  - intros (pre & post & -> & <- & <- & U1 & U2 & U3). exists (s ++ post). split; [apply str_from_at, utf8_app; auto|now apply str_to_at].
Qed.
Fixpoint slices (text : str) (n : nat) (cur : Z) (sizes : list Z) (ss : list str) : Prop :=
  match n, sizes, ss with
  | O, [], [] => True
  | S n', k :: sizes', s :: ss' => sliced text cur k s /\ (if zlen text <=? cur + k then sizes' = [] /\ ss' = [] else slices text n' (cur + k + 1) sizes' ss')
  | _, _, _ => False
  end.
Lemma slices_cuts text n : utf8 text -> forall cur sizes ss, 0 <= cur -> Forall (fun k => 0 <= k) sizes -> (slices text n cur sizes ss <-> cuts text n cur sizes ss).
Proof.
  intros U. induction n as [|n IH]; intros cur sizes ss Hc F; destruct sizes as [|k sizes], ss as [|s ss]; cbn [slices cuts]; try reflexivity.
  inversion F; subst. rewrite sliced_piece by auto. destruct (zlen text <=? cur + k); [reflexivity|]. rewrite IH by (auto; lia). reflexivity.
Qed.
Lemma many_uix_nonneg bs l : many uix bs l -> Forall (fun k => 0 <= k) l.
Proof. induction 1 as [|b bs x xs (_ & H) _ IH]; constructor; auto. Qed.
Lemma many_one A (P : list Z -> A -> Prop) b x : P b x -> many P b [x].
Proof. intros H. rewrite <- (app_nil_r b). constructor; [auto|constructor]. Qed.
Lemma den_strings_loop I text n : forall cur acc lens,
  den I (strings_loop n text cur acc lens) (gread (fun bs p => exists sizes ss, many uix bs sizes /\ slices text n cur sizes ss /\ p = (acc ++ ss, lens ++ map zlen ss))).
Proof.
  induction n as [|n IH]; intros cur acc lens; cbn [strings_loop].
  - eapply den_iff; [apply den_ret|]. intros c bs p c' _. unfold gret, gread. split.
    + intros (-> & -> & ->). split; [|auto]. exists [], []. cbn. rewrite !app_nil_r. split; [constructor|auto].
    + intros ((sizes & ss & M & Sl & ->) & ->). destruct sizes, ss; try contradiction. inversion M; subst. cbn. now rewrite !app_nil_r.
  - eapply den_iff.
    { eapply den_seq; [dens2|apply still_gread|]. intros sz. eapply den_seq; [apply den_expect|intros c bs a c' (_ & _ & ->); reflexivity|]. intros tail.
      apply den_seq with (K := fun s => if zlen text <=? cur + sz then gret (acc ++ [s], lens ++ [zlen s]) else
          gread (fun bs p => exists sizes ss, many uix bs sizes /\ slices text n (cur + sz + 1) sizes ss /\ p = ((acc ++ [s]) ++ ss, (lens ++ [zlen s]) ++ map zlen ss)));
        [apply den_expect|intros c bs a c' (_ & _ & ->); reflexivity|]. intros s. cbv zeta. destruct (zlen text <=? cur + sz); [apply den_ret|apply IH]. }
    intros c bs p c' _. split.
    + intros (b1 & b2 & sz & c1 & -> & (V & ->) & (b3 & b4 & tail & c2 & -> & (-> & H1 & ->) & (b5 & b6 & s & c3 & -> & (-> & H2 & ->) & H))). cbn [app].
      destruct (zlen text <=? cur + sz) eqn:E.
      * destruct H as (-> & -> & ->). split; [|reflexivity]. exists [sz], [s]. split; [rewrite app_nil_r; now apply many_one|]. cbn [slices]. rewrite E. split; [|reflexivity]. split; [exists tail; auto|auto].
      * destruct H as ((sizes & ss & M & Sl & ->) & ->). split; [|reflexivity]. exists (sz :: sizes), (s :: ss). split; [now constructor|]. cbn [slices]. rewrite E. split; [split; [exists tail; auto|auto]|]. cbn. rewrite <- !app_assoc. reflexivity.
    + intros ((sizes & ss & M & Sl & ->) & ->). destruct sizes as [|k sizes], ss as [|s ss]; cbn [slices] in Sl; try contradiction. destruct Sl as ((tail & H1 & H2) & R).
      apply many_cons_inv in M as (b1 & b2 & -> & V & M). eapply gb_cons; [split; [exact V|reflexivity]|]. eapply gb_nil; [split; [reflexivity|split; [exact H1|reflexivity]]|]. eapply gb_nil; [split; [reflexivity|split; [exact H2|reflexivity]]|].
      destruct (zlen text <=? cur + k).
      * destruct R as (-> & ->). inversion M; subst. apply gret_i.
      * split; [|reflexivity]. exists sizes, ss. split; [auto|]. split; [auto|]. cbn. rewrite <- !app_assoc. reflexivity.
Qed.

(** * String tables *)
Lemma den_slice I B size (k : list Z -> M B) K : 0 <= size -> (forall v, den I (k v) (K v)) ->
  den I (bind (fun s => if zlen (d_buf s) <? size then (Panic PSlice, s) else (Ok (firstn (Z.to_nat size) (d_buf s)), s)) (fun sl => advance size ;;; k sl))
    (gbind (gread (fun bs v => bs = v /\ zlen v = size)) K).
Proof.
  intros Hs D.
  pose proof (den_seq I _ _ _ _ k K (den_unwrap I _ _ _ (den_read_bytes I size Hs)) (still_gread _ _) D) as DD.
  set (m := bind (unwrap (read_bytes size)) k) in DD.
  set (m' := bind (fun s => if zlen (d_buf s) <? size then (Panic PSlice, s) else (Ok (firstn (Z.to_nat size) (d_buf s)), s)) (fun sl => advance size ;;; k sl)).
  assert (Q : forall s, zlen (d_buf s) <? size = false -> m' s = m s). { intros s H. unfold m, m', bind, unwrap, advance, read_bytes. rewrite !H, ?H. reflexivity. }
  assert (Q2 : forall s, zlen (d_buf s) <? size = true -> m' s = (Panic PSlice, s)). { intros s H. unfold m', bind. now rewrite H. }
  split.
  - intros s r s' R E. destruct (zlen (d_buf s) <? size) eqn:L; [rewrite Q2 in R by auto; inversion R; subst; auto|]. rewrite Q in R by auto. exact (den_keep DD _ _ _ R E).
  - intros s a s' C Ic R N. destruct (zlen (d_buf s) <? size) eqn:L; [rewrite Q2 in R by auto; discriminate|]. rewrite Q in R by auto. exact (den_to DD _ _ _ C Ic R N).
  - intros s bs rest a c' C Ic Bf H. pose proof (den_from DD s bs rest a c' C Ic Bf H) as R. rewrite Q; [exact R|].
    destruct H as (b1 & b2 & v & c1 & -> & ((-> & Lv) & _) & _). rewrite Bf, !zlen_app. pose proof (zlen_nonneg b2). pose proof (zlen_nonneg rest). lia.
Qed.
Definition tableP (n : Z) (lens : list Z) (bs : list Z) (p : list str * list Z) : Prop :=
  exists t ss, rs_count t = n /\ spell_strings bs t /\ cuts (from_utf8_lossy (rs_text t)) (Z.to_nat n) 0 (rs_sizes t) ss /\ p = (ss, lens ++ map zlen ss).
Lemma keep_slice B size (k : list Z -> M B) : (forall v, keep (k v)) ->
  keep (bind (fun s => if zlen (d_buf s) <? size then (Panic PSlice, s) else (Ok (firstn (Z.to_nat size) (d_buf s)), s)) (fun sl => advance size ;;; k sl)).
Proof.
  intros K. apply keep_bind; [|intros v; apply keep_bind; [|intros u; apply K]].
  - intros s r s' R E. destruct (zlen (d_buf s) <? size); inversion R; subst; auto.
  - intros s r s' R E. unfold advance in R. destruct (zlen (d_buf s) <? size); inversion R; subst; auto.
Qed.
Lemma den_read_strings I n lens : den I (read_strings n lens) (gread (tableP n lens)).
Proof.
  unfold read_strings. eapply den_small.
  { apply den_bind with (J := fun size0 c => I c /\ i32_range size0)
     (K := fun size0 => gbind (gread (fun bs v => bs = v /\ zlen v = i32_as_usize size0)) (fun v => gread (fun bs p => exists sizes ss, many uix bs sizes /\ slices (from_utf8_lossy v) (Z.to_nat n) 0 sizes ss /\ p = ([] ++ ss, lens ++ map zlen ss))));
      [apply den_unwrap, den_i32|intros c bs a c' Ic ((_ & R) & ->); auto|]. intros size0. apply den_pure.
    - apply (keep_slice _ (i32_as_usize size0) (fun slice => strings_loop (Z.to_nat n) (from_utf8_lossy slice) 0 [] lens)). intros v. exact (den_keep (den_strings_loop (fun _ => True) _ _ _ _ _)).
    - intros R. apply (den_slice I _ (i32_as_usize size0) (fun slice => strings_loop (Z.to_nat n) (from_utf8_lossy slice) 0 [] lens)); [|intros v; apply den_strings_loop].
      unfold i32_as_usize, i32_range in *. change (2 ^ 31) with 2147483648 in *. destruct (Z.ltb_spec size0 0); lia. }
  intros c bs p c' Hb Hl. unfold tableP, spell_strings. split.
  - intros (b1 & b2 & sz & c1 & -> & ((-> & R) & ->) & (b3 & b4 & v & c2 & -> & ((-> & L) & ->) & ((sizes & ss & M & Sl & ->) & ->))). split; [|reflexivity].
    apply Forall_app in Hb as (_ & Hb). apply Forall_app in Hb as (Hb & _). rewrite !zlen_app in Hl. pose proof (zlen_nonneg (enc_le 4 sz)). pose proof (zlen_nonneg b4).
    assert (E : sz = zlen v). { unfold i32_as_usize, i32_range in *. destruct (Z.ltb_spec sz 0); [|lia]. change (2 ^ 64) with (2 * 2 ^ 63) in L. change (2 ^ 31) with 2147483648 in R. change (2 ^ 63) with 9223372036854775808 in *. lia. }
    exists {| rs_count := n; rs_text := v; rs_sizes := sizes |}, ss. cbn [rs_count rs_text rs_sizes]. split; [auto|]. split; [exists b4; rewrite E; split; [auto|]; split; [|auto]; unfold i32_range in R; rewrite <- E; lia|].
    split; [|reflexivity]. apply slices_cuts; auto; [now apply lossy_utf8|lia|now apply many_uix_nonneg in M].
  - intros ((t & ss & <- & (b & -> & Lt & M) & Cu & ->) & ->). pose proof (zlen_nonneg (rs_text t)). apply Forall_app in Hb as (_ & Hb). apply Forall_app in Hb as (Hb & _).
    eapply gb_cons; [split; [split; [reflexivity|unfold i32_range; lia]|reflexivity]|]. eapply gb_cons; [split; [split; [reflexivity|unfold i32_as_usize; destruct (Z.ltb_spec (zlen (rs_text t)) 0); lia]|reflexivity]|].
    split; [|reflexivity]. exists (rs_sizes t), ss. split; [auto|]. split; [|reflexivity]. apply slices_cuts; auto; [now apply lossy_utf8|lia|now apply many_uix_nonneg in M].
Qed.
