(** The denotations of the primitive readers, of names and of type entries. *)
From Verif Require Import Prelude StdModel BrassTypes DecoderModel CodeModel FormatSpec ReaderSpec ErrSpec GrammarSpec.
From Verif Require Import CodeGenericProofs FormatProofs Utf8Proofs StringsProofs ReaderPost ReaderTables ErrProofs GrammarDen.
From Coq Require Import Lia ZifyBool.
Ltac Zify.zify_post_hook ::= Z.div_mod_to_equations.

(** * Primitive readers *)
Lemma after_fin s bs rest : errs s = None -> d_buf s = bs ++ rest -> after s (zlen bs) = fin s rest (zlen bs) (d_code s).
Proof.
  intros E B. unfold after, fin. rewrite B, E. unfold zlen at 1. rewrite Nat2Z.id, skipn_app, skipn_all, Nat.sub_diag. reflexivity.
Qed.
Lemma still_gread A (P : list Z -> A -> Prop) : still (gread P). Proof. intros c bs a c' [_ H]. exact H. Qed.
Lemma keep_read_bytes n : keep (read_bytes n).
Proof. intros s r s' R E. unfold read_bytes in R. destruct (zlen (d_buf s) <? n); inversion R; subst; auto. Qed.
Lemma den_read_bytes I n : 0 <= n -> den I (read_bytes n) (gread (fun bs v => bs = v /\ zlen v = n)).
Proof.
  intros Hn. split; [apply keep_read_bytes| |].
  - intros s a s' C _ R _. unfold read_bytes in R. destruct (Z.ltb_spec (zlen (d_buf s)) n); inversion R; subst. cbn [d_buf d_code].
    eexists. split; [symmetry; apply firstn_skipn|]. split; [|reflexivity]. split; [reflexivity|]. unfold zlen in *. rewrite firstn_length_le; lia.
  - intros s bs rest a c' (_ & _ & E) _ B ((-> & L) & ->). unfold read_bytes. rewrite B, zlen_app. pose proof (zlen_nonneg rest).
    destruct (Z.ltb_spec (zlen a + zlen rest) n); [lia|]. rewrite <- L. unfold fin. rewrite E. unfold zlen at 1 2. rewrite Nat2Z.id, firstn_app, firstn_all, Nat.sub_diag, skipn_app, skipn_all, Nat.sub_diag.
    cbn. rewrite app_nil_r. reflexivity.
Qed.
Lemma le_bytes_from bs : bytes bs -> le_bytes (length bs) (from_le bs) = bs.
Proof.
  induction 1 as [|b r Hb _ IH]; [reflexivity|]. cbn [length le_bytes from_le]. unfold is_byte in Hb.
  replace ((b + 256 * from_le r) mod 256) with b by lia. replace ((b + 256 * from_le r) / 256) with (from_le r) by lia. now rewrite IH.
Qed.
(** the bytes read are bytes *)
Lemma den_bytes I A (m : M A) (G G' : rel A) : den I m G -> (forall c bs a c', bytes bs -> (G c bs a c' <-> G' c bs a c')) -> den I m G'.
Proof.
  intros [K T F] E. split; auto.
  - intros s a s' C Ic R N. destruct (T s a s' C Ic R N) as (bs & B & H). exists bs. split; [auto|]. apply E; [|auto]. apply (clean_app _ _ _ C B).
  - intros s bs rest a c' C Ic B H. apply F; auto. apply E; [|auto]. apply (clean_app _ _ _ C B).
Qed.
Lemma zlen_length {A} (l : list A) n : zlen l = Z.of_nat n -> length l = n. Proof. unfold zlen. lia. Qed.
Lemma den_u8 I : den I decode_u8 (gread byte).
Proof.
  unfold decode_u8, decode_unsigned. eapply den_bytes; [apply den_seq; [apply den_read_bytes; lia|apply still_gread|intros a; apply den_ret]|].
  intros c bs a c' Hb. rewrite gbind_ret_r. unfold gread, byte. split.
  - intros (x & ((-> & L) & ->) & ->). apply (zlen_length _ 1) in L. destruct x as [|b [|]]; try discriminate. cbn [from_le].
    inversion Hb; subst. unfold is_byte in *. split; [|reflexivity]. split; [f_equal; lia|lia].
  - intros ((-> & H) & ->). exists [a]. split; [auto|]. cbn. lia.
Qed.
Lemma den_i32 I : den I decode_i32 (gread (fun bs v => bs = enc_le 4 v /\ i32_range v)).
Proof.
  unfold decode_i32, decode_signed. eapply den_bytes; [apply den_seq; [apply den_read_bytes; lia|apply still_gread|intros a; apply den_ret]|].
  intros c bs a c' Hb. rewrite gbind_ret_r. unfold gread, enc_le, i32_range, to_signed. change (8 * 4 - 1) with 31. change (8 * 4) with 32. change (256 ^ Z.of_nat 4) with 4294967296.
  change (2 ^ 31) with 2147483648. change (2 ^ 32) with 4294967296. split.
  - intros (x & ((-> & L) & ->) & ->). apply (zlen_length _ 4) in L. pose proof (from_le_bound _ Hb) as R. rewrite L in R. change (256 ^ Z.of_nat 4) with 4294967296 in R.
    split; [|reflexivity]. split; [|destruct (Z.ltb_spec (from_le x) 2147483648); lia].
    replace ((if from_le x <? 2147483648 then from_le x else from_le x - 4294967296) mod 4294967296) with (from_le x) by (destruct (Z.ltb_spec (from_le x) 2147483648); lia). rewrite <- L. now rewrite le_bytes_from.
  - intros ((-> & H) & ->). eexists. split; [split; [split; [reflexivity|unfold zlen; rewrite le_bytes_length; reflexivity]|reflexivity]|].
    rewrite from_le_bytes; [destruct (Z.ltb_spec (a mod 4294967296) 2147483648); lia|]. change (256 ^ Z.of_nat 4) with 4294967296. lia.
Qed.
Lemma den_f64 I : den I decode_f64 (gread (fun bs v => bs = enc_le 8 v /\ 0 <= v < 2 ^ 64)).
Proof.
  unfold decode_f64, decode_u64, decode_unsigned. eapply den_bytes; [apply den_seq; [apply den_read_bytes; lia|apply still_gread|intros a; apply den_ret]|].
  intros c bs a c' Hb. rewrite gbind_ret_r. unfold gread, enc_le. change (256 ^ Z.of_nat 8) with (2 ^ 64). split.
  - intros (x & ((-> & L) & ->) & ->). apply (zlen_length _ 8) in L. pose proof (from_le_bound _ Hb) as R. rewrite L in R. change (256 ^ Z.of_nat 8) with (2 ^ 64) in R.
    split; [|reflexivity]. split; [|lia]. rewrite Z.mod_small by lia. rewrite <- L. now rewrite le_bytes_from.
  - intros ((-> & H) & ->). eexists. split; [split; [split; [reflexivity|unfold zlen; rewrite le_bytes_length; reflexivity]|reflexivity]|].
    rewrite Z.mod_small by lia. now rewrite from_le_bytes.
Qed.
Lemma index_prefix e1 e2 r1 r2 v1 v2 : e1 ++ r1 = e2 ++ r2 -> index_value e1 = Some v1 -> index_value e2 = Some v2 -> e1 = e2.
Proof.
  intros E H1 H2. assert (L : length e1 = length e2).
  { destruct e1 as [|a1 [|a2 [|a3 [|a4 [|]]]]]; try discriminate; destruct e2 as [|b1 [|b2 [|b3 [|b4 [|]]]]]; try discriminate; try reflexivity;
      cbn in E; injection E; intros; subst; cbn in H1, H2; repeat match goal with H : context [if ?b then _ else _] |- _ => destruct b eqn:?; try discriminate end; lia. }
  clear - E L. revert e2 E L. induction e1 as [|a e1 IH]; intros [|b e2] E L; try discriminate; [reflexivity|].
  injection E as -> E. f_equal. apply IH; auto.
Qed.
Lemma keep_unwrap A (m : M A) : keep m -> keep (unwrap m).
Proof. intros K s r s' R E. unfold unwrap in R. destruct (m s) as [[a|e|p] s1] eqn:M1; inversion R; subst; exact (K _ _ _ M1 E). Qed.
Lemma keep_ret A (a : A) : keep (ret a). Proof. intros s r s' R. now inversion R. Qed.
Lemma keep_u8 : keep decode_u8. Proof. apply keep_bind; [apply keep_read_bytes|intros; apply keep_ret]. Qed.
Lemma keep_read_index : keep read_index.
Proof.
  unfold read_index. apply keep_bind; [apply keep_u8|intros b].
  destruct (Z.land b 128 =? 0); [apply keep_ret|]. destruct (Z.land b 64 =? 0).
  - apply keep_bind; [apply keep_unwrap, keep_u8|intros; apply keep_ret].
  - repeat (apply keep_bind; [apply keep_u8|intros]). apply keep_ret.
Qed.
Lemma den_INDEX I : den I INDEX (gread ix).
Proof.
  unfold INDEX. apply den_unwrap. split; [apply keep_read_index| |].
  - intros s a s' C _ R N. destruct (read_index_exact s (proj1 C)) as [(enc & v & rest & B & V & E & Br)|(_ & _ & n & _ & [(e & E)|E])]; rewrite E in R; inversion R; subst.
    exists enc. split; [exact B|]. split; [exact V|]. reflexivity.
  - intros s bs rest a c' C _ B (V & ->). destruct (read_index_exact s (proj1 C)) as [(enc & v & rest' & B' & V' & E & Br)|(_ & X & _)].
    + assert (bs = enc) as <- by (apply (index_prefix bs enc rest rest' a v); [congruence|exact V|exact V']). unfold ix in V. rewrite E.
      assert (v = a) as -> by congruence. f_equal. apply after_fin; [apply C|exact B].
    + destruct (X _ _ _ B V).
Qed.
Lemma den_UINDEX I : den I UINDEX (gread uix).
Proof.
  unfold UINDEX. eapply den_iff; [apply den_seq; [apply den_unwrap_mapped, den_INDEX|apply still_gread|]|].
  - intros i. instantiate (1 := fun i => if i <? 0 then gnone else gret i). cbv beta. destruct (i <? 0); [|apply den_ret].
    apply den_get_pos. intros p. apply den_bind_none; [apply den_record|intros; apply keep_ret|]. intros s a s' R. inversion R; subst. discriminate.
  - intros c bs a c' _. unfold gread, uix, ix. split.
    + intros (b1 & b2 & x & c1 & -> & (V & ->) & H). destruct (Z.ltb_spec x 0); [destruct H|]. destruct H as (-> & -> & ->). rewrite app_nil_r. auto.
    + intros ((V & P) & ->). exists bs, [], a, c. rewrite app_nil_r. unfold gret. destruct (Z.ltb_spec a 0); [lia|]. unfold ix. auto 10.
Qed.

(** * Tools for sequences *)
Definition pres (I : code -> Prop) {A} (G : rel A) : Prop := forall c bs a c', I c -> G c bs a c' -> I c'.
Lemma pres_gread (I : code -> Prop) A (P : list Z -> A -> Prop) : pres I (gread P). Proof. intros c bs a c' H [_ ->]. exact H. Qed.
Lemma den_b (I : code -> Prop) A B (m : M A) G (k : A -> M B) K : den I m G -> pres I G -> (forall a, den I (k a) (K a)) -> den I (bind m k) (gbind G K).
Proof. intros. eapply (den_bind I _ _ (fun _ => I)); eauto. Qed.
Lemma gb_cons A B (G : rel A) (K : A -> rel B) c b1 b2 a c1 b c' : G c b1 a c1 -> K a c1 b2 b c' -> gbind G K c (b1 ++ b2) b c'.
Proof. intros. exists b1, b2, a, c1. auto. Qed.
Lemma gb_last A B (G : rel A) (K : A -> rel B) c bs a c1 b c' : G c bs a c1 -> K a c1 [] b c' -> gbind G K c bs b c'.
Proof. intros. exists bs, [], a, c1. rewrite app_nil_r. auto. Qed.
Lemma gb_nil A B (G : rel A) (K : A -> rel B) c bs a c1 b c' : G c [] a c1 -> K a c1 bs b c' -> gbind G K c bs b c'.
Proof. intros. exists [], bs, a, c1. auto. Qed.
Lemma gret_i A (a : A) c : gret a c [] a c. Proof. repeat split. Qed.
Lemma for_loop_ext A (body body' : Z -> A -> M A) : (forall i a s, body i a s = body' i a s) -> forall n i a s, for_loop n i body a s = for_loop n i body' a s.
Proof. intros E. induction n as [|n IH]; intros i a s; cbn [for_loop]; [reflexivity|]. unfold bind. rewrite E. destruct (body' i a s) as [[x|e|p] s1]; auto. Qed.
Lemma many_map A B (P : list Z -> A -> Prop) (R : A -> Prop) (f : A -> B) bs ys :
  many (fun b y => exists x, P b x /\ R x /\ y = f x) bs ys <-> exists xs, many P bs xs /\ Forall R xs /\ ys = map f xs.
Proof.
  split.
  - induction 1 as [|b bs y ys (x & Px & Rx & ->) _ (xs & M & F & ->)]; [exists []; repeat constructor|]. exists (x :: xs). repeat constructor; auto.
  - intros (xs & M & F & ->). revert F. induction M as [|b bs x xs Px M IH]; intros F; [constructor|]. inversion F; subst. cbn. constructor; [eauto|auto].
Qed.
Lemma many_iff A (P Q : list Z -> A -> Prop) bs xs : (forall b x, P b x <-> Q b x) -> (many P bs xs <-> many Q bs xs).
Proof. intros E. split; induction 1; constructor; auto; now apply E. Qed.

(** * Names and type references *)
Section Types.
Context (ts : list vtype) (nt ns : Z) (Hts : nt <= zlen ts) (Hnt : nt <= I32_MAX) (Hns : ns <= I32_MAX).
Definition base (c : code) : Prop := c_types c = ts /\ c_ntypes c = nt /\ c_nstrings c = ns.
Definition gto (x : Z) : rel Z := fun c bs a c' => bs = [] /\ a = x /\ c' = c /\ x <= I32_MAX.
Lemma den_to_i32 I x : den I (to_i32 x) (gto x).
Proof.
  unfold to_i32. destruct (Z.ltb_spec I32_MAX x).
  - eapply den_iff; [apply den_crash|]. intros c bs a c' _. unfold gnone, gto. split; [intros []|intros (_ & _ & _ & L); lia].
  - eapply den_iff; [apply den_ret|]. intros c bs a c' _. unfold gret, gto. intuition.
Qed.
Definition ref1 (bs : list Z) (t : vtype) : Prop := exists k, ix bs k /\ 0 <= k < nt /\ t = ty ts k.
Lemma keep_expect A p (o : option A) : keep (expect p o). Proof. exact (den_keep (den_expect (fun _ => True) A p o)). Qed.
Lemma den_get_type : den base get_type (gread ref1).
Proof.
  unfold get_type. eapply den_iff.
  { apply den_seq with (K := fun i => gcode (fun c0 => gbind (gto (c_ntypes c0)) (fun n' c bs t c' => 0 <= i < n' /\ bs = [] /\ znth (c_types c0) i = Some t /\ c' = c))); [apply den_unwrap, den_INDEX|apply still_gread|]. intros i. apply den_get_code. intros c0.
    apply den_seq; [apply den_to_i32|intros c bs a c' (_ & _ & -> & _); reflexivity|]. intros n'.
    destruct (Z.ltb_spec i 0), (Z.leb_spec n' i); cbn [orb]; try (eapply den_iff; [apply den_get_pos; intros p; apply den_bind_none; [apply den_record|intros; apply keep_expect|intros s a s' R; inversion R; subst; discriminate]|];
      intros c bs a c' _; unfold gnone; split; [intros []|intros (R & _); lia]).
    eapply den_iff; [apply den_expect|]. intros c bs a c' _. intuition. }
  intros c bs t c' (E1 & E2 & E3). split.
  - intros (b1 & b2 & i & c1 & -> & (V & ->) & (b3 & b4 & n' & c2 & -> & (-> & -> & -> & _) & (R & -> & Z & ->))).
    rewrite E1, E2 in *. rewrite app_nil_r. split; [|reflexivity]. exists i. split; [auto|]. split; [auto|].
    rewrite (znth_nth _ _ vt_default) in Z by lia. unfold ty. congruence.
  - intros ((k & V & R & ->) & ->). eapply gb_last; [split; [exact V|reflexivity]|]. eapply gb_nil; [split; [reflexivity|split; [reflexivity|split; [reflexivity|lia]]]|].
    rewrite E1, E2. split; [lia|]. split; [auto|]. split; [|auto]. rewrite (znth_nth _ _ vt_default) by lia. reflexivity.
Qed.
(** one name *)
Definition name1 (c : code) (n : Z) (x : str) (c' : code) : Prop := 0 <= n < ns /\ get_ustring c n = Ok (x, c').
Lemma name1_ustrings c n x c' : name1 c n x c' -> exists u, c' = set_ustrings u c.
Proof.
  intros (_ & H). unfold get_ustring in H. destruct (znth (c_ustrings c) n) as [[s|]|]; [| |discriminate].
  - inversion H; subst. exists (c_ustrings c'). now rewrite set_ustrings_id.
  - destruct (znth (c_strings c) n), (zinsert (c_ustrings c) n _) as [u|]; inversion H; subst; eauto.
Qed.
Lemma base_set u c : base (set_ustrings u c) <-> base c. Proof. reflexivity. Qed.
Lemma name1_base c n x c' : base c -> name1 c n x c' -> base c'.
Proof. intros B H. apply name1_ustrings in H as (u & ->). exact B. Qed.
Definition gname : rel str := fun c bs x c' => exists n, ix bs n /\ name1 c n x c'.
Lemma pres_gname : pres base gname. Proof. intros c bs x c' B (n & _ & H). eapply name1_base; eauto. Qed.
Lemma den_lift I A (r : res derr A) : den I (lift r) (fun c bs a c' => bs = [] /\ r = Ok a /\ c' = c).
Proof.
  destruct r as [a|e|p].
  - eapply den_iff; [apply (den_ret I _ a)|]. intros c bs x c' _. unfold gret. split; intros (-> & E & ->); repeat split; congruence.
  - eapply den_iff; [apply (den_throw I _ e)|]. intros c bs x c' _. unfold gnone. split; [intros []|intros (_ & E & _); discriminate].
  - eapply den_iff; [apply (den_crash I _ p)|]. intros c bs x c' _. unfold gnone. split; [intros []|intros (_ & E & _); discriminate].
Qed.
Lemma den_read_ustring : den base read_ustring gname.
Proof.
  unfold read_ustring. eapply den_iff.
  { apply den_seq with (K := fun i => gcode (fun c0 => gbind (gto (c_nstrings c0)) (fun n' c bs x c' => 0 <= i < n' /\ bs = [] /\ get_ustring c0 i = Ok (x, c')))); [apply den_unwrap, den_INDEX|apply still_gread|]. intros i. apply den_get_code. intros c0.
    apply den_seq; [apply den_to_i32|intros c bs a c' (_ & _ & -> & _); reflexivity|]. intros n'.
    destruct (Z.ltb_spec i 0), (Z.leb_spec n' i); cbn [orb]; try (eapply den_iff; [apply den_get_pos; intros p; apply den_bind_none; [apply den_record|intros; apply keep_ret|intros s a s' R; inversion R; subst; discriminate]|];
      intros c bs a c' _; unfold gnone; split; [intros []|intros (R & _); lia]).
    eapply den_iff; [apply den_seq; [apply den_lift|intros c bs a c' (_ & _ & ->); reflexivity|intros r]|].
    - apply (den_bind _ _ _ (fun _ _ => True)); [apply den_put_code|auto|]. intros a. apply den_ret.
    - intros c bs a c' _. split.
      + intros (b1 & b2 & r & c1 & -> & (-> & H1 & ->) & (b3 & b4 & u & c2 & -> & (-> & ->) & (-> & -> & ->))). split; [lia|]. split; [reflexivity|]. rewrite H1. now destruct r.
      + intros (R & -> & E). eapply gb_nil; [split; [reflexivity|split; [exact E|reflexivity]]|]. apply gb_nil with (a := tt) (c1 := c'); [auto|]. apply gret_i. }
  intros c bs x c' (E1 & E2 & E3). unfold gname, name1. split.
  - intros (b1 & b2 & i & c1 & -> & (V & ->) & (b3 & b4 & n' & c2 & -> & (-> & -> & -> & _) & (R & -> & Z))). rewrite E3 in *. rewrite app_nil_r. eauto.
  - intros (k & V & R & E). eapply gb_last; [split; [exact V|reflexivity]|]. eapply gb_nil; [split; [reflexivity|split; [reflexivity|split; [reflexivity|lia]]]|].
    rewrite E3. auto.
Qed.
(** several names *)
Inductive namesR : code -> list Z -> list str -> code -> Prop :=
| nr_nil c : namesR c [] [] c
| nr_cons c n x c1 l xs c2 : name1 c n x c1 -> namesR c1 l xs c2 -> namesR c (n :: l) (x :: xs) c2.
Lemma namesR_base c l xs c' : base c -> namesR c l xs c' -> base c'.
Proof. intros B H. induction H; auto. apply IHnamesR. eapply name1_base; eauto. Qed.
Lemma namesR_length c l xs c' : namesR c l xs c' -> length xs = length l.
Proof. induction 1; cbn; auto. Qed.
Lemma namesR_app l1 l2 : forall c xs c', namesR c (l1 ++ l2) xs c' <-> exists x1 x2 c1, xs = x1 ++ x2 /\ namesR c l1 x1 c1 /\ namesR c1 l2 x2 c'.
Proof.
  induction l1 as [|n l1 IH]; intros c xs c'; cbn [app].
  - split; [intros H; exists [], xs, c; repeat split; [constructor|auto]|intros (x1 & x2 & c1 & -> & H1 & H2); inversion H1; subst; auto].
  - split.
    + intros H. inversion H as [|c0 n0 x cx l0 xs0 c2 H1 H5]; subst. apply IH in H5 as (x1 & x2 & c3 & -> & H5 & H6). exists (x :: x1), x2, c3. split; [auto|]. split; [econstructor; eauto|auto].
    + intros (x1 & x2 & c1 & -> & H1 & H2). inversion H1 as [|c0 n0 x cx l0 xs0 c2 H3 H5]; subst. cbn. econstructor; eauto. apply IH. eauto 10.
Qed.
(** elements with a name each *)
Lemma thread_named A B (P : list Z -> B -> Prop) (key : B -> Z) (R : B -> Prop) (f : str -> B -> A) (G : rel A) :
  (forall c bs y c', base c -> (G c bs y c' <-> exists p x, P bs p /\ name1 c (key p) x c' /\ R p /\ y = f x p)) ->
  forall c bs ys c', base c ->
  (thread G c bs ys c' <-> exists ps xs, many P bs ps /\ namesR c (map key ps) xs c' /\ Forall R ps /\ ys = map (fun q => f (fst q) (snd q)) (combine xs ps)).
Proof.
  intros E c bs ys c' Bc. split.
  - intros T. induction T as [c|c b y c1 bs ys c2 H T IH].
    + exists [], []. repeat constructor.
    + apply E in H as (p & x & Pp & N & Rp & ->); [|auto]. destruct IH as (ps & xs & M & NR & F & ->); [eapply name1_base; eauto|].
      exists (p :: ps), (x :: xs). repeat constructor; auto. cbn. econstructor; eauto.
  - intros (ps & xs & M & NR & F & ->). revert c xs c' Bc NR F. induction M as [|b bs p ps Pp M IH]; intros c xs c' Bc NR F; cbn [map] in NR; inversion NR; subst; [constructor|].
    inversion F; subst. cbn [combine map fst snd]. econstructor; [apply E; eauto 10|]. apply IH; auto. eapply name1_base; eauto.
Qed.
Ltac ungb := repeat match goal with
 | H : gbind _ _ _ _ _ _ |- _ => destruct H as (? & ? & ? & ? & -> & ? & ?)
 | H : gread _ _ _ _ _ |- _ => destruct H as (? & ->)
 | H : gret _ _ _ _ _ |- _ => destruct H as (-> & -> & ->)
 end.
Lemma combine_map_r A B C (g : B -> C) (xs : list A) : forall ps, combine xs (map g ps) = map (fun q => (fst q, g (snd q))) (combine xs ps).
Proof. induction xs as [|x xs IH]; intros [|p ps]; cbn; auto. now rewrite IH. Qed.
Definition refs_in (l : list Z) : Prop := Forall (fun k => 0 <= k < nt) l.
Lemma den_for_fill A (body : Z -> list A -> M (list A)) (m : M A) G n l0 : 0 <= n ->
  (forall i l s, body i l s = (x <- m ;; vec_insert l i x) s) -> den base m G -> pres base G ->
  den base (for_range n body l0) (fun c bs l c' => exists xs, l = xs ++ l0 /\ zlen xs = n /\ thread G c bs xs c').
Proof.
  intros Hn E D P. eapply den_eq; [intros s; apply for_loop_ext, E|]. now apply den_fill.
Qed.
Ltac body_eq := let i := fresh in let l := fresh in let s := fresh in intros i l s; unfold bind;
  repeat match goal with |- context [match ?m with (_, _) => _ end] => destruct m as [[?|?|?] ?]; try reflexivity end.

Definition gfields (n : Z) : rel (list (obj_field vtype)) := fun c bs l c' => exists fs xs, zlen fs = n /\ many (both ix ix) bs fs /\
  namesR c (map fst fs) xs c' /\ refs_in (map snd fs) /\ l = map (mean_field ts) (combine xs (map snd fs)).
Lemma pres_thread A (G : rel A) : pres base G -> forall c bs xs c', base c -> thread G c bs xs c' -> base c'.
Proof. intros P c bs xs c' B T. induction T; auto. apply IHT. eapply P; eauto. Qed.
Lemma pres_bind A B (G : rel A) (K : A -> rel B) : pres base G -> (forall a, pres base (K a)) -> pres base (gbind G K).
Proof. intros P Q c bs a c' H (b1 & b2 & x & c1 & -> & H1 & H2). eapply Q; [|exact H2]. eapply P; eauto. Qed.
Lemma pres_ret A (a : A) : pres base (gret a). Proof. intros c bs x c' H (_ & _ & ->). exact H. Qed.
Hint Resolve pres_bind pres_ret pres_gread pres_gname den_get_type den_read_ustring den_INDEX den_UINDEX den_ret den_unwrap den_unwrap_mapped den_u8 : den.
Ltac dens := repeat (cbv beta; lazymatch goal with
  | |- den _ (unwrap_mapped _) _ => apply den_unwrap_mapped
  | |- den _ INDEX _ => apply den_INDEX | |- den _ UINDEX _ => apply den_UINDEX | |- den _ (unwrap _) _ => apply den_unwrap
  | |- den _ get_type _ => apply den_get_type | |- den _ read_ustring _ => apply den_read_ustring | |- den _ decode_u8 _ => apply den_u8
  | |- den _ (ret _) _ => apply den_ret | |- den _ (bind _ _) _ => eapply den_b
  | |- pres _ (gread _) => apply pres_gread | |- pres _ gname => apply pres_gname | |- forall _, den _ _ _ => intros ? end).
Lemma forall_iff_map A B (f : A -> B) (P : B -> Prop) l : Forall (fun x => P (f x)) l <-> Forall P (map f l).
Proof. symmetry. apply Forall_map. Qed.
Lemma den_read_fields n : 0 <= n -> den base (read_fields n) (gfields n).
Proof.
  intros Hn. unfold read_fields. eapply den_iff; [eapply (den_for_fill _ _ (name <- unwrap read_ustring ;; t <- unwrap get_type ;; ret (mkField name (crc32 name) t)));
    [auto|body_eq|dens|auto 6 with den]|].
  intros c bs l c' Bc. unfold gfields.
  assert (E : forall c bs y c', base c -> (gbind gname (fun a => gbind (gread ref1) (fun a0 => gret (mkField a (crc32 a) a0))) c bs y c' <->
     exists (p : Z * Z) x, both ix ix bs p /\ name1 c (fst p) x c' /\ 0 <= snd p < nt /\ y = mkField x (crc32 x) (ty ts (snd p)))).
  { clear. intros c bs y c' Bc. split.
    - intros H. ungb. destruct H as (n & V & N). destruct H0 as (k & V2 & R & ->). exists (n, k), x1. rewrite app_nil_r. split; [exists x, x3; auto|]. auto.
    - intros ([n k] & x & (b1 & b2 & -> & V1 & V2) & N & R & ->). eapply gb_cons; [exists n; eauto|]. eapply gb_last; [split; [exists k; eauto|reflexivity]|]. apply gret_i. }
  split.
  - intros (ys & -> & L & T). rewrite app_nil_r. apply (thread_named _ _ _ _ _ _ _ E) in T; [|auto]. destruct T as (fs & xs & M & NR & F & ->).
    exists fs, xs. pose proof (namesR_length _ _ _ _ NR) as LL. rewrite map_length in LL. split; [rewrite <- L; unfold zlen; rewrite map_length, combine_length; lia|].
    split; [auto|]. split; [auto|]. split; [apply Forall_map; exact F|]. rewrite combine_map_r, map_map. reflexivity.
  - intros (fs & xs & L & M & NR & F & ->). pose proof (namesR_length _ _ _ _ NR) as LL. rewrite map_length in LL. eexists. rewrite app_nil_r. split; [reflexivity|].
    split; [rewrite <- L; unfold zlen; rewrite map_length, combine_length, map_length; lia|].
    apply (thread_named _ _ _ _ _ _ _ E); [auto|]. exists fs, xs. split; [auto|]. split; [auto|]. split; [apply Forall_map in F; exact F|].
    rewrite combine_map_r, map_map. reflexivity.
Qed.
Lemma pres_gfields n : pres base (gfields n).
Proof. intros c bs l c' B (fs & xs & _ & _ & N & _). eapply namesR_base; eauto. Qed.

Definition gprotos (n : Z) : rel (list obj_proto) := fun c bs l c' => exists ps xs, zlen ps = n /\ many (both (both ix uix) ix) bs ps /\
  namesR c (map (fun p => fst (fst p)) ps) xs c' /\
  l = map (fun p => mkProto (fst p) (crc32 (fst p)) (snd (fst (snd p))) (snd (snd p))) (combine xs ps).
Lemma den_read_protos n : 0 <= n -> den base (read_protos n) (gprotos n).
Proof.
  intros Hn. unfold read_protos. eapply den_iff; [eapply (den_for_fill _ _ (name <- unwrap read_ustring ;; findex <- unwrap UINDEX ;; pindex <- unwrap INDEX ;; ret (mkProto name (crc32 name) findex pindex)));
    [auto|body_eq|dens|auto 8 with den]|].
    intros c bs l c' Bc. unfold gprotos.
  assert (E : forall c bs y c', base c -> (gbind gname (fun a => gbind (gread uix) (fun a0 => gbind (gread ix) (fun a1 => gret (mkProto a (crc32 a) a0 a1)))) c bs y c' <->
     exists (p : Z * Z * Z) x, both (both ix uix) ix bs p /\ name1 c (fst (fst p)) x c' /\ True /\ y = mkProto x (crc32 x) (snd (fst p)) (snd p))).
  { clear. intros c bs y c' Bc. split.
    - intros H. ungb. destruct H as (n & V & N). exists (n, x5, x8), x1. rewrite app_nil_r. split; [|auto]. exists (x ++ x3), x0. cbn [fst snd]. split; [apply app_assoc|]. split; [exists x, x3; auto|auto].
    - intros ([[n f] k] & x & (b1 & b2 & -> & (b3 & b4 & -> & V1 & V2) & V3) & N & R & ->). rewrite <- app_assoc. eapply gb_cons; [exists n; eauto|]. eapply gb_cons; [split; [exact V2|reflexivity]|].
      eapply gb_last; [split; [exact V3|reflexivity]|]. apply gret_i. }
  split.
  - intros (ys & -> & L & T). rewrite app_nil_r. apply (thread_named _ _ _ _ _ _ _ E) in T; [|auto]. destruct T as (fs & xs & M & NR & F & ->).
    exists fs, xs. pose proof (namesR_length _ _ _ _ NR) as LL. rewrite map_length in LL. split; [rewrite <- L; unfold zlen; rewrite map_length, combine_length; lia|]. auto.
  - intros (fs & xs & L & M & NR & ->). pose proof (namesR_length _ _ _ _ NR) as LL. rewrite map_length in LL. eexists. rewrite app_nil_r. split; [reflexivity|].
    split; [rewrite <- L; unfold zlen; rewrite map_length, combine_length; lia|].
    apply (thread_named _ _ _ _ _ _ _ E); [auto|]. exists fs, xs. split; [auto|]. split; [auto|]. split; [apply Forall_forall; auto|]. reflexivity.
Qed.
Lemma pres_gprotos n : pres base (gprotos n).
Proof. intros c bs l c' B (fs & xs & _ & _ & N & _). eapply namesR_base; eauto. Qed.

Definition gbindings (n : Z) : rel (list Z) := gread (fun bs l => exists ds, zlen ds = n /\ many (both uix uix) bs ds /\ l = flat_map (fun b => [fst b; snd b]) ds).
Lemma den_read_bindings n : 0 <= n -> den base (read_bindings n) (gbindings n).
Proof.
  intros Hn. unfold read_bindings, for_range.
  set (Gi := fun (i : Z) (l : list Z) => gbind (gread uix) (fun a => gbind (fun c bs l1 c' => bs = [] /\ zinsert l (2 * i) a = Some l1 /\ c' = c) (fun l1 =>
     gbind (gread uix) (fun b c bs l2 c' => bs = [] /\ zinsert l1 (2 * i + 1) b = Some l2 /\ c' = c)))).
  eapply den_iff; [apply (den_for_loop (list Z) (fun _ _ => base) _ Gi)|].
  - intros i l. unfold Gi. eapply den_b; [dens|apply pres_gread|]. intros a. eapply den_b; [apply den_expect|intros c bs x c' H (_ & _ & ->); exact H|].
    intros l1. eapply den_b; [dens|apply pres_gread|]. intros b. apply den_expect.
  - intros i l c bs l' c' B (b1 & b2 & a & c1 & -> & (_ & ->) & (b3 & b4 & l1 & c2 & -> & (-> & _ & ->) & (b5 & b6 & b & c3 & -> & (_ & ->) & (-> & _ & ->)))). exact B.
  - intros c bs l c' _. unfold gbindings, gread.
    assert (E : forall n i pre c bs l c', zlen pre = 2 * i -> (iter Gi n i pre c bs l c' <-> exists ds, length ds = n /\ many (both uix uix) bs ds /\ l = pre ++ flat_map (fun b => [fst b; snd b]) ds /\ c' = c)).
    { clear. induction n as [|n IH]; intros i pre c bs l c' Hi.
      - split; [intros H; inversion H; subst; exists []; cbn; rewrite app_nil_r; repeat split; constructor|].
        intros (ds & L & M & -> & ->). destruct ds; [|discriminate]. inversion M; subst. cbn. rewrite app_nil_r. constructor.
      - assert (I1 : forall a, zinsert pre (2 * i) a = Some (pre ++ [a])).
        { intros a. rewrite <- Hi. rewrite <- (app_nil_r pre) at 1. apply zinsert_app. }
        assert (I2 : forall a b, zinsert (pre ++ [a]) (2 * i + 1) b = Some (pre ++ [a; b])).
        { intros a b. replace (2 * i + 1) with (zlen (pre ++ [a])) by (rewrite zlen_app, Hi; reflexivity). rewrite <- (app_nil_r (pre ++ [a])) at 1. rewrite zinsert_app, <- app_assoc. reflexivity. }
        split.
        + intros H. inversion H as [|n0 i0 a0 c0 b1 b2 a1 c1 a2 c2 H1 H6]; subst. destruct H1 as (d1 & d2 & a & e1 & -> & (Va & ->) & (d3 & d4 & l1 & e2 & -> & (-> & Z1 & ->) & (d5 & d6 & b & e3 & -> & (Vb & ->) & (-> & Z2 & ->)))).
          rewrite I1 in Z1. injection Z1 as <-. rewrite I2 in Z2. injection Z2 as <-.
          apply IH in H6; [|rewrite zlen_app, Hi; change (zlen [a; b]) with 2; lia]. destruct H6 as (ds & L & M & -> & ->).
          exists ((a, b) :: ds). split; [cbn; lia|]. split; [constructor; [exists d1, d5; rewrite app_nil_r; auto|auto]|]. split; [|auto]. cbn. rewrite <- app_assoc. reflexivity.
        + intros (ds & L & M & -> & ->). destruct ds as [|[a b] ds]; [discriminate|]. inversion M as [|b1 bs1 x1 xs1 (c1 & c2 & -> & Va & Vb) M1]; subst.
          eapply iter_S with (a1 := pre ++ [a; b]).
          * unfold Gi. cbn [fst snd] in *. eapply gb_cons; [split; [exact Va|reflexivity]|]. eapply gb_nil; [split; [reflexivity|split; [apply I1|reflexivity]]|].
            eapply gb_last; [split; [exact Vb|reflexivity]|]. split; [reflexivity|]. split; [apply I2|reflexivity].
          * apply IH; [rewrite zlen_app, Hi; change (zlen [a; b]) with 2; lia|]. exists ds. split; [cbn in L; lia|]. split; [auto|]. split; [|auto]. cbn. rewrite <- app_assoc. reflexivity. }
    rewrite (E _ 0 [] c bs l c' eq_refl). split.
    + intros (ds & L & M & -> & ->). split; [|auto]. exists ds. split; [unfold zlen; lia|]. auto.
    + intros ((ds & L & M & ->) & ->). exists ds. split; [unfold zlen in L; lia|]. auto.
Qed.

Definition grefs (n : Z) : rel (list vtype) := gread (fun bs l => exists ks, zlen ks = n /\ many ix bs ks /\ refs_in ks /\ l = map (ty ts) ks).
Lemma thread_refs n c bs c' l : (exists xs, l = xs ++ [] /\ zlen xs = n /\ thread (gread ref1) c bs xs c') <-> grefs n c bs l c'.
Proof.
  unfold grefs, gread. split.
  - intros (xs & -> & L & T). rewrite app_nil_r. apply thread_many in T as (M & ->). split; [|auto]. unfold ref1 in M.
    apply (many_map _ _ ix (fun k => 0 <= k < nt) (ty ts)) in M as (ks & M & F & ->). exists ks. split; [rewrite <- L; unfold zlen; now rewrite map_length|]. auto.
  - intros ((ks & L & M & F & ->) & ->). exists (map (ty ts) ks). rewrite app_nil_r. split; [auto|]. split; [unfold zlen in *; now rewrite map_length|].
    apply thread_many. split; [|auto]. unfold ref1. apply (many_map _ _ ix (fun k => 0 <= k < nt) (ty ts)). eauto.
Qed.
Lemma den_read_type_refs n : 0 <= n -> den base (read_type_refs n) (grefs n).
Proof.
  intros Hn. unfold read_type_refs. eapply den_iff; [eapply (den_for_fill _ _ (unwrap get_type)); [auto|reflexivity|dens|auto with den]|].
  intros c bs l c' _. apply thread_refs.
Qed.

Definition counted (b : list Z) (l : list Z) : Prop := exists c1 c2, b = c1 ++ c2 /\ uix c1 (zlen l) /\ many ix c2 l.
Definition mean_con (p : str * list Z) : enum_construct vtype := mkCon (fst p) (zlen (snd p)) (map (ty ts) (snd p)) 0 false [].
Definition gconstructs (n : Z) : rel (list (enum_construct vtype)) := fun c bs l c' => exists cs xs, zlen cs = n /\ many (both ix counted) bs cs /\
  namesR c (map fst cs) xs c' /\ refs_in (flat_map snd cs) /\ l = map mean_con (combine xs (map snd cs)).
Lemma for_range_max A n (body : Z -> A -> M A) a : for_range n body a = for_range (Z.max 0 n) body a.
Proof. unfold for_range. f_equal. lia. Qed.
Lemma den_fields n : den base (read_fields n) (gfields (Z.max 0 n)).
Proof. unfold read_fields. rewrite for_range_max. apply den_read_fields. lia. Qed.
Lemma den_protos n : den base (read_protos n) (gprotos (Z.max 0 n)).
Proof. unfold read_protos. rewrite for_range_max. apply den_read_protos. lia. Qed.
Lemma den_bindings n : den base (read_bindings n) (gbindings (Z.max 0 n)).
Proof. unfold read_bindings. rewrite for_range_max. apply den_read_bindings. lia. Qed.
Lemma den_refs n : den base (read_type_refs n) (grefs (Z.max 0 n)).
Proof. unfold read_type_refs. rewrite for_range_max. apply den_read_type_refs. lia. Qed.
Lemma refs_flat (cs : list (Z * list Z)) : Forall (fun p => refs_in (snd p)) cs <-> refs_in (flat_map snd cs).
Proof.
  unfold refs_in. split.
  - induction 1 as [|c cs H _ IH]; cbn; [constructor|]. apply Forall_app. auto.
  - induction cs as [|c cs IH]; cbn; intros H; [constructor|]. apply Forall_app in H as [H1 H2]. auto.
Qed.
Lemma den_constructs n : den base (read_constructs n) (gconstructs (Z.max 0 n)).
Proof.
  unfold read_constructs. rewrite for_range_max. set (n0 := Z.max 0 n). assert (Hn : 0 <= n0) by lia. clearbody n0. clear n.
  eapply den_iff; [eapply (den_for_fill _ _ (name <- unwrap read_ustring ;; nparams <- unwrap UINDEX ;; params <- read_type_refs nparams ;; ret (mkCon name nparams params 0 false [])));
    [auto|body_eq|dens; [apply den_refs|apply pres_gread]|unfold grefs; auto 8 with den]|].
  intros c bs l c' Bc. unfold gconstructs.
  match goal with |- context [thread ?G _ _ _ _] => assert (E : forall c bs y c', base c -> (G c bs y c' <->
     exists (p : Z * list Z) x, both ix counted bs p /\ name1 c (fst p) x c' /\ refs_in (snd p) /\ y = mean_con (x, snd p))) end.
  { clear. intros c bs y c' Bc. split.
    - intros (b1 & b2 & x & c1 & -> & (n & V & N) & (b3 & b4 & k & c2 & -> & ((V2 & P2) & ->) & (b5 & b6 & l & c3 & -> & ((ks & L & M & R & ->) & ->) & (-> & -> & ->)))).
      rewrite app_nil_r. exists (n, ks), x. rewrite Z.max_r in L by lia. subst k. split; [exists b1, (b3 ++ b5); split; [auto|]; split; [auto|]; exists b3, b5; split; [auto|]; split; [split; auto|auto]|]. split; [auto|]. split; [auto|]. reflexivity.
    - intros ([n ks] & x & (b1 & b2 & -> & V1 & (b3 & b4 & -> & (V2 & P2) & M)) & N & R & ->). cbn [fst snd] in *. eapply gb_cons; [exists n; eauto|]. eapply gb_cons; [split; [split; [exact V2|exact P2]|reflexivity]|].
      eapply gb_last; [split; [|reflexivity]|apply gret_i]. exists ks. rewrite Z.max_r by lia. auto. }
  split.
  - intros (ys & -> & L & T). rewrite app_nil_r. apply (thread_named _ _ _ _ (fun p => refs_in (snd p)) (fun x p => mean_con (x, snd p)) _ E) in T; [|auto]. destruct T as (fs & xs & M & NR & F & ->).
    exists fs, xs. pose proof (namesR_length _ _ _ _ NR) as LL. rewrite map_length in LL. split; [rewrite <- L; unfold zlen; rewrite map_length, combine_length; lia|].
    split; [auto|]. split; [auto|]. split; [apply refs_flat; exact F|]. rewrite combine_map_r, map_map. reflexivity.
  - intros (fs & xs & L & M & NR & F & ->). pose proof (namesR_length _ _ _ _ NR) as LL. rewrite map_length in LL. eexists. rewrite app_nil_r. split; [reflexivity|].
    split; [rewrite <- L; unfold zlen; rewrite map_length, combine_length, map_length; lia|].
    apply (thread_named _ _ _ _ (fun p => refs_in (snd p)) (fun x p => mean_con (x, snd p)) _ E); [auto|]. exists fs, xs. split; [auto|]. split; [auto|]. split; [now apply refs_flat|].
    rewrite combine_map_r, map_map. reflexivity.
Qed.
Lemma pres_gconstructs n : pres base (gconstructs n).
Proof. intros c bs l c' B (fs & xs & _ & _ & N & _). eapply namesR_base; eauto. Qed.

(** * Type entries *)
Definition super_in (t : atype) : Prop := match t with AObj _ _ (Some k) _ _ _ _ => k < zlen ts | _ => True end.
Definition gtype : rel vtype := fun c bs t c' => exists a xs, spell_type bs a /\ namesR c (names_of a) xs c' /\ refs_in (plain_refs a) /\ super_in a /\ t = mean_type xs ts a.
Definition gsuper : rel vtype := fun c bs t c' => c' = c /\ exists sup, super_ix bs sup /\ (match sup with Some k => k < zlen ts | None => True end) /\
  t = match sup with Some k => ty ts k | None => vt_default end.
Lemma den_super : den base (super_index <- unwrap INDEX ;; c <- get_code ;;
    if super_index <? 0 then ret vt_default else expect PUnwrap (znth (c_types c) super_index)) gsuper.
Proof.
  eapply den_iff.
  - apply den_seq with (K := fun i => gcode (fun c0 c bs t c' => bs = [] /\ c' = c /\ if i <? 0 then t = vt_default else znth (c_types c0) i = Some t)); [dens|apply still_gread|].
    intros i. apply den_get_code. intros c0. destruct (i <? 0); (eapply den_iff; [first [apply den_ret|apply den_expect]|]); intros c bs t c' _; unfold gret; intuition.
  - intros c bs t c' (E1 & E2 & E3). split.
    + intros (b1 & b2 & i & c1 & -> & (V & ->) & (-> & -> & H)). rewrite app_nil_r. split; [auto|]. rewrite E1 in H. destruct (Z.ltb_spec i 0).
      * exists None. split; [|auto]. exists i. split; [auto|]. destruct (Z.ltb_spec i 0); [auto|lia].
      * exists (Some i). split; [exists i; split; [auto|]; destruct (Z.ltb_spec i 0); [lia|auto]|]. pose proof (znth_some_range _ _ _ H) as R. split; [lia|].
        rewrite (znth_nth _ _ vt_default) in H by lia. unfold ty. congruence.
    + intros (-> & sup & (k & V & ->) & R & ->). eapply gb_last; [split; [exact V|reflexivity]|]. split; [auto|]. split; [auto|]. rewrite E1. destruct (Z.ltb_spec k 0); [reflexivity|].
      rewrite (znth_nth _ _ vt_default) by lia. reflexivity.
Qed.
Definition obj_rest (v : Z) (name : str) (super : vtype) : M vtype :=
    g <- unwrap UINDEX ;; nfields <- unwrap UINDEX ;; nproto <- unwrap UINDEX ;; nbindings <- unwrap UINDEX ;;
    fields <- read_fields nfields ;; proto <- read_protos nproto ;; bindings <- read_bindings nbindings ;;
    ret (VT (ObjType name super fields nfields nproto nbindings proto bindings [g] None) None None v).
Definition obj_prog (v : Z) : M vtype :=
  name <- unwrap read_ustring ;; super <- (super_index <- unwrap INDEX ;; c <- get_code ;;
    if super_index <? 0 then ret vt_default else expect PUnwrap (znth (c_types c) super_index)) ;; obj_rest v name super.
(** trees by their kind byte *)
Definition kind_of (a : atype) : Z :=
  match a with APrim k => k | AFun m _ _ => if m then HMETHOD else HFUN | AObj st _ _ _ _ _ _ => if st then HSTRUCT else HOBJ
  | AVirtual _ => HVIRTUAL | AAbstract _ => HABSTRACT | AEnum _ _ _ => HENUM | AParam k _ => k end.
(** [P v bs a]: the entry of kind byte [v] and further bytes [bs] *)
Definition gentry (v : Z) : rel vtype := fun c bs t c' => exists a xs, kind_of a = v /\ spell_type (v :: bs) a /\ namesR c (names_of a) xs c' /\ refs_in (plain_refs a) /\ super_in a /\ t = mean_type xs ts a.
Ltac nokind := let a := fresh in intros (a & ? & ? & ? & _); destruct a as [?k|[]|[]| | | |?k ?t]; cbn [kind_of] in *; subst; try discriminate.
Lemma den_fun v : v = HFUN \/ v = HMETHOD -> den base (nargs <- unwrap decode_u8 ;; args <- read_type_refs nargs ;; r <- unwrap get_type ;; ret (VT (FuncType args nargs r) None None v)) (gentry v).
Proof.
  intros Hv. eapply den_iff; [dens; [apply den_refs|apply pres_gread]|]. intros c bs t c' B. split.
  - intros (b1 & b2 & n & c1 & -> & ((-> & Rn) & ->) & (b3 & b4 & l & c2 & -> & ((ks & L & M & R & ->) & ->) & (b5 & b6 & r & c3 & -> & ((k & V & Rk & ->) & ->) & (-> & -> & ->)))).
    rewrite Z.max_r in L by lia. subst n. rewrite app_nil_r.
    exists (AFun (v =? HMETHOD) ks k), []. split; [destruct Hv as [-> | ->]; reflexivity|].
    split; [exists b3, b5; split; [destruct Hv as [-> | ->]; reflexivity|]; split; [lia|auto]|]. split; [constructor|]. split; [apply Forall_app; split; [auto|constructor; [lia|constructor]]|]. split; [exact I|].
    destruct Hv as [-> | ->]; reflexivity.
  - intros (a & xs & K & Sp & N & R & Su & ->). destruct a as [k|m args r|st n sup g fs ps ds|fs|n|n g cs|k p]; cbn [kind_of] in K; try (exfalso; destruct Hv; subst v; discriminate).
    + exfalso. destruct Sp as (E & I). subst k. unfold prim_kinds in I. cbn in I. destruct Hv; subst v; cbv in I; intuition discriminate.
    + destruct Sp as (b1 & b2 & E & L & M & V). injection E as E. subst bs. cbn [names_of] in N. inversion N; subst. cbn [plain_refs refs_of] in R. apply Forall_app in R as (R1 & R2). inversion R2; subst.
      change (zlen args :: b1 ++ b2) with ([zlen args] ++ b1 ++ b2). eapply gb_cons; [split; [split; [reflexivity|pose proof (zlen_nonneg args); lia]|reflexivity]|].
      eapply gb_cons; [split; [exists args; pose proof (zlen_nonneg args); rewrite Z.max_r by lia; auto|reflexivity]|]. eapply gb_last; [split; [exists r; auto|reflexivity]|]. apply gret_i.
    + exfalso. destruct st, Hv; subst v; discriminate.
    + exfalso. destruct Sp as (b & E & I & _). subst k. cbv in I. destruct Hv; subst v; cbv in I; intuition discriminate.
Qed.
Lemma den_param v : In v param_kinds -> den base (t <- unwrap get_type ;; ret (VT UNull None (Some t) v)) (gentry v).
Proof.
  intros Hv. eapply den_iff; [dens|]. intros c bs t c' B. split.
  - intros (b1 & b2 & r & c1 & -> & ((k & V & R & ->) & ->) & (-> & -> & ->)). rewrite app_nil_r. exists (AParam v k), []. split; [reflexivity|]. split; [exists b1; auto|].
    split; [constructor|]. split; [repeat constructor; lia|]. split; [exact I|reflexivity].
  - intros (a & xs & K & Sp & N & R & Su & ->). destruct a as [k|m args r|st n sup g fs ps ds|fs|n|n g cs|k p]; cbn [kind_of] in K;
      try (exfalso; repeat match goal with b : bool |- _ => destruct b end; subst v; cbv in Hv; intuition discriminate).
    + exfalso. destruct Sp as (E & I). subst k. cbv in I, Hv. intuition congruence.
    + destruct Sp as (b & E & _ & V). injection E as -> ->. inversion N; subst. inversion R; subst. eapply gb_last; [split; [exists p; auto|reflexivity]|]. apply gret_i.
Qed.
Lemma den_virtual : den base (nfields <- unwrap UINDEX ;; fields <- read_fields nfields ;; ret (VT (VirtualType nfields fields) None None HVIRTUAL)) (gentry HVIRTUAL).
Proof.
  eapply den_iff; [dens; [apply den_fields|apply pres_gfields]|]. intros c bs t c' B. split.
  - intros (b1 & b2 & n & c1 & -> & ((V & P) & ->) & (b3 & b4 & l & c2 & -> & (fs & xs & L & M & N & R & ->) & (-> & -> & ->))). rewrite app_nil_r. rewrite Z.max_r in L by lia. subst n.
    exists (AVirtual fs), xs. split; [reflexivity|]. split; [exists b1, b3; repeat split; auto|]. split; [exact N|]. split; [exact R|]. split; [exact I|reflexivity].
  - intros (a & xs & K & Sp & N & R & Su & ->). destruct a as [k|m args r|st n sup g fs ps ds|fs|n|n g cs|k p]; cbn [kind_of] in K;
      try (exfalso; repeat match goal with b : bool |- _ => destruct b end; discriminate).
    + exfalso. destruct Sp as (E & I). subst k. cbv in I. intuition discriminate.
    + destruct Sp as (b1 & b2 & E & (V & P) & M). injection E as ->. eapply gb_cons; [split; [split; [exact V|exact P]|reflexivity]|].
      eapply gb_last; [exists fs, xs; rewrite Z.max_r by lia; split; [reflexivity|]; split; [exact M|]; split; [exact N|]; split; [exact R|reflexivity]|]. apply gret_i.
    + exfalso. destruct Sp as (b & E & I & _). subst k. cbv in I. intuition discriminate.
Qed.
Lemma namesR1 c n x c' : name1 c n x c' -> namesR c [n] [x] c'. Proof. intros. econstructor; eauto. constructor. Qed.
Lemma den_abstract : den base (name <- unwrap read_ustring ;; ret (VT UNull (Some name) None HABSTRACT)) (gentry HABSTRACT).
Proof.
  eapply den_iff; [dens|]. intros c bs t c' B. split.
  - intros (b1 & b2 & x & c1 & -> & (n & V & N) & (-> & -> & ->)). rewrite app_nil_r. exists (AAbstract n), [x]. split; [reflexivity|]. split; [exists b1; auto|].
    split; [now apply namesR1|]. split; [constructor|]. split; [exact I|reflexivity].
  - intros (a & xs & K & Sp & N & R & Su & ->). destruct a as [k|m args r|st n sup g fs ps ds|fs|n|n g cs|k p]; cbn [kind_of] in K;
      try (exfalso; repeat match goal with b : bool |- _ => destruct b end; discriminate).
    + exfalso. destruct Sp as (E & I). subst k. cbv in I. intuition discriminate.
    + destruct Sp as (b & E & V). injection E as ->. cbn [names_of] in N. inversion N as [|c0 n0 x cx l0 xs0 c2 H1 H5]; subst. inversion H5; subst. eapply gb_last; [exists n; eauto|]. apply gret_i.
    + exfalso. destruct Sp as (b & E & I & _). subst k. cbv in I. intuition discriminate.
Qed.
Lemma den_enum : den base (name <- unwrap read_ustring ;; g <- unwrap UINDEX ;; nconstructs <- unwrap UINDEX ;; constructs <- read_constructs nconstructs ;;
    ret (VT (EnumType name nconstructs constructs [g]) None None HENUM)) (gentry HENUM).
Proof.
  eapply den_iff; [dens; [apply den_constructs|apply pres_gconstructs]|]. intros c bs t c' B. split.
  - intros (b1 & b2 & x & c1 & -> & (n & V & N) & (b3 & b4 & g & c2 & -> & (Vg & ->) & (b5 & b6 & k & c3 & -> & ((Vk & Pk) & ->) & (b7 & b8 & l & c4 & -> & (cs & xs & L & M & NR & R & ->) & (-> & -> & ->))))).
    rewrite app_nil_r. rewrite Z.max_r in L by lia. subst k. exists (AEnum n g cs), (x :: xs). split; [reflexivity|]. split; [exists b1, b3, b5, b7; repeat split; auto; apply Vg|].
    split; [econstructor; eauto|]. split; [exact R|]. split; [exact I|reflexivity].
  - intros (a & xs & K & Sp & N & R & Su & ->). destruct a as [k|m args r|st n sup g fs ps ds|fs|n|n g cs|k p]; cbn [kind_of] in K;
      try (exfalso; repeat match goal with b : bool |- _ => destruct b end; discriminate).
    + exfalso. destruct Sp as (E & I). subst k. cbv in I. intuition discriminate.
    + destruct Sp as (b1 & b2 & b3 & b4 & E & V & Vg & (Vk & Pk) & M). injection E as ->. cbn [names_of] in N. inversion N as [|c0 n0 x cx l0 xs0 c2 H1 H5]; subst.
      eapply gb_cons; [exists n; eauto|]. eapply gb_cons; [split; [exact Vg|reflexivity]|]. eapply gb_cons; [split; [split; [exact Vk|exact Pk]|reflexivity]|].
      eapply gb_last; [exists cs, xs0; rewrite Z.max_r by lia; split; [reflexivity|]; split; [exact M|]; split; [exact H5|]; split; [exact R|reflexivity]|]. apply gret_i.
    + exfalso. destruct Sp as (b & E & I & _). subst k. cbv in I. intuition discriminate.
Qed.
Lemma skipn_S A (x : A) xs n : skipn (S n) (x :: xs) = skipn n xs. Proof. reflexivity. Qed.
Lemma den_obj v : v = HOBJ \/ v = HSTRUCT -> den base (obj_prog v) (gentry v).
Proof.
  intros Hv. unfold obj_prog, obj_rest. eapply den_iff.
  { eapply den_b; [dens|apply pres_gname|intros name]. eapply den_b; [apply den_super|intros c bs t c' H (-> & _); exact H|intros super].
    dens; [apply den_fields|apply pres_gfields|apply den_protos|apply pres_gprotos|apply den_bindings|apply pres_gread]. }
  intros c bs t c' B. split.
  - intros (b1 & b2 & x & c1 & -> & (n & V & N) & (b3 & b4 & super & c2 & -> & (-> & sup & Vs & Rs & ->) & (b5 & b6 & g & c3 & -> & (Vg & ->) &
      (b7 & b8 & nf & c4 & -> & ((Vf & Pf) & ->) & (b9 & b10 & np & c5 & -> & ((Vp & Pp) & ->) & (b11 & b12 & nb & c6 & -> & ((Vb & Pb) & ->) &
      (b13 & b14 & l1 & c7 & -> & (fs & xs & Lf & Mf & NRf & Rf & ->) & (b15 & b16 & l2 & c8 & -> & (ps & ys & Lp & Mp & NRp & ->) & (b17 & b18 & l3 & c9 & -> & ((ds & Ld & Md & ->) & ->) & (-> & -> & ->)))))))))).
    rewrite app_nil_r. rewrite Z.max_r in Lf, Lp, Ld by lia. subst nf np nb.
    pose proof (namesR_length _ _ _ _ NRf) as LL. rewrite map_length in LL.
    exists (AObj (v =? HSTRUCT) n sup g fs ps ds), (x :: xs ++ ys). split; [destruct Hv as [-> | ->]; reflexivity|].
    split. { exists b1, b3, b5, b7, b9, b11, b13, b15, b17. split; [destruct Hv as [-> | ->]; reflexivity|]. repeat split; auto; apply Vg. }
    split. { cbn [names_of]. econstructor; [exact N|]. apply namesR_app. eauto 10. }
    split; [exact Rf|]. split; [exact Rs|]. cbn [mean_type nth skipn].
    assert (E1 : combine (xs ++ ys) (map snd fs) = combine xs (map snd fs)).
    { clear - LL. revert fs LL. induction xs as [|x xs IH]; intros [|f fs] LL; try discriminate; cbn; [now destruct ys|]. f_equal. apply IH. cbn in LL. lia. }
    assert (E2 : skipn (1 + length fs) (x :: xs ++ ys) = ys).
    { cbn [plus skipn]. rewrite <- LL. rewrite skipn_app, skipn_all, Nat.sub_diag. reflexivity. }
    rewrite E1, E2. destruct Hv as [-> | ->]; reflexivity.
  - intros (a & xs & K & Sp & N & R & Su & ->). destruct a as [k|m args r|st n sup g fs ps ds|fs|n|n g cs|k p]; cbn [kind_of] in K;
      try (exfalso; repeat match goal with b : bool |- _ => destruct b end; destruct Hv; subst v; discriminate).
    + exfalso. destruct Sp as (E & I). subst k. cbv in I. destruct Hv; subst v; intuition discriminate.
    + destruct Sp as (b1 & b2 & b3 & b4 & b5 & b6 & b7 & b8 & b9 & E & V & Vs & Vg & (Vf & Pf) & (Vp & Pp) & (Vb & Pb) & Mf & Mp & Md). injection E as _ ->.
      cbn [names_of] in N. inversion N as [|c0 n0 x cx l0 xs0 c2 H1 H5]; subst. apply namesR_app in H5 as (y1 & y2 & c2 & -> & NRf & NRp).
      pose proof (namesR_length _ _ _ _ NRf) as LL. rewrite map_length in LL. cbn [mean_type nth skipn].
      assert (E1 : combine (y1 ++ y2) (map snd fs) = combine y1 (map snd fs)).
      { clear - LL. revert fs LL. induction y1 as [|x xs IH]; intros [|f fs] LL; try discriminate; cbn; [now destruct y2|]. f_equal. apply IH. cbn in LL. lia. }
      assert (E2 : skipn (1 + length fs) (x :: y1 ++ y2) = y2).
      { cbn [plus skipn]. rewrite <- LL. rewrite skipn_app, skipn_all, Nat.sub_diag. reflexivity. }
      rewrite E1, E2.
      eapply gb_cons; [exists n; eauto|]. eapply gb_cons; [split; [reflexivity|exists sup; split; [exact Vs|split; [exact Su|reflexivity]]]|].
      eapply gb_cons; [split; [exact Vg|reflexivity]|]. eapply gb_cons; [split; [split; [exact Vf|exact Pf]|reflexivity]|].
      eapply gb_cons; [split; [split; [exact Vp|exact Pp]|reflexivity]|]. eapply gb_cons; [split; [split; [exact Vb|exact Pb]|reflexivity]|].
      eapply gb_cons; [exists fs, y1; rewrite Z.max_r by lia; split; [reflexivity|]; split; [exact Mf|]; split; [exact NRf|]; split; [exact R|reflexivity]|].
      eapply gb_cons; [exists ps, y2; rewrite Z.max_r by lia; split; [reflexivity|]; split; [exact Mp|]; split; [exact NRp|reflexivity]|].
      eapply gb_last; [split; [exists ds; rewrite Z.max_r by lia; split; [reflexivity|]; split; [exact Md|reflexivity]|reflexivity]|]. apply gret_i.
    + exfalso. destruct Sp as (b & E & I & _). subst k. cbv in I. destruct Hv; subst v; intuition discriminate.
Qed.
Lemma kinds v : 0 <= v < HLAST -> v = HFUN \/ v = HMETHOD \/ v = HOBJ \/ v = HSTRUCT \/ In v param_kinds \/ v = HVIRTUAL \/ v = HABSTRACT \/ v = HENUM \/ In v prim_kinds.
Proof.
  intros H. unfold HLAST in H. unfold param_kinds, prim_kinds, In, HFUN, HMETHOD, HOBJ, HSTRUCT, HREF, HNULL, HPACKED, HVIRTUAL, HABSTRACT, HENUM, HVOID, HUI8, HUI16, HI32, HI64, HF32, HF64, HBOOL, HBYTES, HDYN, HARRAY, HTYPE, HDYNOBJ. lia.
Qed.
Lemma gentry_kind v c bs t c' : gentry v c bs t c' -> 0 <= v < HLAST.
Proof.
  intros (a & xs & <- & Sp & _). destruct a as [k|[]|[]| | | |k p]; cbn [kind_of]; unfold HLAST, HMETHOD, HFUN, HSTRUCT, HOBJ, HVIRTUAL, HABSTRACT, HENUM; try lia.
  - destruct Sp as (E & I). clear - I. cbv in I. intuition lia.
  - destruct Sp as (b & E & I & _). clear - I. cbv in I. intuition lia.
Qed.
Lemma den_prim v : In v prim_kinds -> den base (ret (VT UNull None None v)) (gentry v).
Proof.
  intros Hv. eapply den_iff; [apply den_ret|]. intros c bs t c' B. split.
  - intros (-> & -> & ->). exists (APrim v), []. split; [reflexivity|]. split; [split; auto|]. split; [constructor|]. split; [constructor|]. split; [exact I|reflexivity].
  - intros (a & xs & K & Sp & N & R & Su & ->). destruct a as [k|m args r|st n sup g fs ps ds|fs|n|n g cs|k p]; cbn [kind_of] in K;
      try (exfalso; repeat match goal with b : bool |- _ => destruct b end; subst v; cbv in Hv; intuition discriminate).
    + subst k. destruct Sp as (E & _). injection E as ->. inversion N; subst. repeat split.
    + exfalso. destruct Sp as (b & E & I & _). subst k. cbv in I, Hv. intuition congruence.
Qed.
Lemma den_none_iff (J : code -> Prop) A (m : M A) (G : rel A) : den J m gnone -> (forall c bs a c', ~ G c bs a c') -> den J m G.
Proof. intros D N. eapply den_iff; [exact D|]. intros c bs a c' _. unfold gnone. split; [intros []|]. apply N. Qed.
Lemma den_read_type : den base read_type gtype.
Proof.
  unfold read_type. eapply den_iff.
  { apply den_seq with (K := fun v => if v <? 0 then gret (VT UNull None None v) else gentry v); [dens|apply still_gread|]. intros v. destruct (Z.leb_spec HLAST v) as [Hb|Hb].
    - apply den_none_iff.
      + apply den_get_pos. intros p. apply den_bind_none; [apply den_map_err|intros; apply keep_ret|].
        intros s a s' R. inversion R; subst. cbn. destruct (errs s); discriminate.
      + intros c bs a c' H. unfold HLAST in Hb. destruct (Z.ltb_spec v 0); [lia|]. apply gentry_kind in H. unfold HLAST in H. lia.
    - destruct (Z.ltb_spec v 0) as [Hn|Hn].
      { repeat match goal with |- context [v =? ?k] => destruct (Z.eqb_spec v k); [unfold HFUN, HMETHOD, HOBJ, HSTRUCT, HREF, HVIRTUAL, HABSTRACT, HENUM, HNULL, HPACKED in *; lia|] end. cbn [orb]. apply den_ret. }
      destruct (kinds v ltac:(lia)) as [->|[->|[->|[->|[Hk|[->|[->|[->|Hk]]]]]]]].
      + apply (den_fun HFUN). auto.
      + apply (den_fun HMETHOD). auto.
      + eapply den_eq; [|apply (den_obj HOBJ); auto]. intros s. change ((HOBJ =? HFUN) || (HOBJ =? HMETHOD)) with false. change ((HOBJ =? HOBJ) || (HOBJ =? HSTRUCT)) with true. cbv iota.
        unfold obj_prog, obj_rest, bind, get_code. destruct (unwrap read_ustring s) as [[x|e|p] s1]; auto. destruct (unwrap INDEX s1) as [[y|e|p] s2]; auto.
      + eapply den_eq; [|apply (den_obj HSTRUCT); auto]. intros s. change ((HSTRUCT =? HFUN) || (HSTRUCT =? HMETHOD)) with false. change ((HSTRUCT =? HOBJ) || (HSTRUCT =? HSTRUCT)) with true. cbv iota.
        unfold obj_prog, obj_rest, bind, get_code. destruct (unwrap read_ustring s) as [[x|e|p] s1]; auto. destruct (unwrap INDEX s1) as [[y|e|p] s2]; auto.
      + destruct Hk as [<-|[<-|[<-|[]]]].
        * apply (den_param HREF). cbn; auto.
        * apply (den_param HNULL). cbn; auto.
        * apply (den_param HPACKED). cbn; auto.
      + apply den_virtual.
      + apply den_abstract.
      + apply den_enum.
      + pose proof (den_prim v Hk) as D. destruct Hk as [<-|[<-|[<-|[<-|[<-|[<-|[<-|[<-|[<-|[<-|[<-|[<-|[<-|[]]]]]]]]]]]]]]; exact D. }
  intros c bs t c' B. split.
  - intros (b1 & b2 & v & c1 & -> & ((-> & Rv) & ->) & H). destruct (Z.ltb_spec v 0); [lia|]. destruct H as (a & xs & _ & Sp & H). exists a, xs. auto.
  - intros (a & xs & Sp & H). assert (E : exists bs', bs = kind_of a :: bs').
    { destruct a; cbn in Sp; repeat match goal with H : exists _, _ |- _ => destruct H end; match goal with Q : bs = _ /\ _ |- _ => destruct Q as [-> _] end; cbn [kind_of]; eauto. }
    destruct E as (bs' & ->). assert (Ge : gentry (kind_of a) c bs' t c') by (exists a, xs; auto). pose proof (gentry_kind _ _ _ _ _ Ge) as K. unfold HLAST in K.
    change (kind_of a :: bs') with ([kind_of a] ++ bs'). eapply gb_cons; [split; [split; [reflexivity|lia]|reflexivity]|]. destruct (Z.ltb_spec (kind_of a) 0); [lia|]. exact Ge.
Qed.
Lemma pres_gtype : pres base gtype. Proof. intros c bs t c' B (a & xs & _ & N & _). eapply namesR_base; eauto. Qed.
End Types.
