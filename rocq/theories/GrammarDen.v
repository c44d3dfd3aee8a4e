(** The reader accepts exactly the language of GrammarSpec.v. *)
From Verif Require Import Prelude StdModel BrassTypes DecoderModel CodeModel FormatSpec ReaderSpec ErrSpec GrammarSpec.
From Verif Require Import CodeGenericProofs FormatProofs Utf8Proofs StringsProofs ReaderPost ReaderTables ErrProofs.
From Coq Require Import Lia ZifyBool.
Ltac Zify.zify_post_hook ::= Z.div_mod_to_equations.

(** * Denotations: from modules satisfying [I], the error-free runs of [m] are those that read a word of [G]. *)
Definition rel (A : Type) := code -> list Z -> A -> code -> Prop.
Definition fin (s : st) (rest : list Z) (n : Z) (c : code) : st :=
  {| d_buf := rest; d_pos := d_pos s + n; d_code := c; errs := None; d_log := d_log s |}.
Definition keep {A} (m : M A) : Prop := forall s r s', m s = (r, s') -> errs s <> None -> errs s' <> None.
Definition clean (s : st) : Prop := bytes (d_buf s) /\ zlen (d_buf s) < 2 ^ 63 /\ errs s = None.
Record den (I : code -> Prop) {A} (m : M A) (G : rel A) : Prop := {
  den_keep : keep m;
  den_to : forall s a s', clean s -> I (d_code s) -> m s = (Ok a, s') -> errs s' = None ->
    exists bs, d_buf s = bs ++ d_buf s' /\ G (d_code s) bs a (d_code s');
  den_from : forall s bs rest a c', clean s -> I (d_code s) -> d_buf s = bs ++ rest -> G (d_code s) bs a c' ->
    m s = (Ok a, fin s rest (zlen bs) c') }.
Arguments den_keep {I A m G}. Arguments den_to {I A m G}. Arguments den_from {I A m G}.

Definition gret {A} (a : A) : rel A := fun c bs x c' => bs = [] /\ x = a /\ c' = c.
Definition gnone {A} : rel A := fun _ _ _ _ => False.
Definition gbind {A B} (G : rel A) (K : A -> rel B) : rel B :=
  fun c bs b c' => exists b1 b2 a c1, bs = b1 ++ b2 /\ G c b1 a c1 /\ K a c1 b2 b c'.
(** readers that do not touch the module *)
Definition gread {A} (P : list Z -> A -> Prop) : rel A := fun c bs a c' => P bs a /\ c' = c.

Lemma clean_app s b r : clean s -> d_buf s = b ++ r -> bytes r /\ zlen r < 2 ^ 63 /\ bytes b.
Proof.
  intros (B & L & _) E. rewrite E in *. apply Forall_app in B. rewrite zlen_app in L. pose proof (zlen_nonneg b). split; [apply B|]. split; [lia|apply B].
Qed.
Lemma clean_fin s b r c : clean s -> d_buf s = b ++ r -> clean (fin s r (zlen b) c).
Proof. intros C E. destruct (clean_app _ _ _ C E) as (B & L & _). split; [exact B|]. split; [exact L|reflexivity]. Qed.
Lemma clean_next s s' b : clean s -> d_buf s = b ++ d_buf s' -> errs s' = None -> clean s'.
Proof. intros C E N. destruct (clean_app _ _ _ C E) as (B & L & _). split; [exact B|]. split; [exact L|exact N]. Qed.
Lemma fin_fin s r1 n1 c1 r2 n2 c2 : fin (fin s r1 n1 c1) r2 n2 c2 = fin s r2 (n1 + n2) c2.
Proof. unfold fin; cbn. f_equal. lia. Qed.
Lemma fin_self s : errs s = None -> fin s (d_buf s) 0 (d_code s) = s.
Proof. intros E. unfold fin. rewrite Z.add_0_r. destruct s; cbn in *. now subst. Qed.
Lemma fin_nil s rest c : clean s -> d_buf s = [] ++ rest -> c = d_code s -> fin s rest (zlen (@nil Z)) c = s.
Proof. intros (_ & _ & E) B ->. cbn in B. rewrite <- B. change (zlen (@nil Z)) with 0. now apply fin_self. Qed.

Lemma den_conseq (I J : code -> Prop) A (m : M A) (G G' : rel A) : den I m G -> (forall c, J c -> I c) ->
  (forall c bs a c', J c -> (G c bs a c' <-> G' c bs a c')) -> den J m G'.
Proof.
  intros [K T F] W E. split; auto.
  - intros s a s' C Ic R N. destruct (T s a s' C (W _ Ic) R N) as (bs & B & H). exists bs. split; [auto|]. now apply E.
  - intros s bs rest a c' C Ic B H. apply F; auto. now apply E.
Qed.
Lemma den_iff (I : code -> Prop) A (m : M A) (G G' : rel A) : den I m G -> (forall c bs a c', I c -> (G c bs a c' <-> G' c bs a c')) -> den I m G'.
Proof. intros D E. eapply den_conseq; eauto. Qed.
Lemma den_weaken (I J : code -> Prop) A (m : M A) (G : rel A) : den I m G -> (forall c, J c -> I c) -> den J m G.
Proof. intros D E. eapply den_conseq; eauto. reflexivity. Qed.
Lemma den_eq I A (m m' : M A) G : (forall s, m s = m' s) -> den I m' G -> den I m G.
Proof.
  intros E [K T F]. split; auto.
  - intros s r s'. rewrite E. apply K.
  - intros s a s' C Ic R. rewrite E in R. eauto.
  - intros. rewrite E. eauto.
Qed.
Lemma den_ret I A (a : A) : den I (ret a) (gret a).
Proof.
  split.
  - intros s r s' R. now inversion R.
  - intros s x s' C _ R _. inversion R; subst. exists []. cbv [gret]. auto.
  - intros s bs rest x c' C _ B (-> & -> & ->). rewrite fin_nil; auto.
Qed.
(** sequencing, with what is known after the first step *)
Lemma den_bind (I : code -> Prop) A B (J : A -> code -> Prop) (m : M A) G (k : A -> M B) K :
  den I m G -> (forall c bs a c', I c -> G c bs a c' -> J a c') -> (forall a, den (J a) (k a) (K a)) -> den I (bind m k) (gbind G K).
Proof.
  intros Dm P Dk. split.
  - intros s r s' R E. unfold bind in R. destruct (m s) as [[a|e|p] s1] eqn:M1.
    + apply (den_keep (Dk a) _ _ _ R). apply (den_keep Dm _ _ _ M1 E).
    + inversion R; subst. apply (den_keep Dm _ _ _ M1 E).
    + inversion R; subst. apply (den_keep Dm _ _ _ M1 E).
  - intros s b s' C Ic R N. unfold bind in R. destruct (m s) as [[a|e|p] s1] eqn:M1; try discriminate.
    assert (N1 : errs s1 = None). { destruct (errs s1) eqn:Q; [|auto]. exfalso. apply (den_keep (Dk a) _ _ _ R); [rewrite Q; discriminate|exact N]. }
    destruct (den_to Dm _ _ _ C Ic M1 N1) as (b1 & B1 & H1).
    destruct (den_to (Dk a) _ _ _ (clean_next _ _ _ C B1 N1) (P _ _ _ _ Ic H1) R N) as (b2 & B2 & H2).
    exists (b1 ++ b2). split; [rewrite B1, B2; apply app_assoc|]. exists b1, b2, a, (d_code s1). auto.
  - intros s bs rest b c' C Ic Bf (b1 & b2 & a & c1 & -> & H1 & H2). rewrite <- app_assoc in Bf.
    pose proof (den_from Dm s b1 (b2 ++ rest) a c1 C Ic Bf H1) as M1. unfold bind. rewrite M1.
    rewrite (den_from (Dk a) (fin s (b2 ++ rest) (zlen b1) c1) b2 rest b c'); [|now apply clean_fin|exact (P _ _ _ _ Ic H1)|reflexivity|exact H2].
    rewrite fin_fin, zlen_app. reflexivity.
Qed.
(** first steps that leave the module alone *)
Definition still {A} (G : rel A) : Prop := forall c bs a c', G c bs a c' -> c' = c.
Lemma den_seq (I : code -> Prop) A B (m : M A) G (k : A -> M B) K :
  den I m G -> still G -> (forall a, den I (k a) (K a)) -> den I (bind m k) (gbind G K).
Proof. intros Dm S Dk. apply (den_bind I A B (fun _ => I)); auto. intros c bs a c' Ic H. now rewrite (S _ _ _ _ H). Qed.
Lemma den_get_pos I A (k : Z -> M A) G : (forall p, den I (k p) G) -> den I (bind get_pos k) G.
Proof.
  intros D. split.
  - intros s r s' R. apply (den_keep (D (d_pos s)) s r s'). exact R.
  - intros s a s' C Ic R N. exact (den_to (D (d_pos s)) s a s' C Ic R N).
  - intros s bs rest a c' C Ic B H. exact (den_from (D (d_pos s)) s bs rest a c' C Ic B H).
Qed.
Lemma den_none I A (m : M A) : keep m -> (forall s a s', m s = (Ok a, s') -> errs s' <> None) -> den I m gnone.
Proof.
  intros K H. split; auto; try (intros; contradiction). intros s a s' _ _ R N. destruct (H _ _ _ R N).
Qed.
Lemma den_throw I A e : den I (@throw A e) gnone. Proof. apply den_none; [intros s r s' R; now inversion R|discriminate]. Qed.
Lemma den_crash I A e : den I (@crash A e) gnone. Proof. apply den_none; [intros s r s' R; now inversion R|discriminate]. Qed.
Lemma den_record I e : den I (record_error e) gnone.
Proof. apply den_none; [intros s r s' R; inversion R; subst; cbn; discriminate|intros s a s' R; inversion R; subst; cbn; discriminate]. Qed.
Lemma den_map_err I e : den I (map_err e) gnone.
Proof.
  apply den_none; [intros s r s' R; inversion R; subst; cbn; destruct (errs s); discriminate
    |intros s a s' R; inversion R; subst; cbn; destruct (errs s); discriminate].
Qed.
(** nothing is accepted after a recorded error *)
Lemma den_bind_none I A B (m : M A) (k : A -> M B) : den I m gnone -> (forall a, keep (k a)) -> (forall s a s', m s = (Ok a, s') -> errs s' <> None) -> den I (bind m k) gnone.
Proof.
  intros Dm Kk Dr. apply den_none.
  - intros s r s' R E. unfold bind in R. destruct (m s) as [[a|e|p] s1] eqn:M1; [|inversion R; subst; apply (den_keep Dm _ _ _ M1 E)..].
    apply (Kk a _ _ _ R). apply (den_keep Dm _ _ _ M1 E).
  - intros s b s' R. unfold bind in R. destruct (m s) as [[a|e|p] s1] eqn:M1; try discriminate. apply (Kk a _ _ _ R). eapply Dr; eauto.
Qed.
Lemma gbind_none A B (K : A -> rel B) c bs b c' : gbind gnone K c bs b c' <-> False.
Proof. split; [intros (? & ? & ? & ? & _ & H & _); exact H|intros []]. Qed.
Lemma gbind_ret A B (a : A) (K : A -> rel B) c bs b c' : gbind (gret a) K c bs b c' <-> K a c bs b c'.
Proof.
  split.
  - intros (b1 & b2 & x & c1 & -> & (-> & -> & ->) & H). exact H.
  - intros H. exists [], bs, a, c. cbv [gret]. auto.
Qed.
Lemma gbind_ret_r A B (G : rel A) (f : A -> B) c bs b c' : gbind G (fun a => gret (f a)) c bs b c' <-> exists a, G c bs a c' /\ b = f a.
Proof.
  split.
  - intros (b1 & b2 & x & c1 & -> & H & (-> & -> & ->)). rewrite app_nil_r. eauto.
  - intros (a & H & ->). exists bs, [], a, c'. rewrite app_nil_r. cbv [gret]. auto.
Qed.
Definition gcode {A} (K : code -> rel A) : rel A := fun c => K c c.
Lemma den_get_code I A (k : code -> M A) K : (forall c0, den (fun c => I c /\ c = c0) (k c0) (K c0)) -> den I (bind get_code k) (gcode K).
Proof.
  intros D. split.
  - intros s r s' R. apply (den_keep (D (d_code s)) s r s'). exact R.
  - intros s x s' C Ic R N. exact (den_to (D (d_code s)) s x s' C (conj Ic eq_refl) R N).
  - intros s bs rest x c' C Ic B H. exact (den_from (D (d_code s)) s bs rest x c' C (conj Ic eq_refl) B H).
Qed.
Lemma den_get I : den I get_code (fun c bs a c' => bs = [] /\ a = c /\ c' = c).
Proof.
  split.
  - intros s r s' R. now inversion R.
  - intros s x s' C _ R _. inversion R; subst. exists []. auto.
  - intros s bs rest x c' C _ B (-> & -> & ->). rewrite fin_nil; auto.
Qed.
Lemma den_put_code (I : code -> Prop) c : den I (put_code c) (fun _ bs _ c' => bs = [] /\ c' = c).
Proof.
  split.
  - intros s r s' R. inversion R; subst. auto.
  - intros s x s' C _ R _. inversion R; subst. exists []. auto.
  - intros s bs rest [] c' (_ & _ & E) _ B (-> & ->). unfold put_code, fin. cbn in B. rewrite <- B, E. change (zlen (@nil Z)) with 0. now rewrite Z.add_0_r.
Qed.
Lemma den_expect I A p (o : option A) : den I (expect p o) (fun c bs a c' => bs = [] /\ o = Some a /\ c' = c).
Proof.
  destruct o as [a|]; cbn [expect].
  - eapply den_iff; [apply den_ret|]. intros c bs x c' _. unfold gret. split; intros (-> & E & ->); repeat split; congruence.
  - eapply den_iff; [apply den_crash|]. intros c bs x c' _. unfold gnone. split; [intros []|intros (_ & E & _); discriminate].
Qed.
Lemma den_check I : den I check_error (gret tt).
Proof.
  split.
  - intros s r s' R E. unfold check_error in R. destruct (errs s) eqn:Q; inversion R; subst; rewrite Q; auto.
  - intros s x s' C _ R _. unfold check_error in R. destruct (errs s); inversion R; subst. exists []. cbv [gret]. auto.
  - intros s bs rest x c' C _ B (-> & -> & ->). rewrite fin_nil by auto. unfold check_error. destruct C as (_ & _ & ->). reflexivity.
Qed.
Lemma den_ok_check I : den I (ok check_error) (gret (Some tt)).
Proof.
  split.
  - intros s r s' R E. unfold ok, check_error in R. destruct (errs s) eqn:Q; inversion R; subst; rewrite Q; auto.
  - intros s x s' C _ R _. unfold ok, check_error in R. destruct C as (_ & _ & E). rewrite E in R. inversion R; subst. exists []. cbv [gret]. auto.
  - intros s bs rest x c' C _ B (-> & -> & ->). rewrite fin_nil by auto. unfold ok, check_error. destruct C as (_ & _ & ->). reflexivity.
Qed.
Lemma den_unwrap I A (m : M A) G : den I m G -> den I (unwrap m) G.
Proof.
  intros D. split.
  - intros s r s' R E. unfold unwrap in R. destruct (m s) as [[a|e|p] s1] eqn:M1; inversion R; subst; exact (den_keep D _ _ _ M1 E).
  - intros s a s' C Ic R N. unfold unwrap in R. destruct (m s) as [[a0|e|p] s1] eqn:M1; inversion R; subst. exact (den_to D _ _ _ C Ic M1 N).
  - intros s bs rest a c' C Ic B H. unfold unwrap. now rewrite (den_from D s bs rest a c').
Qed.
Lemma den_unwrap_mapped I A (m : M A) G : den I m G -> den I (unwrap_mapped m) G.
Proof.
  intros D. split.
  - intros s r s' R E. unfold unwrap_mapped in R. destruct (m s) as [[a|e|p] s1] eqn:M1; inversion R; subst; try exact (den_keep D _ _ _ M1 E).
    cbn. destruct (errs s1); discriminate.
  - intros s a s' C Ic R N. unfold unwrap_mapped in R. destruct (m s) as [[a0|e|p] s1] eqn:M1; inversion R; subst. exact (den_to D _ _ _ C Ic M1 N).
  - intros s bs rest a c' C Ic B H. unfold unwrap_mapped. now rewrite (den_from D s bs rest a c').
Qed.
Definition gsome {A} (G : rel A) : rel (option A) := fun c bs o c' => exists a, o = Some a /\ G c bs a c'.
Lemma den_ok_mapped I A (m : M A) G : den I m G -> den I (ok_mapped m) (gsome G).
Proof.
  intros D. split.
  - intros s r s' R E. unfold ok_mapped in R. destruct (m s) as [[a|e|p] s1] eqn:M1; inversion R; subst; try exact (den_keep D _ _ _ M1 E).
    cbn. destruct (errs s1); discriminate.
  - intros s o s' C Ic R N. unfold ok_mapped in R. destruct (m s) as [[a0|e|p] s1] eqn:M1; inversion R; subst.
    + destruct (den_to D _ _ _ C Ic M1 N) as (bs & B & H). exists bs. split; [auto|]. exists a0. auto.
    + cbn in N. destruct (errs s1); discriminate.
  - intros s bs rest o c' C Ic B (a & -> & H). unfold ok_mapped. now rewrite (den_from D s bs rest a c').
Qed.
Lemma den_ok I A (m : M A) G : (forall s e s', m s <> (Err e, s')) -> den I m G -> den I (ok m) (gsome G).
Proof.
  intros NE D. split.
  - intros s r s' R E. unfold ok in R. destruct (m s) as [[a|e|p] s1] eqn:M1; inversion R; subst; exact (den_keep D _ _ _ M1 E).
  - intros s o s' C Ic R N. unfold ok in R. destruct (m s) as [[a0|e|p] s1] eqn:M1; inversion R; subst.
    + destruct (den_to D _ _ _ C Ic M1 N) as (bs & B & H). exists bs. split; [auto|]. exists a0. auto.
    + destruct (NE _ _ _ M1).
  - intros s bs rest o c' C Ic B (a & -> & H). unfold ok. now rewrite (den_from D s bs rest a c').
Qed.
Lemma keep_bind A B (m : M A) (k : A -> M B) : keep m -> (forall a, keep (k a)) -> keep (bind m k).
Proof.
  intros Km Kk s r s' R E. unfold bind in R. destruct (m s) as [[a|e|p] s1] eqn:M1; [|inversion R; subst; exact (Km _ _ _ M1 E)..].
  apply (Kk a _ _ _ R). exact (Km _ _ _ M1 E).
Qed.
Lemma keep_loop A (body : Z -> A -> M A) : (forall j x, keep (body j x)) -> forall n i a, keep (for_loop n i body a).
Proof.
  intros KB. induction n as [|n IH]; intros i a; cbn [for_loop]; [intros s r s' R; now inversion R|]. apply keep_bind; auto.
Qed.

(** * Loops *)
Inductive iter {A} (G : Z -> A -> rel A) : nat -> Z -> A -> rel A :=
| iter_0 i a c : iter G O i a c [] a c
| iter_S n i a c b1 b2 a1 c1 a2 c2 : G i a c b1 a1 c1 -> iter G n (i + 1) a1 c1 b2 a2 c2 -> iter G (S n) i a c (b1 ++ b2) a2 c2.
Lemma den_for_loop A (K : Z -> A -> code -> Prop) (body : Z -> A -> M A) G :
  (forall j x, den (K j x) (body j x) (G j x)) ->
  (forall j x c bs x' c', K j x c -> G j x c bs x' c' -> K (j + 1) x' c') ->
  forall n i a, den (K i a) (for_loop n i body a) (iter G n i a).
Proof.
  intros D P. induction n as [|n IH]; intros i a; cbn [for_loop].
  - eapply den_iff; [apply den_ret|]. intros c bs x c' _. unfold gret. split; [intros (-> & -> & ->); constructor|intros H; inversion H; subst; auto].
  - eapply den_iff; [eapply (den_bind _ _ _ (fun x => K (i + 1) x)); [apply D|apply P|intros x; apply IH]|].
    intros c bs x c' _. split.
    + intros (b1 & b2 & a1 & c1 & -> & H1 & H2). econstructor; eauto.
    + intros H. inversion H; subst. unfold gbind. eauto 10.
Qed.
(** the elements read one after the other, threading the module *)
Inductive thread {A} (G : rel A) : code -> list Z -> list A -> code -> Prop :=
| th_nil c : thread G c [] [] c
| th_cons c b x c1 bs xs c2 : G c b x c1 -> thread G c1 bs xs c2 -> thread G c (b ++ bs) (x :: xs) c2.
Lemma zinsert_app {A} (l r : list A) x : zinsert (l ++ r) (zlen l) x = Some (l ++ x :: r).
Proof.
  induction l as [|y l IH].
  - destruct r; reflexivity.
  - rewrite zlen_cons. cbn [app zinsert]. pose proof (zlen_nonneg l).
    destruct (Z.eqb_spec (1 + zlen l) 0); [lia|]. replace (1 + zlen l - 1) with (zlen l) by lia. rewrite IH. reflexivity.
Qed.
Lemma iter_thread {A} (G : rel A) (Gi : Z -> list A -> rel (list A)) n : 
  (forall j l c bs l' c', Gi j l c bs l' c' <-> gbind G (fun x c bs l' c' => bs = [] /\ zinsert l j x = Some l' /\ c' = c) c bs l' c') ->
  forall i pre tl c bs l c', zlen pre = i ->
  (iter Gi n i (pre ++ tl) c bs l c' <-> exists xs, l = pre ++ xs ++ tl /\ length xs = n /\ thread G c bs xs c').
Proof.
  intros E. induction n as [|n IH]; intros i pre tl c bs l c' Hi.
  - split.
    + intros H. inversion H; subst. exists []. repeat split. constructor.
    + intros (xs & -> & L & T). destruct xs; [|discriminate]. inversion T; subst. cbn. constructor.
  - split.
    + intros H. inversion H as [|n0 i0 a0 c0 b1 b2 a1 c1 a2 c2 H1 H6]; subst. apply E in H1. destruct H1 as (b3 & b4 & x & c3 & -> & Hx & (-> & Z & ->)).
      rewrite zinsert_app in Z. injection Z as <-. rewrite app_nil_r.
      assert (EE : pre ++ x :: tl = (pre ++ [x]) ++ tl) by (rewrite <- app_assoc; reflexivity).
      rewrite EE in H6. apply IH in H6; [|rewrite zlen_app; reflexivity]. destruct H6 as (xs & -> & L & T).
      exists (x :: xs). split; [rewrite <- app_assoc; reflexivity|]. split; [cbn; lia|]. econstructor; eauto.
    + intros (xs & -> & L & T). destruct xs as [|x xs]; [discriminate|]. inversion T; subst.
      eapply iter_S with (a1 := pre ++ x :: tl).
      * apply E. exists b, [], x, c1. rewrite app_nil_r. repeat split; auto. apply zinsert_app.
      * replace (pre ++ x :: tl) with ((pre ++ [x]) ++ tl) by (rewrite <- app_assoc; reflexivity). apply IH; [rewrite zlen_app; reflexivity|].
        exists xs. split; [rewrite <- app_assoc; reflexivity|]. split; [cbn in L; lia|auto].
Qed.
Lemma den_fill (I : code -> Prop) A (m : M A) G n l0 : 0 <= n -> den I m G -> (forall c bs a c', I c -> G c bs a c' -> I c') ->
  den I (for_range n (fun i l => x <- m ;; vec_insert l i x) l0) (fun c bs l c' => exists xs, l = xs ++ l0 /\ zlen xs = n /\ thread G c bs xs c').
Proof.
  intros Hn D V. unfold for_range.
  set (Gi := fun (j : Z) (l : list A) => gbind G (fun x c bs l' c' => bs = [] /\ zinsert l j x = Some l' /\ c' = c)).
  assert (DB : forall j l, den I (x <- m ;; vec_insert l j x) (Gi j l)).
  { intros j l. apply (den_bind I _ _ (fun _ => I)); [exact D|exact V|]. intros x. apply den_expect. }
  eapply den_iff; [apply (den_for_loop (list A) (fun _ _ => I) _ Gi)|].
  - apply DB.
  - intros j x c bs x' c' Ic (b1 & b2 & y & c1 & -> & H & (_ & _ & ->)). eapply V; eauto.
  - intros c bs l c' _. rewrite (iter_thread G Gi (Z.to_nat n) ltac:(reflexivity) 0 [] l0 c bs l c' eq_refl). cbn [app].
    split; intros (xs & -> & L & T); exists xs; (split; [auto|]; split; [|auto]); unfold zlen in *; lia.
Qed.
Lemma thread_many {A} (P : list Z -> A -> Prop) c bs xs c' : thread (gread P) c bs xs c' <-> many P bs xs /\ c' = c.
Proof.
  split.
  - intros T. induction T as [|c b x c1 bs xs c2 [Hx ->] T [IH ->]]; [split; [constructor|auto]|]. split; [now constructor|auto].
  - intros [Mx ->]. induction Mx; [constructor|]. apply th_cons with c; [|auto]. now split.
Qed.
Lemma thread_conseq {A} (G G' : rel A) (I : code -> Prop) : (forall c bs a c', I c -> (G c bs a c' <-> G' c bs a c')) -> (forall c bs a c', I c -> G c bs a c' -> I c') ->
  forall c bs xs c', I c -> (thread G c bs xs c' <-> thread G' c bs xs c').
Proof.
  intros E P c bs xs c' Ic. split; intros T; revert Ic; induction T; intros Ic; try constructor.
  - econstructor; [apply E; eauto|]. apply IHT. eapply P; eauto.
  - assert (G c b x c1) by (apply E; auto). econstructor; [eauto|]. apply IHT. eapply P; eauto.
Qed.
