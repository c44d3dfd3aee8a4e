(** The reader's runs, faults included, are exactly the shapes of OutcomeSpec.v (C84): the logic. *)
From Verif Require Import Prelude StdModel BrassTypes DecoderModel CodeModel FormatSpec ReaderSpec ErrSpec GrammarSpec OutcomeSpec.
From Verif Require Import CodeGenericProofs FormatProofs StringsProofs ReaderPost ReaderTables ErrProofs ErrExact ErrReturn GrammarDen.
From Verif Require BadProofs GrammarTypes GrammarNames.
From Coq Require Import Lia ZifyBool.

Lemma flat_app a b : flat (a ++ b) = flat a ++ flat b. Proof. unfold flat. now rewrite flat_map_app. Qed.
Lemma flat_one k b : flat [(k, b)] = b. Proof. cbn. now rewrite app_nil_r. Qed.
Lemma faulty_app a b : faulty (a ++ b) = faulty a || faulty b. Proof. unfold faulty. now rewrite existsb_app. Qed.
Lemma found_app a : forall b p, found p (a ++ b) = found p a ++ found (p + zlen (flat a)) b.
Proof.
  induction a as [|(k, x) a IH]; intros b p; [cbn; now rewrite Z.add_0_r|]. cbn [app found]. rewrite IH, <- app_assoc.
  change (flat ((k, x) :: a)) with (x ++ flat a). now rewrite zlen_app, Z.add_assoc.
Qed.
Lemma found_faulty l : forall p, faulty l = match found p l with [] => false | _ => true end.
Proof.
  induction l as [|([k|], x) l IH]; intros p; [reflexivity|reflexivity|]. cbn [found app]. rewrite <- IH. reflexivity.
Qed.
Lemma found_clean l p : faulty l = false -> found p l = []. Proof. rewrite (found_faulty l p). now destruct (found p l). Qed.
Definition dirty (lg : list derr) : bool := match lg with [] => false | _ => true end.
Lemma dirty_app lg p l : dirty (lg ++ found p l) = dirty lg || faulty l.
Proof. rewrite (found_faulty l p). destruct lg; [reflexivity|reflexivity]. Qed.
Lemma found_one p k b : found p [(k, b)] = match k with Some k => [err k (p + zlen b)] | None => [] end.
Proof. cbn [found]. rewrite app_nil_r. reflexivity. Qed.

Definition okb (b : list Z) : Prop := bytes b /\ zlen b < 2 ^ 63.
Lemma okb_r a b : okb (a ++ b) -> okb b.
Proof. intros (B & L). apply Forall_app in B. rewrite zlen_app in L. pose proof (zlen_nonneg a). split; [apply B|lia]. Qed.

(** From a module satisfying [I], the runs of [m] that end normally are those over items in [L]. *)
Record lays (I : code -> Prop) {A X} (m : M A) (L : bool -> list item -> X -> Prop) (R : A -> X -> code -> Prop) : Prop := {
  l_to : forall b p c lg r s', okb b -> I c -> m (S_ b p c lg) = (r, s') ->
    match r with
    | Err _ => False
    | Panic _ => True
    | Ok a => exists l x rest c', b = flat l ++ rest /\ L (dirty lg) l x /\ s' = S_ rest (p + zlen (flat l)) c' (lg ++ found p l) /\ R a x c'
    end;
  l_from : forall l x rest p c lg, okb (flat l ++ rest) -> I c -> L (dirty lg) l x ->
    exists a c', m (S_ (flat l ++ rest) p c lg) = (Ok a, S_ rest (p + zlen (flat l)) c' (lg ++ found p l)) /\ R a x c' }.
Arguments l_to {I A X m L R}. Arguments l_from {I A X m L R}.

Definition sh (P : shape) : bool -> list item -> unit -> Prop := fun _ l _ => P l.
Definition shv {X} (P : X -> shape) : bool -> list item -> X -> Prop := fun _ l v => P v l.

Lemma lays_conseq (I J : code -> Prop) A X (m : M A) L L' (R R' : A -> X -> code -> Prop) : lays I m L R -> (forall c, J c -> I c) ->
  (forall d l x, L d l x <-> L' d l x) -> (forall a x c, R a x c -> R' a x c) -> lays J m L' R'.
Proof.
  intros [T F] W E Q. split.
  - intros b p c lg r s' B Jc H. pose proof (T b p c lg r s' B (W _ Jc) H) as Y. destruct r; auto. destruct Y as (l & x & rest & c' & Y1 & Y2 & Y3 & Y4).
    exists l, x, rest, c'. rewrite <- E. auto 6.
  - intros l x rest p c lg B Jc H. destruct (F l x rest p c lg B (W _ Jc)) as (a & c' & E1 & E2); [now apply E|]. exists a, c'. auto.
Qed.
Lemma lays_pre (I J : code -> Prop) A X (m : M A) L (R : A -> X -> code -> Prop) : lays I m L R -> (forall c, J c -> I c) -> lays J m L R.
Proof. intros D W. eapply lays_conseq; eauto. reflexivity. Qed.
Lemma lays_iff (I : code -> Prop) A X (m : M A) L L' (R : A -> X -> code -> Prop) : lays I m L R -> (forall d l x, L d l x <-> L' d l x) -> lays I m L' R.
Proof. intros D E. eapply lays_conseq; eauto. Qed.
Lemma lays_post (I : code -> Prop) A X (m : M A) L (R R' : A -> X -> code -> Prop) : lays I m L R -> (forall a x c, R a x c -> R' a x c) -> lays I m L R'.
Proof. intros D E. eapply lays_conseq; eauto. reflexivity. Qed.
Lemma lays_eq I A X (m m' : M A) L (R : A -> X -> code -> Prop) : (forall s, m s = m' s) -> lays I m' L R -> lays I m L R.
Proof.
  intros E [T F]. split.
  - intros b p c lg r s' B Ic H. rewrite E in H. eapply T; eauto.
  - intros l x rest p c lg B Ic H. rewrite E. now apply F.
Qed.
Lemma lays_pure (P : Prop) (I : code -> Prop) A X (m : M A) L (R : A -> X -> code -> Prop) : (P -> lays I m L R) -> lays (fun c => P /\ I c) m L R.
Proof. intros D. split; [intros b p c lg r s' B (H & Ic)|intros l x rest p c lg B (H & Ic)]; [now apply (l_to (D H))|now apply (l_from (D H))]. Qed.

Lemma lays_ret (I : code -> Prop) A X (a : A) (x0 : X) (R : A -> X -> code -> Prop) : (forall c, I c -> R a x0 c) -> lays I (ret a) (fun _ l x => l = [] /\ x = x0) R.
Proof.
  intros H. split.
  - intros b p c lg r s' B Ic E. inversion E; subst. exists [], x0, b, c. cbn [flat flat_map found app]. rewrite app_nil_r. change (zlen (@nil Z)) with 0. rewrite Z.add_0_r. auto 6.
  - intros l x rest p c lg B Ic (-> & ->). exists a, c. cbn [flat flat_map found app]. rewrite app_nil_r. change (zlen (@nil Z)) with 0. rewrite Z.add_0_r. auto.
Qed.
Lemma lays_done (I : code -> Prop) A (a : A) (R : A -> unit -> code -> Prop) : (forall c, I c -> R a tt c) -> lays I (ret a) (sh nothing) R.
Proof. intros H. eapply lays_iff; [apply (lays_ret I A unit a tt R H)|]. intros d l []. unfold sh, nothing. intuition. Qed.
Lemma lays_bind (I : code -> Prop) A B X Y (m : M A) (k : A -> M B) L1 (R1 : A -> X -> code -> Prop) (L2 : X -> bool -> list item -> Y -> Prop) R2 :
  lays I m L1 R1 -> (forall a x, lays (R1 a x) (k a) (L2 x) R2) ->
  lays I (bind m k) (fun d l y => exists x l1 l2, l = l1 ++ l2 /\ L1 d l1 x /\ L2 x (d || faulty l1) l2 y) R2.
Proof.
  intros Dm Dk. split.
  - intros b p c lg r s' Bb Ic E. unfold bind in E. destruct (m (S_ b p c lg)) as [[a|e|q] s1] eqn:M1; pose proof (l_to Dm _ _ _ _ _ _ Bb Ic M1) as Y0; cbn beta iota in Y0.
    + destruct Y0 as (l & x & rest & c' & -> & H1 & -> & H2). pose proof (l_to (Dk a x) _ _ _ _ _ _ (okb_r _ _ Bb) H2 E) as Y1. destruct r as [v|e|q]; auto.
      destruct Y1 as (l2 & y & rest2 & c2 & -> & H3 & -> & H4). exists (l ++ l2), y, rest2, c2. rewrite flat_app, zlen_app, found_app, <- !app_assoc, Z.add_assoc.
      split; [reflexivity|]. split; [|split; [reflexivity|exact H4]]. exists x, l, l2. rewrite dirty_app in H3. auto.
    + contradiction.
    + inversion E; subst. exact Logic.I.
  - intros l y rest p c lg Bb Ic (x & l1 & l2 & -> & H1 & H2). rewrite flat_app, <- app_assoc in *.
    destruct (l_from Dm l1 x _ p c lg Bb Ic H1) as (a & c1 & E1 & Q1). unfold bind. rewrite E1.
    destruct (l_from (Dk a x) l2 y rest (p + zlen (flat l1)) c1 (lg ++ found p l1) (okb_r _ _ Bb) Q1) as (b & c2 & E2 & Q2); [now rewrite dirty_app|].
    exists b, c2. rewrite E2, zlen_app, found_app, <- app_assoc, Z.add_assoc. auto.
Qed.
Lemma lays_cat (I : code -> Prop) A B (m : M A) (k : A -> M B) P (R1 : A -> unit -> code -> Prop) Q R2 :
  lays I m (sh P) R1 -> (forall a, lays (R1 a tt) (k a) (sh Q) R2) -> lays I (bind m k) (sh (cat P Q)) R2.
Proof.
  intros Dm Dk. eapply lays_iff; [eapply (lays_bind I A B unit unit m k (sh P) R1 (fun _ => sh Q)); eauto; intros a []; apply Dk|].
  intros d l []. unfold sh, cat. split; [intros ([] & l1 & l2 & H); eauto|intros (l1 & l2 & H); exists tt; eauto].
Qed.
Lemma lays_along (I : code -> Prop) A B (m : M A) (k : A -> M B) (P : Z -> shape) (R1 : A -> Z -> code -> Prop) Q R2 :
  lays I m (shv P) R1 -> (forall a v, lays (R1 a v) (k a) (sh (Q v)) R2) -> lays I (bind m k) (sh (along P Q)) R2.
Proof.
  intros Dm Dk. eapply lays_iff; [eapply (lays_bind I A B Z unit m k (shv P) R1 (fun v => sh (Q v))); eauto|].
  intros d l []. unfold sh, shv, along. reflexivity.
Qed.
Lemma lays_last (I : code -> Prop) A B (m : M A) (k : A -> M B) P (R1 : A -> unit -> code -> Prop) R2 :
  lays I m (sh P) R1 -> (forall a, lays (R1 a tt) (k a) (sh nothing) R2) -> lays I (bind m k) (sh P) R2.
Proof.
  intros Dm Dk. eapply lays_iff; [eapply lays_cat; eauto|]. intros d l []. unfold sh, cat, nothing. split.
  - intros (a & b & -> & H & ->). now rewrite app_nil_r.
  - intros H. exists l, []. now rewrite app_nil_r.
Qed.
Lemma lays_first (I : code -> Prop) A B (m : M A) (k : A -> M B) P (R1 : A -> unit -> code -> Prop) R2 :
  lays I m (sh nothing) R1 -> (forall a, lays (R1 a tt) (k a) (sh P) R2) -> lays I (bind m k) (sh P) R2.
Proof.
  intros Dm Dk. eapply lays_iff; [eapply lays_cat; eauto|]. intros d l []. unfold sh, cat, nothing. split.
  - intros (a & b & -> & -> & H). exact H.
  - intros H. exists [], l. auto.
Qed.
(** forgetting the value *)
Lemma lays_some (I : code -> Prop) A (m : M A) (P : Z -> shape) (R : A -> Z -> code -> Prop) (R' : A -> unit -> code -> Prop) :
  lays I m (shv P) R -> (forall a v c, R a v c -> R' a tt c) -> lays I m (sh (fun l => exists v, P v l)) R'.
Proof.
  intros [T F] W. split.
  - intros b p c lg r s' B Ic E. pose proof (T _ _ _ _ _ _ B Ic E) as Y. destruct r; auto. destruct Y as (l & x & rest & c' & Y1 & Y2 & Y3 & Y4). exists l, tt, rest, c'. split; [auto|]. split; [exists x; exact Y2|]. eauto.
  - intros l [] rest p c lg B Ic (v & H). destruct (F l v rest p c lg B Ic H) as (a & c' & E & Q). eauto.
Qed.
Lemma lays_unwrap I A X (m : M A) L (R : A -> X -> code -> Prop) : lays I m L R -> lays I (unwrap m) L R.
Proof.
  intros D. split.
  - intros b p c lg r s' B Ic E. unfold unwrap in E. destruct (m (S_ b p c lg)) as [[a|e|q] s1] eqn:M1; inversion E; subst; exact (l_to D _ _ _ _ _ _ B Ic M1) || exact Logic.I.
  - intros l x rest p c lg B Ic H. destruct (l_from D l x rest p c lg B Ic H) as (a & c' & E & Q). exists a, c'. unfold unwrap. rewrite E. auto.
Qed.
Lemma lays_unwrap_mapped I A X (m : M A) L (R : A -> X -> code -> Prop) : lays I m L R -> lays I (unwrap_mapped m) L R.
Proof.
  intros D. split.
  - intros b p c lg r s' B Ic E. unfold unwrap_mapped in E. destruct (m (S_ b p c lg)) as [[a|e|q] s1] eqn:M1; inversion E; subst; exact (l_to D _ _ _ _ _ _ B Ic M1) || exact Logic.I.
  - intros l x rest p c lg B Ic H. destruct (l_from D l x rest p c lg B Ic H) as (a & c' & E & Q). exists a, c'. unfold unwrap_mapped. rewrite E. auto.
Qed.
Definition inOk {A X} (R : A -> X -> code -> Prop) : option A -> X -> code -> Prop := fun o x c => exists a, o = Some a /\ R a x c.
Lemma lays_ok_mapped I A X (m : M A) L (R : A -> X -> code -> Prop) : lays I m L R -> lays I (ok_mapped m) L (inOk R).
Proof.
  intros D. split.
  - intros b p c lg r s' B Ic E. unfold ok_mapped in E. destruct (m (S_ b p c lg)) as [[a|e|q] s1] eqn:M1; pose proof (l_to D _ _ _ _ _ _ B Ic M1) as Y; [|contradiction|inversion E; subst; exact Logic.I].
    inversion E; subst. destruct Y as (l & x & rest & c' & Y1 & Y2 & Y3 & Y4). exists l, x, rest, c'. unfold inOk. eauto 8.
  - intros l x rest p c lg B Ic H. destruct (l_from D l x rest p c lg B Ic H) as (a & c' & E & Q). exists (Some a), c'. unfold ok_mapped, inOk. rewrite E. eauto.
Qed.
Lemma lays_ok I A X (m : M A) L (R : A -> X -> code -> Prop) : lays I m L R -> lays I (ok m) L (inOk R).
Proof.
  intros D. split.
  - intros b p c lg r s' B Ic E. unfold ok in E. destruct (m (S_ b p c lg)) as [[a|e|q] s1] eqn:M1; pose proof (l_to D _ _ _ _ _ _ B Ic M1) as Y; [|contradiction|inversion E; subst; exact Logic.I].
    inversion E; subst. destruct Y as (l & x & rest & c' & Y1 & Y2 & Y3 & Y4). exists l, x, rest, c'. unfold inOk. eauto 8.
  - intros l x rest p c lg B Ic H. destruct (l_from D l x rest p c lg B Ic H) as (a & c' & E & Q). exists (Some a), c'. unfold ok, inOk. rewrite E. eauto.
Qed.
(** after [ok]: only the [Some] branch *)
Lemma lays_inOk {A X B Y} (R : A -> X -> code -> Prop) (k : option A -> M B) x (L : bool -> list item -> Y -> Prop) R2 :
  (forall a, lays (R a x) (k (Some a)) L R2) -> forall o, lays (inOk R o x) (k o) L R2.
Proof.
  intros D o. split.
  - intros b p c lg r s' Bb (a & -> & Ra). now apply (l_to (D a)).
  - intros l y rest p c lg Bb (a & -> & Ra). now apply (l_from (D a)).
Qed.
Lemma lays_get (I : code -> Prop) A X (k : code -> M A) L (R : A -> X -> code -> Prop) : (forall c0, lays (fun c => c = c0 /\ I c) (k c0) L R) -> lays I (bind get_code k) L R.
Proof.
  intros D. split.
  - intros b p c lg r s' B Ic E. exact (l_to (D c) b p c lg r s' B (conj eq_refl Ic) E).
  - intros l x rest p c lg B Ic H. exact (l_from (D c) l x rest p c lg B (conj eq_refl Ic) H).
Qed.
Lemma lays_put (I : code -> Prop) c0 (R : code -> Prop) : R c0 -> lays I (put_code c0) (sh nothing) (fun _ _ c => c = c0 /\ R c).
Proof.
  intros H. split.
  - intros b p c lg r s' B Ic E. rewrite put_S in E. injection E as <- <-. exists [], tt, b, c0. cbn [flat flat_map found app]. rewrite app_nil_r. change (zlen (@nil Z)) with 0. rewrite Z.add_0_r. unfold sh, nothing. auto 6.
  - intros l [] rest p c lg B Ic E. unfold sh, nothing in E. subst l. exists tt, c0. rewrite put_S. cbn [flat flat_map found app]. rewrite app_nil_r. change (zlen (@nil Z)) with 0. rewrite Z.add_0_r. auto.
Qed.
(** steps that do not touch the state *)
Lemma lays_val (I : code -> Prop) A B X (m : M A) (k : A -> M B) L (R : B -> X -> code -> Prop) a : (forall s, m s = (Ok a, s)) -> lays I (k a) L R -> lays I (bind m k) L R.
Proof. intros E D. eapply lays_eq; [|exact D]. intros s. unfold bind. now rewrite E. Qed.
Lemma lays_crash (I : code -> Prop) A X q (R : A -> X -> code -> Prop) : lays I (crash q) (fun _ _ _ => False) R.
Proof. split; [intros b p c lg r s' B Ic E; inversion E; subst; exact Logic.I|intros; contradiction]. Qed.
Lemma lays_bind_crash (I : code -> Prop) A B X q (k : A -> M B) (R : B -> X -> code -> Prop) : lays I (bind (crash q) k) (fun _ _ _ => False) R.
Proof. apply lays_eq with (m' := crash q); [reflexivity|apply lays_crash]. Qed.
Lemma lays_insert (I : code -> Prop) A (l : list A) i x (R : list A -> unit -> code -> Prop) : 0 <= i <= zlen l -> (forall l' c, zlen l' = zlen l + 1 -> I c -> R l' tt c) -> lays I (vec_insert l i x) (sh nothing) R.
Proof.
  intros H W. destruct (zinsert_some l i x H) as (l' & E). unfold vec_insert. rewrite E. cbn [expect]. apply lays_done. intros c Ic. apply W; auto. pose proof (zinsert_len _ _ _ _ E). lia.
Qed.

(** * Loops *)
Fixpoint reps (P : Z -> bool -> list item -> Prop) (n : nat) (i : Z) (d : bool) (l : list item) : Prop :=
  match n with O => l = [] | S n' => exists a b, l = a ++ b /\ P i d a /\ reps P n' (i + 1) (d || faulty a) b end.
Lemma lays_for A (body : Z -> A -> M A) P (J : Z -> A -> code -> Prop) :
  (forall i acc, lays (J i acc) (body i acc) (fun d l (_ : unit) => P i d l) (fun acc' _ c' => J (i + 1) acc' c')) ->
  forall n i acc, lays (J i acc) (for_loop n i body acc) (fun d l (_ : unit) => reps P n i d l) (fun acc' _ c' => J (i + Z.of_nat n) acc' c').
Proof.
  intros D. induction n as [|n IH]; intros i acc; cbn [for_loop reps].
  - eapply lays_iff; [apply (lays_ret _ _ unit acc tt)|]; [intros c H; now rewrite Z.add_0_r|]. intros d l []. intuition.
  - eapply lays_iff; [eapply (lays_bind _ _ _ unit unit _ _ _ _ (fun _ d l (_ : unit) => reps P n (i + 1) d l)); [apply D|]|].
    + intros acc' []. eapply lays_post; [apply IH|]. intros a x c H. now replace (i + Z.of_nat (S n)) with (i + 1 + Z.of_nat n) by lia.
    + intros d l []. split; [intros ([] & l1 & l2 & H); eauto|intros (l1 & l2 & H); exists tt; eauto].
Qed.
Lemma reps_times (P : shape) n : forall i d l, reps (fun _ _ => P) n i d l <-> times n P l.
Proof.
  induction n as [|n IH]; intros i d l; cbn [reps times]; [reflexivity|]. unfold cat. split; intros (a & b & -> & H1 & H2); exists a, b; (split; [auto|]; split; [auto|]); eapply IH; eauto.
Qed.
Lemma lays_range A (I : code -> Prop) (body : Z -> A -> M A) P (J : Z -> A -> code -> Prop) n acc : 0 <= n ->
  (forall i acc, lays (J i acc) (body i acc) (sh P) (fun acc' _ c' => J (i + 1) acc' c')) -> (forall c, I c -> J 0 acc c) ->
  lays I (for_range n body acc) (sh (rep n P)) (fun acc' _ c' => J n acc' c').
Proof.
  intros Hn D W. unfold for_range. eapply lays_conseq; [apply (lays_for A body (fun _ _ => P) J D (Z.to_nat n) 0 acc)|exact W| |].
  - intros d l []. unfold sh, rep. apply reps_times.
  - intros a x c H. now replace n with (0 + Z.of_nat (Z.to_nat n)) by lia.
Qed.
