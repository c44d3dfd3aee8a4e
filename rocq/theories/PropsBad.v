(** C83: references to strings and types that do not exist. *)
From Verif Require Import Prelude StdModel BrassTypes DecoderModel CodeModel FormatSpec ReaderSpec ErrSpec GrammarSpec.
From Verif Require Import CodeGenericProofs FormatProofs StringsProofs ReaderPost ErrProofs ErrExact GrammarDen GrammarCode BadSpec BadProofs BadHead.
From Coq Require Import Lia ZifyBool.

(** * The pieces are the grammar's *)
Lemma many_marks {A} (P : marked -> A -> Prop) (P' : list Z -> A -> Prop) :
  (forall q x, P' q x <-> exists l, text_of l = q /\ P l x) -> forall xs q, many P' q xs <-> exists l, text_of l = q /\ manym P l xs.
Proof.
  intros H xs. induction xs as [|x xs IH]; intros q; split.
  - intros M. inversion M; subst. exists []. split; [reflexivity|constructor].
  - intros (l & <- & M). inversion M; subst. constructor.
  - intros M. inversion M; subst. match goal with h : P' _ _ |- _ => apply H in h as (l1 & <- & H1) end. match goal with h : many _ _ _ |- _ => apply IH in h as (l2 & <- & H2) end.
    exists (l1 ++ l2). split; [apply text_app|now constructor].
  - intros (l & <- & M). inversion M; subst. rewrite text_app. constructor; [apply H|apply IH]; eauto.
Qed.
Lemma both_marks {A B} (P : marked -> A -> Prop) (Q : marked -> B -> Prop) P' Q' :
  (forall q x, P' q x <-> exists l, text_of l = q /\ P l x) -> (forall q x, Q' q x <-> exists l, text_of l = q /\ Q l x) ->
  forall q x, both P' Q' q x <-> exists l, text_of l = q /\ bothm P Q l x.
Proof.
  intros HP HQ q x. split.
  - intros (b1 & b2 & -> & H1 & H2). apply HP in H1 as (l1 & <- & H1). apply HQ in H2 as (l2 & <- & H2). exists (l1 ++ l2). split; [apply text_app|]. exists l1, l2. auto.
  - intros (l & <- & l1 & l2 & -> & H1 & H2). exists (text_of l1), (text_of l2). split; [apply text_app|]. split; [apply HP|apply HQ]; eauto.
Qed.
Lemma one_marks g q v : ix q v <-> exists l, text_of l = q /\ one g l v.
Proof. split; [intros V; exists [(g, q)]; split; [apply text_one|now exists q]|intros (l & <- & b & -> & V); now rewrite text_one]. Qed.
Lemma count_marks q v : uix q v <-> exists l, text_of l = q /\ count l v.
Proof. split; [intros V; exists [(Plain, q)]; split; [apply text_one|now exists q]|intros (l & <- & b & -> & V); now rewrite text_one]. Qed.
Lemma super_marks q v : super_ix q v <-> exists l, text_of l = q /\ super_mark l v.
Proof. split; [intros V; exists [(Plain, q)]; split; [apply text_one|now exists q]|intros (l & <- & b & -> & V); now rewrite text_one]. Qed.
Lemma case_marks q ts : (exists c1 c2, q = c1 ++ c2 /\ uix c1 (zlen ts) /\ many ix c2 ts) <->
  exists l, text_of l = q /\ exists l1 l2, l = l1 ++ l2 /\ count l1 (zlen ts) /\ manym (one Ref) l2 ts.
Proof.
  split.
  - intros (c1 & c2 & -> & H1 & H2). apply count_marks in H1 as (l1 & <- & H1). apply (many_marks _ _ (one_marks Ref)) in H2 as (l2 & <- & H2). exists (l1 ++ l2). split; [apply text_app|eauto].
  - intros (l & <- & l1 & l2 & -> & H1 & H2). exists (text_of l1), (text_of l2). split; [apply text_app|]. split; [apply count_marks; eauto|apply (many_marks _ _ (one_marks Ref)); eauto].
Qed.
Lemma text_kind k l : text_of (kind k ++ l) = k :: text_of l. Proof. reflexivity. Qed.
Lemma type_marks q t : spell_type q t <-> exists l, text_of l = q /\ mark_type l t.
Proof.
  destruct t as [k|m args r|st name sup g fs ps ds|fs|n|n g cs|k t]; cbn [spell_type mark_type].
  - split; [intros (-> & I); exists (kind k); auto|intros (l & <- & -> & I); auto].
  - split.
    + intros (a & b & -> & L & H1 & H2). apply (many_marks _ _ (one_marks Ref)) in H1 as (l1 & <- & H1). apply (one_marks Ref) in H2 as (l2 & <- & H2). eexists. split; [|exists l1, l2; split; [reflexivity|auto]].
      now rewrite !text_kind, text_app.
    + intros (l & <- & l1 & l2 & -> & L & H1 & H2). exists (text_of l1), (text_of l2). rewrite !text_kind, text_app. split; [auto|]. split; [auto|]. split; [apply (many_marks _ _ (one_marks Ref)); eauto|apply (one_marks Ref); eauto].
  - split.
    + intros (b1 & b2 & b3 & b4 & b5 & b6 & b7 & b8 & b9 & -> & H1 & H2 & H3 & H4 & H5 & H6 & H7 & H8 & H9).
      apply (one_marks Name) in H1 as (l1 & <- & H1). apply super_marks in H2 as (l2 & <- & H2). apply count_marks in H3 as (l3 & <- & H3). apply count_marks in H4 as (l4 & <- & H4). apply count_marks in H5 as (l5 & <- & H5). apply count_marks in H6 as (l6 & <- & H6).
      apply (many_marks _ _ (both_marks _ _ _ _ (one_marks Name) (one_marks Ref))) in H7 as (l7 & <- & H7).
      apply (many_marks _ _ (both_marks _ _ _ _ (both_marks _ _ _ _ (one_marks Name) count_marks) (one_marks Plain))) in H8 as (l8 & <- & H8).
      apply (many_marks _ _ (both_marks _ _ _ _ count_marks count_marks)) in H9 as (l9 & <- & H9).
      eexists. split; [|exists l1, l2, l3, l4, l5, l6, l7, l8, l9; split; [reflexivity|repeat split; auto]]. now rewrite text_kind, !text_app.
    + intros (l & <- & l1 & l2 & l3 & l4 & l5 & l6 & l7 & l8 & l9 & -> & H1 & H2 & H3 & H4 & H5 & H6 & H7 & H8 & H9).
      exists (text_of l1), (text_of l2), (text_of l3), (text_of l4), (text_of l5), (text_of l6), (text_of l7), (text_of l8), (text_of l9). rewrite text_kind, !text_app. split; [reflexivity|].
      split; [apply (one_marks Name); eauto|]. split; [apply super_marks; eauto|]. do 4 (split; [apply count_marks; eauto|]).
      split; [apply (many_marks _ _ (both_marks _ _ _ _ (one_marks Name) (one_marks Ref))); eauto|].
      split; [apply (many_marks _ _ (both_marks _ _ _ _ (both_marks _ _ _ _ (one_marks Name) count_marks) (one_marks Plain))); eauto|].
      apply (many_marks _ _ (both_marks _ _ _ _ count_marks count_marks)); eauto.
  - split.
    + intros (b1 & b2 & -> & H1 & H2). apply count_marks in H1 as (l1 & <- & H1). apply (many_marks _ _ (both_marks _ _ _ _ (one_marks Name) (one_marks Ref))) in H2 as (l2 & <- & H2).
      eexists. split; [|exists l1, l2; split; [reflexivity|auto]]. now rewrite text_kind, text_app.
    + intros (l & <- & l1 & l2 & -> & H1 & H2). exists (text_of l1), (text_of l2). rewrite text_kind, text_app. split; [auto|]. split; [apply count_marks; eauto|apply (many_marks _ _ (both_marks _ _ _ _ (one_marks Name) (one_marks Ref))); eauto].
  - split; [intros (b & -> & H); apply (one_marks Name) in H as (l & <- & H); eexists; split; [|exists l; split; [reflexivity|exact H]]; reflexivity|].
    intros (l & <- & l1 & -> & H). exists (text_of l1). split; [reflexivity|]. apply (one_marks Name); eauto.
  - split.
    + intros (b1 & b2 & b3 & b4 & -> & H1 & H2 & H3 & H4). apply (one_marks Name) in H1 as (l1 & <- & H1). apply count_marks in H2 as (l2 & <- & H2). apply count_marks in H3 as (l3 & <- & H3).
      apply (many_marks _ _ (both_marks _ _ _ _ (one_marks Name) case_marks)) in H4 as (l4 & <- & H4).
      eexists. split; [|exists l1, l2, l3, l4; split; [reflexivity|auto]]. now rewrite text_kind, !text_app.
    + intros (l & <- & l1 & l2 & l3 & l4 & -> & H1 & H2 & H3 & H4). exists (text_of l1), (text_of l2), (text_of l3), (text_of l4). rewrite text_kind, !text_app. split; [auto|].
      split; [apply (one_marks Name); eauto|]. split; [apply count_marks; eauto|]. split; [apply count_marks; eauto|]. apply (many_marks _ _ (both_marks _ _ _ _ (one_marks Name) case_marks)); eauto.
  - split; [intros (b & -> & I & H); apply (one_marks Ref) in H as (l & <- & H); eexists; split; [|exists l; split; [reflexivity|auto]]; reflexivity|].
    intros (l & <- & l1 & -> & I & H). exists (text_of l1). split; [reflexivity|]. split; [auto|]. apply (one_marks Ref); eauto.
Qed.
(** The marked pieces spell exactly what the grammar of GrammarSpec.v spells. *)
Theorem C83_marks q :
  (forall ats, many spell_type q ats <-> exists l, text_of l = q /\ manym mark_type l ats) /\
  (forall ks, many ix q ks <-> exists l, text_of l = q /\ manym (one Ref) l ks) /\
  (forall nl, many spell_native q nl <-> exists l, text_of l = q /\ manym mark_native l nl).
Proof.
  split; [|split]; intros xs; [apply (many_marks _ _ type_marks)|apply (many_marks _ _ (one_marks Ref))|].
  apply many_marks. unfold spell_native, mark_native. apply (both_marks _ _ _ _ (both_marks _ _ _ _ (both_marks _ _ _ _ (one_marks Name) (one_marks Name)) (one_marks Ref)) count_marks).
Qed.

(** * No faults: legal *)
Section legal.
Variable ns nt : Z.
Definition sound (l : marked) : Prop := Forall (fun x => forall v, index_value (snd x) = Some v -> fault ns nt (fst x) v = None) l.
Lemma faults_none l : forall p, faults ns nt p l = [] <-> sound l.
Proof.
  induction l as [|(g, b) l IH]; intros p; cbn [faults]; [split; [constructor|auto]|]. split.
  - intros E. apply app_eq_nil in E as (E1 & E2). constructor; [|now apply (IH (p + zlen b))]. intros v V. cbn [fst snd] in *. rewrite V in E1. destruct (fault ns nt g v); [discriminate|reflexivity].
  - intros S. inversion S as [|? ? S1 S2]; subst. rewrite (proj2 (IH _) S2), app_nil_r. cbn [fst snd] in S1. destruct (index_value b) as [v|]; [|reflexivity]. now rewrite (S1 v eq_refl).
Qed.
Lemma sound_app a b : sound (a ++ b) <-> sound a /\ sound b. Proof. apply Forall_app. Qed.
Lemma sound_plain b : sound [(Plain, b)] <-> True. Proof. split; [auto|]. intros _. constructor; [reflexivity|constructor]. Qed.
Lemma sound_one g l v : one g l v -> (sound l <-> fault ns nt g v = None).
Proof.
  intros (b & -> & V). split; [intros S; inversion S as [|? ? S1 _]; subst; apply S1, V|]. intros F. constructor; [|constructor]. intros w W. cbn [fst snd] in *. unfold ix in V. congruence.
Qed.
Lemma sound_name l v : one Name l v -> (sound l <-> 0 <= v < ns).
Proof. intros H. rewrite (sound_one _ _ _ H). cbn [fault]. destruct ((0 <=? v) && (v <? ns)) eqn:Q; split; intros; try discriminate; try reflexivity; lia. Qed.
Lemma sound_ref l v : one Ref l v -> (sound l <-> 0 <= v < nt).
Proof. intros H. rewrite (sound_one _ _ _ H). cbn [fault]. destruct ((0 <=? v) && (v <? nt)) eqn:Q; split; intros; try discriminate; try reflexivity; lia. Qed.
Lemma sound_count l v : count l v -> (sound l <-> True). Proof. intros (b & -> & _). apply sound_plain. Qed.
Lemma sound_super l v : super_mark l v -> (sound l <-> True). Proof. intros (b & -> & _). apply sound_plain. Qed.
Lemma sound_int l v : one Plain l v -> (sound l <-> True). Proof. intros (b & -> & _). apply sound_plain. Qed.
Lemma sound_kind k : sound (kind k) <-> True. Proof. apply sound_plain. Qed.
Lemma sound_many {A} (P : marked -> A -> Prop) (R : A -> Prop) l xs : (forall l x, P l x -> (sound l <-> R x)) -> manym P l xs -> (sound l <-> Forall R xs).
Proof.
  intros H. induction 1 as [|l ls x xs H1 M IH]; [split; constructor|]. rewrite sound_app, IH, (H _ _ H1). split; [intros (?, ?); now constructor|intros F; now inversion F].
Qed.
Lemma sound_both {A B} (P : marked -> A -> Prop) (Q : marked -> B -> Prop) (R : A -> Prop) (R' : B -> Prop) l x :
  (forall l x, P l x -> (sound l <-> R x)) -> (forall l x, Q l x -> (sound l <-> R' x)) -> bothm P Q l x -> (sound l <-> R (fst x) /\ R' (snd x)).
Proof. intros HP HQ (l1 & l2 & -> & H1 & H2). now rewrite sound_app, (HP _ _ H1), (HQ _ _ H2). Qed.
Definition nm_ok v := 0 <= v < ns.
Definition rf_ok v := 0 <= v < nt.
Lemma forall_both {A} (P Q : A -> Prop) l : Forall (fun x => P x /\ Q x) l <-> Forall P l /\ Forall Q l.
Proof. induction l as [|x l IH]; [split; [split; constructor|constructor]|]. rewrite !Forall_cons_iff, IH. tauto. Qed.
Lemma forall_mapped {A B} (f : A -> B) (P : B -> Prop) l : Forall P (map f l) <-> Forall (fun x => P (f x)) l.
Proof. apply Forall_map. Qed.
Lemma sound_fields l fs : manym (bothm (one Name) (one Ref)) l fs -> (sound l <-> Forall nm_ok (map fst fs) /\ Forall rf_ok (map snd fs)).
Proof. intros M. rewrite (sound_many _ _ _ _ (fun l x => sound_both _ _ nm_ok rf_ok l x sound_name sound_ref) M), forall_both, !forall_mapped. reflexivity. Qed.
Lemma sound_refs l ts : manym (one Ref) l ts -> (sound l <-> Forall rf_ok ts).
Proof. intros M. apply (sound_many _ _ _ _ sound_ref M). Qed.
Lemma forall_true {A} (P : A -> Prop) l : (forall x, P x) -> Forall P l. Proof. intros H. induction l; auto. Qed.
Lemma sound_type l t : mark_type l t -> (sound l <-> Forall nm_ok (names_of t) /\ Forall rf_ok (plain_refs t)).
Proof.
  destruct t as [k|m args r|st name sup g fs ps ds|fs|n|n g cs|k t]; cbn [mark_type names_of plain_refs refs_of].
  - intros (-> & _). rewrite sound_kind. split; [split; constructor|auto].
  - intros (a & b & -> & L & H1 & H2). rewrite !sound_app, !sound_kind, (sound_refs _ _ H1), (sound_ref _ _ H2), Forall_app. rewrite (Forall_cons_iff rf_ok r). fold (rf_ok r). assert (Forall nm_ok [] /\ Forall rf_ok []) by (split; constructor). tauto.
  - intros (l1 & l2 & l3 & l4 & l5 & l6 & l7 & l8 & l9 & -> & H1 & H2 & H3 & H4 & H5 & H6 & H7 & H8 & H9).
    rewrite !sound_app, sound_kind, (sound_name _ _ H1), (sound_super _ _ H2), (sound_count _ _ H3), (sound_count _ _ H4), (sound_count _ _ H5), (sound_count _ _ H6), (sound_fields _ _ H7).
    rewrite (sound_many _ _ _ _ (fun l x => sound_both _ _ _ _ l x (fun l x => sound_both _ _ nm_ok _ l x sound_name sound_count) sound_int) H8).
    rewrite (sound_many _ _ _ _ (fun l x => sound_both _ _ _ _ l x sound_count sound_count) H9).
    assert (X : Forall (fun _ : Z * Z => True /\ True) ds) by (apply forall_true; auto).
    assert (Y : Forall (fun x : Z * Z * Z => (nm_ok (fst (fst x)) /\ True) /\ True) ps <-> Forall nm_ok (map (fun p => fst (fst p)) ps)).
    { rewrite forall_mapped. split; intros F; (eapply Forall_impl; [|exact F]); cbv beta; tauto. }
    rewrite Y. assert (W : Forall nm_ok (name :: map fst fs ++ map (fun p : Z * Z * Z => fst (fst p)) ps) <-> nm_ok name /\ Forall nm_ok (map fst fs) /\ Forall nm_ok (map (fun p : Z * Z * Z => fst (fst p)) ps)).
    { rewrite Forall_cons_iff, Forall_app. reflexivity. }
    rewrite W. fold (nm_ok name). tauto.
  - intros (l1 & l2 & -> & H1 & H2). rewrite !sound_app, sound_kind, (sound_count _ _ H1), (sound_fields _ _ H2). tauto.
  - intros (l1 & -> & H). rewrite sound_app, sound_kind, (sound_name _ _ H). rewrite Forall_cons_iff. fold (nm_ok n). assert (Forall nm_ok [] /\ Forall rf_ok []) by (split; constructor). tauto.
  - intros (l1 & l2 & l3 & l4 & -> & H1 & H2 & H3 & H4). rewrite !sound_app, sound_kind, (sound_name _ _ H1), (sound_count _ _ H2), (sound_count _ _ H3).
    assert (C : forall l ts, (exists l1 l2, l = l1 ++ l2 /\ count l1 (zlen ts) /\ manym (one Ref) l2 ts) -> (sound l <-> Forall rf_ok ts)).
    { intros l ts (c1 & c2 & -> & G1 & G2). rewrite sound_app, (sound_count _ _ G1), (sound_refs _ _ G2). tauto. }
    rewrite (sound_many _ _ _ _ (fun l x => sound_both _ _ nm_ok (fun ts => Forall rf_ok ts) l x sound_name C) H4), forall_both, Forall_cons_iff, forall_mapped. fold (nm_ok n).
    assert (W : Forall rf_ok (flat_map snd cs) <-> Forall (fun x : Z * list Z => Forall rf_ok (snd x)) cs).
    { clear. induction cs as [|c cs IH]; cbn [flat_map]; [split; constructor|]. rewrite Forall_app, Forall_cons_iff, IH. reflexivity. }
    rewrite W. tauto.
  - intros (l1 & -> & I & H). rewrite sound_app, sound_kind, (sound_ref _ _ H), Forall_cons_iff. fold (rf_ok t). assert (Forall nm_ok [] /\ Forall rf_ok []) by (split; constructor). tauto.
Qed.
Lemma sound_types l ats : manym mark_type l ats -> forall i, supers_exist nt i ats -> (sound l <-> legal_types ns nt i ats).
Proof.
  induction 1 as [|l ls a ats H M IH]; intros i S; cbn [legal_types]; [split; [auto|constructor]|]. destruct S as (S1 & S2).
  rewrite sound_app, (sound_type _ _ H), (IH _ S2). unfold legal_type. fold nm_ok rf_ok. change (fun n : Z => 0 <= n < ns) with nm_ok. change (fun k : Z => 0 <= k < nt) with rf_ok. tauto.
Qed.
Lemma legal_supers ats : forall i, legal_types ns nt i ats -> supers_exist nt i ats.
Proof. induction ats as [|a ats IH]; intros i; cbn [legal_types supers_exist]; [auto|]. intros ((_ & _ & S) & R). split; auto. Qed.
End legal.
(** [faults] lists the references that keep the tables from being legal: none is left out. *)
Theorem C83_legal ns nt p l :
  (forall ats, manym mark_type l ats -> (legal_types ns nt 0 ats <-> supers_exist nt 0 ats /\ faults ns nt p l = [])) /\
  (forall ks, manym (one Ref) l ks -> (Forall (fun k => 0 <= k < nt) ks <-> faults ns nt p l = [])) /\
  (forall nl, manym mark_native l nl ->
     (Forall (fun n => let '(lib, name, t, fi) := n in 0 <= lib < ns /\ 0 <= name < ns /\ 0 <= t < nt) nl <-> faults ns nt p l = [])).
Proof.
  split; [|split]; intros xs M; rewrite faults_none.
  - split; [intros L; pose proof (legal_supers _ _ _ _ L); split; [auto|now apply (sound_types _ _ _ _ M 0)]|intros (S & F); now apply (sound_types _ _ _ _ M 0)].
  - rewrite (sound_refs _ _ _ _ M). reflexivity.
  - rewrite (sound_many _ _ _ _ _ _ (fun l x => sound_both _ _ _ _ _ _ l x (fun l x => sound_both _ _ _ _ (fun p => nm_ok ns (fst p) /\ nm_ok ns (snd p)) (rf_ok nt) l x (fun l x => sound_both _ _ _ _ (nm_ok ns) (nm_ok ns) l x (sound_name ns nt) (sound_name ns nt)) (sound_ref ns nt)) (sound_count ns nt)) M).
    split; intros F; (eapply Forall_impl; [|exact F]); intros [[[a b] c] d]; unfold nm_ok, rf_ok; cbn [fst snd]; tauto.
Qed.

(** * What the reader does *)
Lemma for_split {A} (body : Z -> A -> M A) a b : forall i acc s, for_loop (a + b) i body acc s = bind (for_loop a i body acc) (fun x => for_loop b (i + Z.of_nat a) body x) s.
Proof.
  induction a as [|a IH]; intros i acc s; cbn [Nat.add for_loop].
  - unfold bind, ret. now rewrite Z.add_0_r.
  - rewrite bind_assoc. apply bind_cong. intros x s'. rewrite IH. apply bind_cong. intros. now replace (i + 1 + Z.of_nat a) with (i + Z.of_nat (S a)) by lia.
Qed.
Lemma faults_kinds ns nt l : forall p, Forall (fun e => never_replaces (e_kind e) = false) (faults ns nt p l).
Proof.
  induction l as [|(g, b) l IH]; intros p; cbn [faults]; [constructor|]. apply Forall_app. split; [|apply IH]. destruct (index_value b) as [v|]; [|constructor].
  destruct (fault ns nt g v) as [k|] eqn:F; [|constructor]. constructor; [|constructor]. destruct g; cbn [fault] in F; [discriminate|..]; match type of F with (if ?c then _ else _) = _ => destruct c end; try discriminate; injection F as <-; reflexivity.
Qed.
Lemma kept_last_of l : Forall (fun e => never_replaces (e_kind e) = false) l -> kept None l = last_of l.
Proof.
  intros F. destruct l as [|e l] using rev_ind; [reflexivity|]. apply Forall_app in F as (_ & F). inversion F; subst. rewrite kept_last by auto. unfold last_of. rewrite map_app. cbn [map]. now rewrite last_last.
Qed.
Lemma kept_faults ns nt p l : kept None (faults ns nt p l) = last_of (faults ns nt p l). Proof. apply kept_last_of, faults_kinds. Qed.
Lemma last_some l : l <> [] -> exists e, last_of l = Some e.
Proof. destruct l as [|e l] using rev_ind; [congruence|]. intros _. exists e. unfold last_of. rewrite map_app. cbn [map]. now rewrite last_last. Qed.

Section reads.
Variables (head : list Z) (m : rmod) (ss fs : list str).
Hypothesis Hh : spell_head head m ss fs.
Let ns := rs_count (rm_strings m).
Let nt := zlen (rm_types m).
Hypothesis Ht : 0 < nt.

Lemma tables_run lt lg rest : manym mark_type lt (rm_types m) -> supers_exist nt 0 (rm_types m) -> manym (one Ref) lg (rm_globals m) ->
  let file := head ++ text_of (lt ++ lg) ++ rest in bytes file -> zlen file < 2 ^ 63 ->
  let p := zlen head + zlen (text_of (lt ++ lg)) in let l := faults ns nt (zlen head) (lt ++ lg) in
  exists c d, okc ns nt (zlen ss) (nt + nt) c /\ okc ns nt (zlen ss) (nt + nt) d /\ c_nnatives c = zlen (rm_natives m) /\
    0 <= ns <= I32_MAX /\ nt <= I32_MAX /\
    code_read (start None file) = match kept None l with Some e => (Err e, S_ rest p d l) | None =>
      (c <- read_natives c ;; c <- read_functions c ;; c <- read_constants c ;; get_code) (S_ rest p d l) end.
Proof.
  intros M S G file B L p l. destruct (head_run head m ss fs (text_of (lt ++ lg) ++ rest) Hh B L) as (c0 & d0 & R & Q1 & Q2 & Q3 & Q4 & Q5 & Q6 & N1 & N2). fold ns nt in Q1, Q2, Q6, N1, N2.
  subst file. rewrite R. clear R. apply bytes_tail in B. rewrite text_app, <- app_assoc in B |- *.
  set (c1 := set_types (zrepeat vt_default (c_ntypes c0)) c0).
  assert (K1 : okc ns nt (zlen ss) (nt + 0) c1).
  { unfold c1. repeat split; auto; cbn - [zlen]; try rewrite Q5; try lia. rewrite zlen_repeat; lia. }
  destruct (types_run ns nt (zlen ss) N1 (conj Ht N2) lt (rm_types m) M 0 c1 d0 (zlen head) [] (text_of lg ++ rest) S ltac:(lia) K1 B) as (c2 & K2 & G1 & G2 & R).
  fold nt in R, K2. replace (nt =? 0) with false in R by lia. cbn [app] in R. replace (nt + 0 + nt) with (nt + nt) in K2 by lia.
  assert (R1 : read_types c0 (S_ (text_of lt ++ text_of lg ++ rest) (zlen head) d0 []) = (Ok c2, S_ (text_of lg ++ rest) (zlen head + zlen (text_of lt)) c2 (faults ns nt (zlen head) lt))).
  { unfold read_types. change (fun (i : Z) (c : code) => _) with tbody. unfold for_range. rewrite Q2 at 1. unfold nt at 1. rewrite to_nat_zlen. exact R. }
  rewrite (bind_step _ _ _ _ _ R1). clear R R1. apply bytes_tail in B. change (c_nglobals c1) with (c_nglobals c0) in G1. change (c_nnatives c1) with (c_nnatives c0) in G2.
  set (c3 := set_globals (zrepeat vt_default (c_nglobals c2)) c2).
  assert (K3 : okc ns nt (zlen ss) (nt + nt) c3) by (destruct K2 as (A1 & A2 & A3 & A4 & A5 & A6); repeat split; auto).
  destruct (globals_run ns nt (zlen ss) (conj Ht N2) lg (rm_globals m) G 0 c3 c2 (zlen head + zlen (text_of lt)) (faults ns nt (zlen head) lt) rest (nt + nt)) as (c4 & d4 & K4 & Kd & G3 & R); auto.
  { change (c_globals c3) with (zrepeat vt_default (c_nglobals c2)). pose proof (zlen_nonneg (rm_globals m)). rewrite zlen_repeat by lia. lia. }
  exists c4, d4. split; [exact K4|]. split; [exact Kd|]. split; [rewrite G3; change (c_nnatives c3) with (c_nnatives c2); congruence|]. split; [exact N1|]. split; [exact N2|].
  unfold bind at 1. unfold read_globals. change (fun (i : Z) (c : code) => _) with gbody. unfold for_range. rewrite G1, Q3. rewrite to_nat_zlen.  rewrite <- Q3, <- G1. fold c3. rewrite (bind_step _ _ _ _ _ R).
  rewrite end_S. subst p l. rewrite faults_app, text_app, zlen_app, Z.add_assoc. destruct (kept None _); reflexivity.
Qed.

(** Type entries and globals that refer to strings or types that do not exist: the file is refused with
    the last such reference, and that is the error left, whatever comes after the globals. *)
Theorem C83_refs lt lg rest : manym mark_type lt (rm_types m) -> supers_exist nt 0 (rm_types m) -> manym (one Ref) lg (rm_globals m) ->
  let file := head ++ text_of (lt ++ lg) ++ rest in bytes file -> zlen file < 2 ^ 63 ->
  faults ns nt (zlen head) (lt ++ lg) <> [] ->
  exists e, last_of (faults ns nt (zlen head) (lt ++ lg)) = Some e /\ read_module None file = (Err e, Some e).
Proof.
  intros M S G file B L NE. destruct (tables_run lt lg rest M S G B L) as (c & d & _ & _ & _ & _ & _ & R). fold file in R. destruct (last_some _ NE) as (e & E). exists e. split; [exact E|].
  unfold read_module. rewrite R. rewrite kept_faults, E. cbn [errs S_]. now rewrite kept_faults, E.
Qed.
(** An object or struct whose super type index is not below the number of entries so far, counting the
    placeholders: the reader crashes; the last bad reference before it, if any, is left for the next call. *)
Theorem C83_super lt ats1 ats2 a st l1 name b k rest : rm_types m = ats1 ++ a :: ats2 -> manym mark_type lt ats1 -> supers_exist nt 0 ats1 ->
  one Name l1 name -> ix b k -> nt + zlen ats1 <= k ->
  let l := lt ++ kind (if st : bool then HSTRUCT else HOBJ) ++ l1 in
  let file := head ++ text_of l ++ b ++ rest in bytes file -> zlen file < 2 ^ 63 ->
  read_module None file = (Panic PUnwrap, last_of (faults ns nt (zlen head) l)).
Proof.
  intros E0 M S H1 V Hk l file B L. destruct (head_run head m ss fs (text_of l ++ b ++ rest) Hh B L) as (c0 & d0 & R & Q1 & Q2 & Q3 & Q4 & Q5 & Q6 & N1 & N2). fold ns nt in Q1, Q2, Q6, N1, N2.
  unfold read_module. subst file. rewrite R. clear R. apply bytes_tail in B. unfold l in B |- *. rewrite text_app, <- app_assoc in B |- *.
  set (lo := kind (if st then HSTRUCT else HOBJ) ++ l1) in *. set (c1 := set_types (zrepeat vt_default (c_ntypes c0)) c0).
  assert (K1 : okc ns nt (zlen ss) (nt + 0) c1).
  { unfold c1. repeat split; auto; cbn - [zlen]; try rewrite Q5; try lia. rewrite zlen_repeat; lia. }
  destruct (types_run ns nt (zlen ss) N1 (conj Ht N2) lt ats1 M 0 c1 d0 (zlen head) [] (text_of lo ++ b ++ rest) S ltac:(lia) K1 B) as (c2 & K2 & G1 & G2 & R).
  cbn [app] in R. replace (nt + 0 + zlen ats1) with (nt + zlen ats1) in K2 by lia. apply bytes_tail in B.
  destruct (read_type_crash ns nt (zlen ss) N1 (conj Ht N2) (nt + zlen ats1) lo (b ++ rest) c2 (zlen head + zlen (text_of lt)) (faults ns nt (zlen head) lt)) as (s & Rc & Es); auto.
  { exists st, l1, name, b, k. split; [reflexivity|]. split; [exact H1|]. split; [exact V|]. split; [exact Hk|]. eauto. }
  assert (W : read_types c0 (S_ (text_of lt ++ text_of lo ++ b ++ rest) (zlen head) d0 []) = (Panic PUnwrap, s)).
  { unfold read_types. change (fun (i : Z) (c : code) => _) with tbody. fold c1. unfold for_range. rewrite Q2. unfold nt. rewrite to_nat_zlen, E0, app_length.
    cbn [length]. rewrite for_split. rewrite (bind_step _ _ _ _ _ R). cbn [for_loop]. unfold bind at 1. unfold tbody at 1. unfold bind at 1. rewrite put_S. unfold bind at 1. now rewrite Rc. }
  unfold bind at 1. rewrite W. rewrite Es, <- faults_app. now rewrite kept_faults.
Qed.
(** The same for natives, in a module whose string table is complete. *)
Theorem C83_natives lt lg ln rest : manym mark_type lt (rm_types m) -> manym (one Ref) lg (rm_globals m) -> manym mark_native ln (rm_natives m) ->
  legal_types ns nt 0 (rm_types m) -> Forall (fun k => 0 <= k < nt) (rm_globals m) -> zlen ss = ns ->
  let file := head ++ text_of (lt ++ lg ++ ln) ++ rest in bytes file -> zlen file < 2 ^ 63 ->
  faults ns nt (zlen head) (lt ++ lg ++ ln) <> [] ->
  exists e, last_of (faults ns nt (zlen head) (lt ++ lg ++ ln)) = Some e /\ read_module None file = (Err e, Some e).
Proof.
  intros M G N F1 F2 Hs file B L NE. pose proof (proj1 (proj1 (C83_legal ns nt (zlen head) lt) _ M) F1) as (S & Z1). pose proof (proj1 (proj1 (proj2 (C83_legal ns nt (zlen head + zlen (text_of lt)) lg)) _ G) F2) as Z2.
  assert (Z0 : faults ns nt (zlen head) (lt ++ lg) = []) by (rewrite faults_app, Z1, Z2; reflexivity).
  assert (E : file = head ++ text_of (lt ++ lg) ++ text_of ln ++ rest) by (unfold file; rewrite (app_assoc lt), text_app, <- !app_assoc; reflexivity). rewrite E in B, L.
  destruct (tables_run lt lg (text_of ln ++ rest) M S G B L) as (c & d & Kc & Kd & Nn & N1 & N2 & R). rewrite Z0 in R. cbn [kept] in R. rewrite <- E in R.
  assert (Bn : bytes (text_of ln ++ rest)) by (do 2 apply bytes_tail in B; exact B). set (p := zlen head + zlen (text_of (lt ++ lg))) in *.
  assert (Fe : faults ns nt (zlen head) (lt ++ lg ++ ln) = faults ns nt p ln) by (rewrite app_assoc, faults_app, Z0; reflexivity). rewrite Fe in NE |- *.
  destruct (natives_run ns nt (zlen ss) N1 (conj Ht N2) ln (rm_natives m) Hs N 0 (set_natives [] c) d p [] rest (nt + nt)) as (c' & d' & _ & _ & R'); auto.
  destruct (last_some _ NE) as (e & Ee). exists e. split; [exact Ee|]. unfold read_module. rewrite R. unfold bind at 1. unfold read_natives. change (fun (i : Z) (c : code) => _) with nbody. unfold for_range.
  rewrite Nn, to_nat_zlen. rewrite (bind_step _ _ _ _ _ R'). rewrite end_S. cbn [app]. rewrite kept_faults, Ee. cbn [errs S_]. now rewrite kept_faults, Ee.
Qed.
End reads.
