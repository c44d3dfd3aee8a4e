(** Exact runs of the reader on spelled types, globals and natives with references out of range (C83). *)
From Verif Require Import Prelude StdModel BrassTypes DecoderModel CodeModel FormatSpec ReaderSpec ErrSpec GrammarSpec BadSpec.
From Verif Require Import CodeGenericProofs FormatProofs StringsProofs ReaderPost ErrProofs ErrExact GrammarDen BadSpec.
From Verif Require GrammarNames.
From Coq Require Import Lia ZifyBool.

Lemma text_app a b : text_of (a ++ b) = text_of a ++ text_of b.
Proof. unfold text_of. now rewrite flat_map_app. Qed.
Lemma text_one g b : text_of [(g, b)] = b.
Proof. cbn. now rewrite app_nil_r. Qed.
Lemma faults_app ns nt a : forall b p, faults ns nt p (a ++ b) = faults ns nt p a ++ faults ns nt (p + zlen (text_of a)) b.
Proof.
  induction a as [|(g, x) a IH]; intros b p; [cbn; now rewrite Z.add_0_r|]. cbn [app faults]. rewrite IH, <- app_assoc.
  change (text_of ((g, x) :: a)) with (x ++ text_of a). now rewrite zlen_app, Z.add_assoc.
Qed.

Section bad.
Variable ns nt h : Z.
Hypothesis Hns : 0 <= ns <= I32_MAX.
Hypothesis Hnt : 0 < nt <= I32_MAX.

(** a code that announces [ns] strings and [nt] types, has [h] strings and a type table of [T] entries *)
Definition okc (T : Z) (c : code) : Prop :=
  c_nstrings c = ns /\ c_ntypes c = nt /\ zlen (c_types c) = T /\ nt <= T /\ ns <= zlen (c_ustrings c) /\ zlen (c_strings c) = h.
Lemma okc_u T u c : okc T c -> ns <= zlen u -> okc T (set_ustrings u c).
Proof. intros (A & B & C & D & E & F) H. repeat split; auto. Qed.

Definition runs {A} (T : Z) (m : M A) (l : marked) (Q : A -> Prop) : Prop :=
  forall c p lg rest, okc T c -> bytes (text_of l ++ rest) ->
  exists a u, m (S_ (text_of l ++ rest) p c lg) = (Ok a, S_ rest (p + zlen (text_of l)) (set_ustrings u c) (lg ++ faults ns nt p l)) /\
    ns <= zlen u /\ Q a.

Lemma u_same c : set_ustrings (c_ustrings c) c = c. Proof. now destruct c. Qed.
Lemma runs_ret {A} T (a : A) (Q : A -> Prop) : Q a -> runs T (ret a) [] Q.
Proof.
  intros H c p lg rest K B. exists a, (c_ustrings c). cbn [text_of flat_map app faults] in *. rewrite u_same, app_nil_r. change (zlen (@nil Z)) with 0. rewrite Z.add_0_r.
  split; [reflexivity|]. split; [apply K|exact H].
Qed.
Lemma runs_weak {A} T (m : M A) l (Q Q' : A -> Prop) : runs T m l Q -> (forall a, Q a -> Q' a) -> runs T m l Q'.
Proof. intros R H c p lg rest K B. destruct (R c p lg rest K B) as (a & u & E & U & q). exists a, u. auto. Qed.
Lemma runs_bind {A B} T (m : M A) (k : A -> M B) l1 l2 Q Q' : runs T m l1 Q -> (forall a, Q a -> runs T (k a) l2 Q') -> runs T (bind m k) (l1 ++ l2) Q'.
Proof.
  intros R1 R2 c p lg rest K By. rewrite text_app, <- app_assoc in *.
  destruct (R1 c p lg (text_of l2 ++ rest) K By) as (a & u & E & U & q). rewrite (bind_step _ _ _ _ _ E).
  destruct (R2 a q (set_ustrings u c) (p + zlen (text_of l1)) (lg ++ faults ns nt p l1) rest) as (b & u' & E' & U' & q'); [now apply okc_u|now apply bytes_tail in By|].
  exists b, u'. rewrite E', zlen_app, faults_app, <- app_assoc, Z.add_assoc. auto.
Qed.
(** the last step *)
Lemma runs_bind_r {A B} T (m : M A) (k : A -> M B) l Q Q' : runs T m l Q -> (forall a, Q a -> runs T (k a) [] Q') -> runs T (bind m k) l Q'.
Proof. intros R1 R2. rewrite <- (app_nil_r l). eapply runs_bind; eauto. Qed.
Lemma runs_pure {A B} T (m : M A) (k : A -> M B) l Q' a : (forall s, m s = (Ok a, s)) -> runs T (k a) l Q' -> runs T (bind m k) l Q'.
Proof. intros E R c p lg rest K By. rewrite (bind_step _ _ _ _ _ (E _)). now apply R. Qed.
Lemma runs_code {B} T (k : code -> M B) l Q' : (forall c, okc T c -> runs T (k c) l Q') -> runs T (bind get_code k) l Q'.
Proof. intros R c p lg rest K By. change (bind get_code k (S_ (text_of l ++ rest) p c lg)) with (k c (S_ (text_of l ++ rest) p c lg)). now apply R. Qed.
Lemma runs_unwrap {A} T (m : M A) l Q : runs T m l Q -> runs T (unwrap m) l Q.
Proof. intros R c p lg rest K By. destruct (R c p lg rest K By) as (a & u & E & H). exists a, u. unfold unwrap. rewrite E. exact (conj eq_refl H). Qed.
Lemma runs_unwrap_mapped {A} T (m : M A) l Q : runs T m l Q -> runs T (unwrap_mapped m) l Q.
Proof. intros R c p lg rest K By. destruct (R c p lg rest K By) as (a & u & E & H). exists a, u. unfold unwrap_mapped. rewrite E. exact (conj eq_refl H). Qed.

Lemma faults_one p g b v : index_value b = Some v ->
  faults ns nt p [(g, b)] = match fault ns nt g v with Some k => [err k (p + zlen b)] | None => [] end.
Proof. intros V. cbn [faults]. rewrite V, app_nil_r. now destruct (fault ns nt g v). Qed.
Lemma runs_INDEX T l v : one Plain l v -> runs T INDEX l (fun a => a = v).
Proof.
  intros (b & -> & V) c p lg rest K By. unfold ix in V. rewrite (faults_one _ _ _ v) by exact V. cbn [fault]. rewrite text_one in *.
  exists v, (c_ustrings c). rewrite (INDEX_S b rest v) by auto. rewrite u_same, app_nil_r. split; [reflexivity|]. split; [apply K|reflexivity].
Qed.
Lemma runs_super T l sup : super_mark l sup -> runs T INDEX l (fun k => sup = if k <? 0 then None else Some k).
Proof. intros (b & -> & k & V & ->). eapply runs_weak; [apply runs_INDEX; exact (ex_intro _ b (conj eq_refl V))|]. now intros a ->. Qed.
Lemma runs_UINDEX T l v : count l v -> runs T UINDEX l (fun a => a = v).
Proof.
  intros (b & -> & V & N) c p lg rest K By. rewrite (faults_one _ _ _ v) by exact V. cbn [fault]. rewrite text_one in *.
  exists v, (c_ustrings c). rewrite (UINDEX_S b rest v) by auto. rewrite u_same. destruct (Z.ltb_spec v 0); [lia|]. rewrite Z.max_r by lia. split; [reflexivity|]. split; [apply K|reflexivity].
Qed.
Lemma runs_kind T k : runs T decode_u8 (kind k) (fun a => a = k).
Proof.
  intros c p lg rest K By. unfold kind in *. rewrite text_one in *. exists k, (c_ustrings c). cbn [app]. rewrite u8_S, u_same. change (zlen [k]) with 1.
  replace (faults ns nt p [(Plain, [k])]) with (@nil derr) by (cbn [faults]; destruct (index_value [k]); reflexivity). rewrite app_nil_r. split; [reflexivity|]. split; [apply K|reflexivity].
Qed.
Lemma name_test v : (v <? 0) || (ns <=? v) = match fault ns nt Name v with Some _ => true | None => false end.
Proof. cbn [fault]. destruct ((0 <=? v) && (v <? ns)) eqn:Q; lia. Qed.
Lemma ref_test v : (v <? 0) || (nt <=? v) = match fault ns nt Ref v with Some _ => true | None => false end.
Proof. cbn [fault]. destruct ((0 <=? v) && (v <? nt)) eqn:Q; lia. Qed.
Lemma get_ustring_some c v : 0 <= v < zlen (c_ustrings c) -> exists a u, get_ustring c v = Ok (a, set_ustrings u c) /\ zlen (c_ustrings c) <= zlen u.
Proof.
  intros H. unfold get_ustring. destruct (znth (c_ustrings c) v) as [[s|]|] eqn:E.
  - exists s, (c_ustrings c). rewrite u_same. split; [reflexivity|lia].
  - destruct (zinsert_some (c_ustrings c) v (match znth (c_strings c) v with Some r => Some r | None => None end) ltac:(lia)) as (u & I). pose proof (zinsert_len _ _ _ _ I).
    destruct (znth (c_strings c) v) as [r|]; rewrite I; eexists _, u; (split; [reflexivity|lia]).
  - exfalso. rewrite (znth_nth _ _ None) in E by lia. discriminate.
Qed.
Lemma runs_ustring T l v : one Name l v -> runs T read_ustring l (fun _ => True).
Proof.
  intros (b & -> & V) c p lg rest K By. unfold ix in V. rewrite (faults_one _ _ _ v) by exact V. rewrite text_one in *. destruct K as (K1 & K2 & K3 & K4 & K5 & K6).
  unfold read_ustring. unfold bind at 1, unwrap. rewrite (INDEX_S b rest v) by auto. unfold bind at 1, get_code at 1. cbn [d_code S_]. unfold bind at 1. rewrite K1.
  rewrite to_i32_ok by lia. rewrite name_test. destruct (fault ns nt Name v) as [k|] eqn:F.
  - assert (k = InvalidStringIndex) as -> by (cbn [fault] in F; destruct ((0 <=? v) && (v <? ns)); congruence).
    unfold bind at 1, get_pos. unfold bind. unfold with_info. cbn [d_pos S_]. rewrite (record_S (err InvalidStringIndex (p + zlen b))) by reflexivity.
    exists [], (c_ustrings c). rewrite u_same. auto.
  - assert (R : 0 <= v < ns) by (cbn [fault] in F; destruct ((0 <=? v) && (v <? ns)) eqn:Q; [lia|discriminate]).
    destruct (get_ustring_some c v ltac:(lia)) as (a & u & G & L). exists a, u. unfold bind at 1, lift. rewrite G. rewrite app_nil_r. split; [reflexivity|]. split; [lia|auto].
Qed.
Lemma runs_type T l v : one Ref l v -> runs T get_type l (fun _ => True).
Proof.
  intros (b & -> & V) c p lg rest K By. unfold ix in V. rewrite (faults_one _ _ _ v) by exact V. rewrite text_one in *. destruct K as (K1 & K2 & K3 & K4 & K5 & K6).
  destruct (get_type_S b rest v p c lg By V ltac:(lia) ltac:(lia)) as (t & E). exists t, (c_ustrings c). rewrite E, u_same. unfold badr1. rewrite V, K2, ref_test.
  destruct (fault ns nt Ref v) as [k|] eqn:F; [|auto]. assert (k = InvalidTypeIndex) as -> by (cbn [fault] in F; destruct ((0 <=? v) && (v <? nt)); congruence). auto.
Qed.
Lemma runs_string T l v : h = ns -> one Name l v -> runs T read_string l (fun _ => True).
Proof.
  intros Hh (b & -> & V) c p lg rest K By. unfold ix in V. rewrite (faults_one _ _ _ v) by exact V. rewrite text_one in *. destruct K as (K1 & K2 & K3 & K4 & K5 & K6).
  unfold read_string. unfold bind at 1, unwrap_mapped. rewrite (INDEX_S b rest v) by auto. unfold bind at 1, get_code at 1. cbn [d_code S_]. unfold bind at 1. rewrite K1.
  rewrite to_i32_ok by lia. rewrite name_test. destruct (fault ns nt Name v) as [k|] eqn:F.
  - assert (k = InvalidStringIndex) as -> by (cbn [fault] in F; destruct ((0 <=? v) && (v <? ns)); congruence).
    unfold bind at 1, get_pos. unfold bind. unfold with_info. cbn [d_pos S_]. rewrite (record_S (err InvalidStringIndex (p + zlen b))) by reflexivity.
    exists [], (c_ustrings c). rewrite u_same. auto.
  - assert (R : 0 <= v < ns) by (cbn [fault] in F; destruct ((0 <=? v) && (v <? ns)) eqn:Q; [lia|discriminate]).
    rewrite (znth_nth (c_strings c) v []) by lia. exists (nth (Z.to_nat v) (c_strings c) []), (c_ustrings c). rewrite u_same, app_nil_r. auto.
Qed.
Lemma runs_insert {A} T (l : list A) i x : 0 <= i <= zlen l -> runs T (vec_insert l i x) [] (fun l' => zlen l' = zlen l + 1).
Proof.
  intros H. destruct (zinsert_some l i x H) as (l' & E). unfold vec_insert. rewrite E. apply runs_ret. pose proof (zinsert_len _ _ _ _ E). lia.
Qed.
Lemma runs_for {A X} T (body : Z -> A -> M A) (P : marked -> X -> Prop) (Inv : Z -> A -> Prop) :
  (forall i acc l x, 0 <= i -> P l x -> Inv i acc -> runs T (body i acc) l (Inv (i + 1))) ->
  forall l xs, manym P l xs -> forall i acc, 0 <= i -> Inv i acc -> runs T (for_loop (length xs) i body acc) l (Inv (i + zlen xs)).
Proof.
  intros Hb. induction 1 as [|l ls x xs H M IH]; intros i acc Hi I; cbn [length for_loop].
  - apply runs_ret. change (zlen (@nil X)) with 0. now rewrite Z.add_0_r.
  - eapply runs_bind; [eapply Hb; eauto|]. intros acc' I'. eapply runs_weak; [apply IH; [lia|exact I']|]. intros a. rewrite zlen_cons. now replace (i + 1 + zlen xs) with (i + (1 + zlen xs)) by lia.
Qed.
Lemma runs_range {A X} T (body : Z -> list A -> M (list A)) (P : marked -> X -> Prop) l xs f :
  (forall i acc l x, 0 <= i -> P l x -> zlen acc = f * i -> runs T (body i acc) l (fun r => zlen r = f * (i + 1))) ->
  manym P l xs -> runs T (for_range (zlen xs) body []) l (fun _ => True).
Proof.
  intros Hb M. unfold for_range. replace (Z.to_nat (zlen xs)) with (length xs) by (unfold zlen; lia).
  eapply runs_weak; [eapply (runs_for T body P (fun i acc => zlen acc = f * i)); eauto; [lia|change (zlen (@nil A)) with 0; lia]|auto].
Qed.
Ltac rstep := eapply runs_bind; [apply runs_unwrap|intros].
Lemma runs_fields T l fs : manym (bothm (one Name) (one Ref)) l fs -> runs T (read_fields (zlen fs)) l (fun _ => True).
Proof.
  intros M. apply (runs_range T _ _ _ _ 1) with (2 := M). intros i acc l' x Hi (l1 & l2 & -> & H1 & H2) L.
  eapply runs_bind; [apply runs_unwrap, (runs_ustring _ _ _ H1)|intros name _]. eapply runs_bind_r; [apply runs_unwrap, (runs_type _ _ _ H2)|intros t _].
  eapply runs_weak; [apply runs_insert; lia|]. intros; cbv beta in *; lia.
Qed.
Lemma runs_refs T l ts : manym (one Ref) l ts -> runs T (read_type_refs (zlen ts)) l (fun _ => True).
Proof.
  intros M. apply (runs_range T _ _ _ _ 1) with (2 := M). intros i acc l' x Hi H L.
  eapply runs_bind_r; [apply runs_unwrap, (runs_type _ _ _ H)|intros t _]. eapply runs_weak; [apply runs_insert; lia|]. intros; cbv beta in *; lia.
Qed.
Lemma runs_protos T l ps : manym (bothm (bothm (one Name) count) (one Plain)) l ps -> runs T (read_protos (zlen ps)) l (fun _ => True).
Proof.
  intros M. apply (runs_range T _ _ _ _ 1) with (2 := M). intros i acc l' x Hi (l12 & l3 & -> & (l1 & l2 & -> & H1 & H2) & H3) L. rewrite <- app_assoc.
  eapply runs_bind; [apply runs_unwrap, (runs_ustring _ _ _ H1)|intros name _]. eapply runs_bind; [apply runs_unwrap, (runs_UINDEX _ _ _ H2)|intros f _].
  eapply runs_bind_r; [apply runs_unwrap, (runs_INDEX _ _ _ H3)|intros q _]. eapply runs_weak; [apply runs_insert; lia|]. intros; cbv beta in *; lia.
Qed.
Lemma runs_bindings T l ds : manym (bothm count count) l ds -> runs T (read_bindings (zlen ds)) l (fun _ => True).
Proof.
  intros M. apply (runs_range T _ _ _ _ 2) with (2 := M). intros i acc l' x Hi (l1 & l2 & -> & H1 & H2) L.
  eapply runs_bind; [apply runs_unwrap, (runs_UINDEX _ _ _ H1)|intros a _]. rewrite <- (app_nil_l l2). eapply runs_bind; [apply runs_insert; lia|intros acc1 L1]. cbv beta in L1.
  eapply runs_bind_r; [apply runs_unwrap, (runs_UINDEX _ _ _ H2)|intros b _]. eapply runs_weak; [apply runs_insert; lia|]. intros; cbv beta in *; lia.
Qed.
Lemma runs_constructs T l cs : manym (bothm (one Name) (fun l ts => exists l1 l2, l = l1 ++ l2 /\ count l1 (zlen ts) /\ manym (one Ref) l2 ts)) l cs ->
  runs T (read_constructs (zlen cs)) l (fun _ => True).
Proof.
  intros M. apply (runs_range T _ _ _ _ 1) with (2 := M). intros i acc l' x Hi (l1 & l23 & -> & H1 & (l2 & l3 & -> & H2 & H3)) L.
  eapply runs_bind; [apply runs_unwrap, (runs_ustring _ _ _ H1)|intros name _]. eapply runs_bind; [apply runs_unwrap, (runs_UINDEX _ _ _ H2)|intros n ->].
  eapply runs_bind_r; [apply (runs_refs _ _ _ H3)|intros ps _]. eapply runs_weak; [apply runs_insert; lia|]. intros; cbv beta in *; lia.
Qed.

Definition super_ok (T : Z) (a : atype) : Prop := match a with AObj _ _ (Some k) _ _ _ _ => k < T | _ => True end.
Lemma runs_read_type T l a : mark_type l a -> super_ok T a -> runs T read_type l (fun _ => True).
Proof.
  intros H S. unfold read_type. destruct a as [k|m args r|st name sup g fs ps ds|fs|n|n g cs|k t]; cbn [mark_type super_ok] in H, S.
  - destruct H as (-> & I). eapply runs_bind_r; [apply runs_unwrap, runs_kind|intros v ->].
    unfold prim_kinds in I. cbn [In] in I. repeat (destruct I as [<-|I]; [apply runs_ret; exact Logic.I|]). destruct I.
  - destruct H as (a & b & -> & La & M & R). eapply runs_bind; [apply runs_unwrap, runs_kind|intros v ->].
    replace (HLAST <=? (if m then HMETHOD else HFUN)) with false by now destruct m. replace (((if m then HMETHOD else HFUN) =? HFUN) || ((if m then HMETHOD else HFUN) =? HMETHOD)) with true by now destruct m.
    eapply runs_bind; [apply runs_unwrap, runs_kind|intros n ->]. eapply runs_bind; [apply (runs_refs _ _ _ M)|intros ts _].
    eapply runs_bind_r; [apply runs_unwrap, (runs_type _ _ _ R)|intros t _]. apply runs_ret. exact I.
  - destruct H as (l1 & l2 & l3 & l4 & l5 & l6 & l7 & l8 & l9 & -> & H1 & H2 & H3 & H4 & H5 & H6 & H7 & H8 & H9).
    eapply runs_bind; [apply runs_unwrap, runs_kind|intros v ->].
    replace (HLAST <=? (if st then HSTRUCT else HOBJ)) with false by now destruct st. replace (((if st then HSTRUCT else HOBJ) =? HFUN) || ((if st then HSTRUCT else HOBJ) =? HMETHOD)) with false by now destruct st.
    replace (((if st then HSTRUCT else HOBJ) =? HOBJ) || ((if st then HSTRUCT else HOBJ) =? HSTRUCT)) with true by now destruct st.
    eapply runs_bind; [apply runs_unwrap, (runs_ustring _ _ _ H1)|intros nm _]. eapply runs_bind; [apply runs_unwrap, (runs_super _ _ _ H2)|intros k Ek]. cbv beta in Ek.
    apply runs_code. intros c (K1 & K2 & K3 & K4 & K5 & K6).
    assert (E : exists t, forall s : DecoderModel.st, (if k <? 0 then ret vt_default else expect PUnwrap (znth (c_types c) k)) s = (Ok t, s)).
    { destruct (k <? 0) eqn:Q; [eexists; reflexivity|]. subst sup. rewrite (znth_nth _ _ vt_default) by lia. eexists; reflexivity. }
    destruct E as (t & E). eapply runs_pure; [exact E|].
    eapply runs_bind; [apply runs_unwrap, (runs_UINDEX _ _ _ H3)|intros ? ->]. eapply runs_bind; [apply runs_unwrap, (runs_UINDEX _ _ _ H4)|intros ? ->].
    eapply runs_bind; [apply runs_unwrap, (runs_UINDEX _ _ _ H5)|intros ? ->]. eapply runs_bind; [apply runs_unwrap, (runs_UINDEX _ _ _ H6)|intros ? ->].
    eapply runs_bind; [apply (runs_fields _ _ _ H7)|intros ? _]. eapply runs_bind; [apply (runs_protos _ _ _ H8)|intros ? _].
    eapply runs_bind_r; [apply (runs_bindings _ _ _ H9)|intros ? _]. apply runs_ret. exact I.
  - destruct H as (l1 & l2 & -> & H1 & H2). eapply runs_bind; [apply runs_unwrap, runs_kind|intros v ->].
    change (HLAST <=? HVIRTUAL) with false. change ((HVIRTUAL =? HFUN) || (HVIRTUAL =? HMETHOD)) with false. change ((HVIRTUAL =? HOBJ) || (HVIRTUAL =? HSTRUCT)) with false. change (HVIRTUAL =? HREF) with false. rewrite Z.eqb_refl.
    eapply runs_bind; [apply runs_unwrap, (runs_UINDEX _ _ _ H1)|intros ? ->]. eapply runs_bind_r; [apply (runs_fields _ _ _ H2)|intros ? _]. apply runs_ret. exact I.
  - destruct H as (l1 & -> & H1). eapply runs_bind; [apply runs_unwrap, runs_kind|intros v ->].
    change (HLAST <=? HABSTRACT) with false. change ((HABSTRACT =? HFUN) || (HABSTRACT =? HMETHOD)) with false. change ((HABSTRACT =? HOBJ) || (HABSTRACT =? HSTRUCT)) with false. change (HABSTRACT =? HREF) with false. change (HABSTRACT =? HVIRTUAL) with false. rewrite Z.eqb_refl.
    eapply runs_bind_r; [apply runs_unwrap, (runs_ustring _ _ _ H1)|intros ? _]. apply runs_ret. exact I.
  - destruct H as (l1 & l2 & l3 & l4 & -> & H1 & H2 & H3 & H4). eapply runs_bind; [apply runs_unwrap, runs_kind|intros v ->].
    change (HLAST <=? HENUM) with false. change ((HENUM =? HFUN) || (HENUM =? HMETHOD)) with false. change ((HENUM =? HOBJ) || (HENUM =? HSTRUCT)) with false. change (HENUM =? HREF) with false. change (HENUM =? HVIRTUAL) with false. change (HENUM =? HABSTRACT) with false. rewrite Z.eqb_refl.
    eapply runs_bind; [apply runs_unwrap, (runs_ustring _ _ _ H1)|intros ? _]. eapply runs_bind; [apply runs_unwrap, (runs_UINDEX _ _ _ H2)|intros ? ->].
    eapply runs_bind; [apply runs_unwrap, (runs_UINDEX _ _ _ H3)|intros ? ->]. eapply runs_bind_r; [apply (runs_constructs _ _ _ H4)|intros ? _]. apply runs_ret. exact I.
  - destruct H as (l1 & -> & I & H1). eapply runs_bind; [apply runs_unwrap, runs_kind|intros v ->].
    unfold param_kinds in I. cbn [In] in I. repeat (destruct I as [<-|I]; [eapply runs_bind_r; [apply runs_unwrap, (runs_type _ _ _ H1)|intros ? _]; apply runs_ret; exact Logic.I|]). destruct I.
Qed.

(** * The type table *)
Definition okl (T : Z) (c : code) := okc T c.
Lemma types_run l ats : manym mark_type l ats -> forall i c d p lg rest, supers_exist nt i ats -> 0 <= i -> okc (nt + i) c -> bytes (text_of l ++ rest) ->
  exists c', okc (nt + i + zlen ats) c' /\ c_nglobals c' = c_nglobals c /\ c_nnatives c' = c_nnatives c /\
   for_loop (length ats) i tbody c (S_ (text_of l ++ rest) p d lg) =
   (Ok c', S_ rest (p + zlen (text_of l)) (if zlen ats =? 0 then d else c') (lg ++ faults ns nt p l)).
Proof.
  induction 1 as [|l ls a ats H M IH]; intros i c d p lg rest S Hi K By.
  - exists c. change (zlen (@nil atype)) with 0. rewrite Z.add_0_r. split; [auto|]. split; [auto|]. split; [auto|]. cbn [length for_loop text_of flat_map app faults]. rewrite app_nil_r. change (zlen (@nil Z)) with 0. rewrite Z.add_0_r. reflexivity.
  - destruct S as (S1 & S2). rewrite text_app, <- app_assoc in *.
    destruct (runs_read_type (nt + i) l a H S1 c p lg (text_of ls ++ rest) K By) as (t & u & E & U & _).
    set (c1 := set_ustrings u c) in *. assert (K1 : okc (nt + i) c1) by now apply okc_u.
    destruct K1 as (A1 & A2 & A3 & A4 & A5 & A6). destruct (zinsert_some (c_types c1) i t ltac:(lia)) as (ts & Ts). pose proof (zinsert_len _ _ _ _ Ts) as Lt.
    assert (Sb : tbody i c (S_ (text_of l ++ text_of ls ++ rest) p d lg) = (Ok (set_types ts c1), S_ (text_of ls ++ rest) (p + zlen (text_of l)) (set_types ts c1) (lg ++ faults ns nt p l))).
    { unfold tbody. unfold bind at 1. rewrite put_S. unfold bind at 1. rewrite E. unfold bind at 1, get_code at 1. cbn [d_code S_]. unfold bind at 1, vec_insert. rewrite Ts. reflexivity. }
    cbn [length for_loop]. rewrite (bind_step _ _ _ _ _ Sb).
    destruct (IH (i + 1) (set_types ts c1) (set_types ts c1) (p + zlen (text_of l)) (lg ++ faults ns nt p l) rest S2) as (c' & K' & G1 & G2 & R); [lia| |now apply bytes_tail in By|].
    { repeat split; auto; cbn; lia. }
    exists c'. rewrite zlen_cons. split; [now replace (nt + i + (1 + zlen ats)) with (nt + (i + 1) + zlen ats) by lia|]. split; [rewrite G1; reflexivity|]. split; [rewrite G2; reflexivity|].
    rewrite R, zlen_app, faults_app, <- app_assoc, Z.add_assoc. pose proof (zlen_nonneg ats). replace (1 + zlen ats =? 0) with false by lia. destruct (Z.eqb_spec (zlen ats) 0); [|reflexivity].
    destruct ats; [|rewrite zlen_cons in *; pose proof (zlen_nonneg ats); lia]. cbn in R. injection R as <-. reflexivity.
Qed.
(** an object entry whose super type does not exist yet *)
Definition bad_object (l : marked) (rest : list Z) (T : Z) : Prop :=
  exists st l1 name b k, l = kind (if st : bool then HSTRUCT else HOBJ) ++ l1 /\ one Name l1 name /\ ix b k /\ T <= k /\ exists after, rest = b ++ after.
Lemma read_type_crash T l rest c p lg : bad_object l rest T -> okc T c -> bytes (text_of l ++ rest) ->
  exists s, read_type (S_ (text_of l ++ rest) p c lg) = (Panic PUnwrap, s) /\ errs s = kept None (lg ++ faults ns nt p l).
Proof.
  intros (st & l1 & name & b & k & -> & H1 & V & Hk & af & ->) K By. unfold read_type.
  rewrite text_app, <- app_assoc in By |- *.
  destruct (runs_unwrap T _ _ _ (runs_kind T (if st then HSTRUCT else HOBJ)) c p lg (text_of l1 ++ b ++ af) K By) as (v & u & E & U & ->). rewrite (bind_step _ _ _ _ _ E). clear E.
  replace (HLAST <=? (if st then HSTRUCT else HOBJ)) with false by now destruct st. replace (((if st then HSTRUCT else HOBJ) =? HFUN) || ((if st then HSTRUCT else HOBJ) =? HMETHOD)) with false by now destruct st.
  replace (((if st then HSTRUCT else HOBJ) =? HOBJ) || ((if st then HSTRUCT else HOBJ) =? HSTRUCT)) with true by now destruct st.
  apply bytes_tail in By. set (kk := kind _) in *.
  destruct (runs_unwrap T _ _ _ (runs_ustring T l1 name H1) (set_ustrings u c) (p + zlen (text_of kk)) (lg ++ faults ns nt p kk) (b ++ af) (okc_u _ _ _ K U) By) as (nm & u2 & E & U2 & _). rewrite (bind_step _ _ _ _ _ E). clear E.
  apply bytes_tail in By. unfold bind at 1, unwrap. rewrite (INDEX_S b af k) by auto. unfold bind at 1, get_code at 1. cbn [d_code S_].
  destruct K as (K1 & K2 & K3 & K4 & K5 & K6). destruct (Z.ltb_spec k 0); [lia|]. unfold bind at 1. change (c_types (set_ustrings u2 (set_ustrings u c))) with (c_types c).
  assert (N : znth (c_types c) k = None) by (apply GrammarNames.znth_none; lia).
  rewrite N. cbn [expect]. eexists. split; [reflexivity|]. cbn [errs S_]. now rewrite faults_app, <- app_assoc.
Qed.
Lemma globals_run l ks : manym (one Ref) l ks -> forall i c d p lg rest T, 0 <= i <= zlen (c_globals c) -> okc T c -> (okc T d \/ 0 < zlen ks) -> bytes (text_of l ++ rest) ->
  exists c' d', okc T c' /\ okc T d' /\ c_nnatives c' = c_nnatives c /\
   for_loop (length ks) i gbody c (S_ (text_of l ++ rest) p d lg) = (Ok c', S_ rest (p + zlen (text_of l)) d' (lg ++ faults ns nt p l)).
Proof.
  induction 1 as [|l ls k ks H M IH]; intros i c d p lg rest T Hi K Kd By.
  - exists c, d. destruct Kd as [Kd|Kd]; [|change (zlen (@nil Z)) with 0 in Kd; lia]. split; [auto|]. split; [auto|]. split; [auto|]. cbn [length for_loop text_of flat_map app faults]. rewrite app_nil_r. change (zlen (@nil Z)) with 0. rewrite Z.add_0_r. reflexivity.
  - rewrite text_app, <- app_assoc in *.
    destruct (runs_type T l k H c p lg (text_of ls ++ rest) K By) as (t & u & E & U & _).
    set (c1 := set_ustrings u c) in *. assert (K1 : okc T c1) by now apply okc_u.
    destruct (zinsert_some (c_globals c1) i t Hi) as (gs & Gs). pose proof (zinsert_len _ _ _ _ Gs) as Lg. assert (K2 : okc T (set_globals gs c1)) by (destruct K1 as (A1 & A2 & A3 & A4 & A5 & A6); repeat split; auto).
    assert (Sb : gbody i c (S_ (text_of l ++ text_of ls ++ rest) p d lg) = (Ok (set_globals gs c1), S_ (text_of ls ++ rest) (p + zlen (text_of l)) (set_globals gs c1) (lg ++ faults ns nt p l))).
    { unfold gbody. unfold bind at 1. rewrite put_S. unfold bind at 1, ok_mapped. rewrite E. unfold bind at 1. unfold bind at 1, get_code at 1. cbn [d_code S_]. unfold bind at 1, vec_insert. rewrite Gs. reflexivity. }
    cbn [length for_loop]. rewrite (bind_step _ _ _ _ _ Sb).
    destruct (IH (i + 1) (set_globals gs c1) (set_globals gs c1) (p + zlen (text_of l)) (lg ++ faults ns nt p l) rest T) as (c' & d' & K' & Kd' & G & R); auto; [|now apply bytes_tail in By|].
    { change (c_globals (set_globals gs c1)) with gs. change (c_globals c1) with (c_globals c) in Lg. lia. }
    exists c', d'. split; [auto|]. split; [auto|]. split; [rewrite G; reflexivity|]. rewrite R, zlen_app, faults_app, <- app_assoc, Z.add_assoc. reflexivity.
Qed.
Definition nbody (_ : Z) (c : code) : M code :=
  lib <- unwrap_mapped read_string ;; name <- unwrap_mapped read_string ;; t <- unwrap_mapped get_type ;; findex <- unwrap_mapped UINDEX ;;
  let c := set_natives (c_natives c ++ [{| n_lib := lib; n_name := name; n_t := t; n_findex := findex |}]) c in put_code c ;;; ret c.
Lemma natives_run l nl : h = ns -> manym mark_native l nl -> forall i c d p lg rest T, okc T c -> okc T d -> bytes (text_of l ++ rest) ->
  exists c' d', okc T c' /\ okc T d' /\
   for_loop (length nl) i nbody c (S_ (text_of l ++ rest) p d lg) = (Ok c', S_ rest (p + zlen (text_of l)) d' (lg ++ faults ns nt p l)).
Proof.
  intros Hh. induction 1 as [|l ls n nl H M IH]; intros i c d p lg rest T K Kd By.
  - exists c, d. split; [auto|]. split; [auto|]. cbn [length for_loop text_of flat_map app faults]. rewrite app_nil_r. change (zlen (@nil Z)) with 0. rewrite Z.add_0_r. reflexivity.
  - rewrite text_app, <- app_assoc in *. destruct H as (l123 & l4 & -> & (l12 & l3 & -> & (l1 & l2 & -> & H1 & H2) & H3) & H4). rewrite <- !(app_assoc (A := mark * list Z)) in *.
    assert (R : runs T (lib <- unwrap_mapped read_string ;; name <- unwrap_mapped read_string ;; t <- unwrap_mapped get_type ;; findex <- unwrap_mapped UINDEX ;;
      ret {| n_lib := lib; n_name := name; n_t := t; n_findex := findex |}) (l1 ++ l2 ++ l3 ++ l4) (fun _ => True)).
    { eapply runs_bind; [apply runs_unwrap_mapped, (runs_string _ _ _ Hh H1)|intros lib _]. eapply runs_bind; [apply runs_unwrap_mapped, (runs_string _ _ _ Hh H2)|intros nm _].
      eapply runs_bind; [apply runs_unwrap_mapped, (runs_type _ _ _ H3)|intros t _]. eapply runs_bind_r; [apply runs_unwrap_mapped, (runs_UINDEX _ _ _ H4)|intros f _]. now apply runs_ret. }
    destruct (R d p lg (text_of ls ++ rest) Kd By) as (x & u & E & U & _). set (la := l1 ++ l2 ++ l3 ++ l4) in *.
    assert (Sb : nbody i c (S_ (text_of la ++ text_of ls ++ rest) p d lg) = (Ok (set_natives (c_natives c ++ [x]) c), S_ (text_of ls ++ rest) (p + zlen (text_of la)) (set_natives (c_natives c ++ [x]) c) (lg ++ faults ns nt p la))).
    { unfold nbody. revert E. unfold bind. destruct (unwrap_mapped read_string _) as [[lib|?|?] s1]; [|discriminate..]. destruct (unwrap_mapped read_string s1) as [[nm|?|?] s2]; [|discriminate..].
      destruct (unwrap_mapped get_type s2) as [[t|?|?] s3]; [|discriminate..]. destruct (unwrap_mapped UINDEX s3) as [[f|?|?] s4]; [|discriminate..]. unfold ret. intros E.
      assert (E1 : x = {| n_lib := lib; n_name := nm; n_t := t; n_findex := f |}) by congruence. assert (E2 : s4 = S_ (text_of ls ++ rest) (p + zlen (text_of la)) (set_ustrings u d) (lg ++ faults ns nt p la)) by congruence. clear E. subst x s4. reflexivity. }
    cbn [length for_loop]. rewrite (bind_step _ _ _ _ _ Sb).
    destruct (IH (i + 1) (set_natives (c_natives c ++ [x]) c) (set_natives (c_natives c ++ [x]) c) (p + zlen (text_of la)) (lg ++ faults ns nt p la) rest T) as (c' & d' & K' & Kd' & R'); [..|now apply bytes_tail in By|].
    1,2: destruct K as (A1 & A2 & A3 & A4 & A5 & A6); repeat split; auto.
    exists c', d'. split; [auto|]. split; [auto|]. replace (l1 ++ l2 ++ l3 ++ l4 ++ ls) with (la ++ ls) by (unfold la; now rewrite <- !app_assoc). rewrite R', zlen_app, faults_app, <- app_assoc, Z.add_assoc. reflexivity.
Qed.
End bad.
