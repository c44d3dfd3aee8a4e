(** The name cache and the type table. *)
From Verif Require Import Prelude StdModel BrassTypes DecoderModel CodeModel FormatSpec ReaderSpec ErrSpec GrammarSpec.
From Verif Require Import CodeGenericProofs FormatProofs Utf8Proofs StringsProofs ReaderPost ReaderTables ErrProofs GrammarDen GrammarTypes GrammarFuns GrammarStrings GrammarPhases GrammarPhases2.
From Coq Require Import Lia ZifyBool.
Ltac Zify.zify_post_hook ::= Z.div_mod_to_equations.

Lemma znth_map_seq {A} (f : nat -> A) n p : 0 <= p < Z.of_nat n -> znth (map f (seq 0 n)) p = Some (f (Z.to_nat p)).
Proof.
  intros H. rewrite (znth_nth _ _ (f 0%nat)) by (unfold zlen; rewrite map_length, seq_length; lia). rewrite map_nth, seq_nth by lia. reflexivity.
Qed.
Lemma cache_len ss n ins : 0 <= n -> zlen (cache_list ss n ins) = n + zlen ins.
Proof. intros H. unfold cache_list, zlen. rewrite map_length, seq_length. lia. Qed.
Lemma cache_nth ss n ins p : 0 <= n -> 0 <= p < n + zlen ins -> znth (cache_list ss n ins) p = Some (option_map (nm ss) (slot (zlen ss) ins p)).
Proof. intros Hn H. unfold cache_list. rewrite znth_map_seq by (unfold zlen in H; lia). rewrite Z2Nat.id by lia. reflexivity. Qed.
Lemma znth_ext {A} (l l' : list A) : zlen l = zlen l' -> (forall p, 0 <= p < zlen l -> znth l p = znth l' p) -> l = l'.
Proof.
  revert l'. induction l as [|x l IH]; intros [|y l'] L E; rewrite ?zlen_cons in L; try (change (zlen (@nil A)) with 0 in L).
  - reflexivity.
  - pose proof (zlen_nonneg l'). lia.
  - pose proof (zlen_nonneg l). lia.
  - pose proof (zlen_nonneg l). pose proof (E 0 ltac:(rewrite zlen_cons; lia)) as E0. cbn in E0. injection E0 as ->. f_equal. apply IH; [lia|]. intros p Hp.
    specialize (E (p + 1) ltac:(rewrite zlen_cons; lia)). cbn [znth] in E. destruct (Z.eqb_spec (p + 1) 0); [lia|]. now replace (p + 1 - 1) with p in E by lia.
Qed.
Lemma znth_none {A} (l : list A) p : zlen l <= p -> znth l p = None.
Proof. intros H. destruct (znth l p) eqn:E; [|reflexivity]. apply znth_some_range in E. lia. Qed.
Definition known (ss : list str) (m : Z) : option str := option_map (nm ss) (if m <? zlen ss then Some m else None).
Lemma cache_insert ss n ins m : 0 <= n -> 0 <= m <= n + zlen ins -> zinsert (cache_list ss n ins) m (known ss m) = Some (cache_list ss n (m :: ins)).
Proof.
  intros Hn Hm. destruct (zinsert_some (cache_list ss n ins) m (known ss m)) as (l & E); [now rewrite cache_len|]. rewrite E. f_equal.
  pose proof (zinsert_len _ _ _ _ E) as L. rewrite cache_len in L by auto. apply znth_ext; [rewrite L, cache_len, zlen_cons by auto; lia|].
  intros p Hp. rewrite L in Hp. rewrite (cache_nth ss n (m :: ins)) by (rewrite ?zlen_cons; lia). rewrite (znth_insert _ _ _ _ _ E) by lia. cbn [slot].
  destruct (Z.ltb_spec p m); [|destruct (Z.eqb_spec p m)].
  - apply cache_nth; lia.
  - reflexivity.
  - apply cache_nth; lia.
Qed.
Lemma slot_small have ins : forall p m, slot have ins p = Some m -> m < have.
Proof.
  induction ins as [|k ins IH]; intros p m H; cbn [slot] in H; [discriminate|]. destruct (p <? k); [eauto|]. destruct (p =? k); [|eauto].
  destruct (Z.ltb_spec k have); [injection H as <-; auto|discriminate].
Qed.
Lemma nm_known ss m : 0 <= m -> znth (c_strings (set_strings ss code_new)) m = known ss m.
Proof.
  intros H. cbn [c_strings set_strings]. unfold known. destruct (Z.ltb_spec m (zlen ss)).
  - rewrite (znth_nth _ _ ([] : str)) by lia. reflexivity.
  - apply znth_none. lia.
Qed.
(** what one lookup gives *)
Lemma get_ustring_slot ss n ins c m : 0 <= n -> 0 <= m < n -> c_strings c = ss -> c_ustrings c = cache_list ss n ins ->
  get_ustring c m = match slot (zlen ss) ins m with
    | Some k => Ok (nm ss k, c)
    | None => Ok (nm ss m, set_ustrings (cache_list ss n (m :: ins)) c)
    end.
Proof.
  intros Hn Hm Hs Hu. pose proof (zlen_nonneg ins). unfold get_ustring. rewrite Hu, cache_nth by lia. destruct (slot (zlen ss) ins m) as [k|] eqn:E; cbn [option_map]; [reflexivity|].
  pose proof (nm_known ss m ltac:(lia)) as K. cbn [c_strings set_strings] in K. rewrite Hs, K. unfold known in *. destruct (Z.ltb_spec m (zlen ss)); cbn [option_map] in *.
  - replace (Some (nm ss m)) with (known ss m) by (unfold known; destruct (Z.ltb_spec m (zlen ss)); [reflexivity|lia]). rewrite cache_insert by lia. reflexivity.
  - replace (@None str) with (known ss m) by (unfold known; destruct (Z.ltb_spec m (zlen ss)); [lia|reflexivity]). rewrite cache_insert by lia.
    unfold nm. rewrite nth_overflow; [reflexivity|]. unfold zlen in *. lia.
Qed.
Lemma namesR_resolve ss n l : 0 <= n -> forall ins c xs c', c_strings c = ss -> c_ustrings c = cache_list ss n ins ->
  (namesR n c l xs c' <-> Forall (fun k => 0 <= k < n) l /\ xs = map (nm ss) (fst (resolve (zlen ss) ins l)) /\ c' = set_ustrings (cache_list ss n (snd (resolve (zlen ss) ins l))) c).
Proof.
  intros Hn. induction l as [|m l IH]; intros ins c xs c' Hs Hu.
  - cbn. rewrite <- Hu, set_ustrings_id. split; [intros H; inversion H; subst; auto|intros (_ & -> & ->); constructor].
  - cbn [resolve]. assert (E : forall x c1, name1 n c m x c1 <-> 0 <= m < n /\ match slot (zlen ss) ins m with Some k => x = nm ss k /\ c1 = c | None => x = nm ss m /\ c1 = set_ustrings (cache_list ss n (m :: ins)) c end).
    { intros x c1. unfold name1. split; intros (R & H); (split; [auto|]); rewrite (get_ustring_slot ss n ins c m) in * by auto; destruct (slot (zlen ss) ins m); [injection H as <- <-; auto|injection H as <- <-; auto|destruct H as (-> & ->); auto|destruct H as (-> & ->); auto]. }
    split.
    + intros H. inversion H as [|c0 n0 x cx l0 xs0 c2 H1 H5]; subst. apply E in H1 as (R & H1). destruct (slot _ ins m) as [k|].
      * destruct H1 as (-> & ->). apply (IH ins) in H5; auto. destruct H5 as (F & -> & ->). destruct (resolve _ ins l) as [ms i2]. cbn [fst snd map]. auto.
      * destruct H1 as (-> & ->). apply (IH (m :: ins)) in H5; auto. destruct H5 as (F & -> & ->). destruct (resolve _ (m :: ins) l) as [ms i2]. cbn [fst snd map]. rewrite set_ustrings_twice. auto.
    + intros (F & -> & ->). inversion F as [|? ? Fm Fl]; subst. destruct (slot (zlen (c_strings c)) ins m) as [k|] eqn:S.
      * destruct (resolve _ ins l) as [ms i2] eqn:Er. cbn [fst snd map]. apply nr_cons with (c1 := c); [apply E; auto|]. apply (IH ins); auto. rewrite Er. auto.
      * destruct (resolve _ (m :: ins) l) as [ms i2] eqn:Er. cbn [fst snd map]. apply nr_cons with (c1 := set_ustrings (cache_list (c_strings c) n (m :: ins)) c); [apply E; auto|]. apply (IH (m :: ins)); auto. rewrite Er. cbn [fst snd]. rewrite set_ustrings_twice. auto.
Qed.

(** * The type table *)
Lemma ty_app ts n k : ty (ts ++ zrepeat vt_default n) k = ty ts k.
Proof.
  unfold ty. destruct (Nat.lt_ge_cases (Z.to_nat k) (length ts)).
  - now apply app_nth1.
  - rewrite app_nth2 by auto. rewrite (nth_overflow ts) by auto. unfold zrepeat. generalize (Z.to_nat k - length ts)%nat as i. generalize (Z.to_nat n) as q. induction q as [|q IH]; intros [|i]; cbn; auto.
Qed.
Lemma mean_type_app xs ts n a : mean_type xs (ts ++ zrepeat vt_default n) a = mean_type xs ts a.
Proof.
  assert (E : forall l, map (ty (ts ++ zrepeat vt_default n)) l = map (ty ts) l) by (intros; apply map_ext; intros; apply ty_app).
  assert (E2 : forall l, map (mean_field (ts ++ zrepeat vt_default n)) l = map (mean_field ts) l) by (intros; apply map_ext; intros; unfold mean_field; now rewrite ty_app).
  destruct a as [k|m args r|st nme sup g fs ps ds|fs|nme|nme g cs|k p]; cbn [mean_type]; rewrite ?E, ?E2, ?ty_app; auto.
  - destruct sup; rewrite ?ty_app; reflexivity.
  - do 2 f_equal. apply map_ext. intros q. now rewrite E.
Qed.
Lemma mean_types_snoc ss a : forall ats ins ts, mean_types ss ins ts (ats ++ [a]) =
  let '(ts', ins') := mean_types ss ins ts ats in let '(ms, ins2) := resolve (zlen ss) ins' (names_of a) in (ts' ++ [mean_type (map (nm ss) ms) ts' a], ins2).
Proof.
  induction ats as [|b ats IH]; intros ins ts; cbn [app mean_types].
  - destruct (resolve (zlen ss) ins (names_of a)). reflexivity.
  - destruct (resolve (zlen ss) ins (names_of b)). apply IH.
Qed.
Lemma mean_types_len ss : forall ats ins ts, zlen (fst (mean_types ss ins ts ats)) = zlen ts + zlen ats.
Proof.
  induction ats as [|b ats IH]; intros ins ts; cbn [mean_types]; [change (zlen (@nil atype)) with 0; cbn; lia|].
  destruct (resolve (zlen ss) ins (names_of b)). rewrite IH, zlen_app, !zlen_cons. change (zlen (@nil vtype)) with 0. lia.
Qed.
Lemma cache_list_nil ss n : cache_list ss n [] = zrepeat None n.
Proof. unfold cache_list, zrepeat. cbn [length slot option_map]. rewrite Nat.add_0_r. generalize (Z.to_nat n) as k. intros k. generalize 0%nat as i. induction k; intros i; cbn; [reflexivity|]. now rewrite IHk. Qed.

Definition mk_types (ss : list str) (ns nt : Z) (c : code) (ats : list atype) : code :=
  let '(ts, ins) := mean_types ss [] [] ats in set_ustrings (cache_list ss ns ins) (set_types (ts ++ zrepeat vt_default nt) c).
Lemma den_read_types ss c : c_strings c = ss -> let ns := c_nstrings c in let nt := c_ntypes c in c_ustrings c = zrepeat None ns -> 0 <= ns <= I32_MAX -> 0 <= nt <= I32_MAX ->
  den (fun _ => True) (read_types c) (fun d bs x' d' => exists ats, zlen ats = nt /\ many spell_type bs ats /\ legal_types ns nt 0 ats /\
    x' = mk_types ss ns nt c ats /\ d' = if nt <=? 0 then d else x').
Proof.
  intros Hss ns nt Hu Hns Hnt. unfold read_types. fold nt.
  set (mk := mk_types ss ns nt c).
  assert (M0 : set_types (zrepeat vt_default nt) c = mk []). { unfold mk, mk_types. cbn [mean_types app]. rewrite cache_list_nil, <- Hu. now destruct c. }
  rewrite M0.
  assert (Mk : forall pre, zlen (fst (mean_types ss [] [] pre)) = zlen pre) by (intros; rewrite mean_types_len; reflexivity).
  set (R := fun (j : Z) (x : code) bs x2 => exists a xs x1 T, spell_type bs a /\ namesR ns x (names_of a) xs x1 /\ refs_in nt (plain_refs a) /\ super_in (c_types x) a /\
     zinsert (c_types x1) j (mean_type xs (c_types x) a) = Some T /\ x2 = set_types T x1).
  set (Q := fun (pre : list atype) bs a => spell_type bs a /\ legal_type ns nt (zlen pre) a).
  eapply den_iff; [apply (den_sync atype (fun _ => True) R mk Q)|]; auto.
  - intros j x. keeps2.
  - intros pre. set (x := mk pre). set (j := zlen pre).
    assert (Bx : base (c_types x) nt ns x). { split; [reflexivity|]. unfold x, mk, mk_types. destruct (mean_types ss [] [] pre). split; reflexivity. }
    assert (Lx : nt <= zlen (c_types x)). { unfold x, mk, mk_types. pose proof (Mk pre) as L. destruct (mean_types ss [] [] pre) as [ts ins]. cbn [c_types set_ustrings set_types fst] in *. rewrite zlen_app, L. unfold zrepeat, zlen at 2. rewrite repeat_length. pose proof (zlen_nonneg pre). lia. }
    eapply den_iff; [apply den_putc with (G := gbind (gtype (c_types x) nt ns) (fun t d bs x2 d' => bs = [] /\ d' = x2 /\ exists T, zinsert (c_types d) j t = Some T /\ x2 = set_types T d))|].
    + apply den_bind with (J := fun _ _ => True); [eapply den_weaken; [apply (den_read_type (c_types x) nt ns Lx ltac:(lia) ltac:(lia))|intros d ->; exact Bx]|auto|].
      intros t. eapply den_iff; [apply den_get_code; intros c0; eapply den_seq; [apply den_expect|intros d bs a d' (_ & _ & ->); reflexivity|]; intros T; apply (den_bind _ _ _ (fun _ _ => True)); [apply den_put_code|auto|intros u; apply den_get]|].
      intros d bs x2 d' _. unfold gcode. split.
      * intros (b1 & b2 & T & c1 & -> & (-> & Zi & ->) & (b3 & b4 & u & c2 & -> & (-> & ->) & (-> & -> & ->))). eauto 6.
      * intros (-> & -> & T & Zi & ->). eapply gb_nil; [split; [reflexivity|split; [exact Zi|reflexivity]]|]. apply gb_nil with (a := tt) (c1 := set_types T d); auto.
    + intros d bs x2 d' _. unfold gsync, R. split.
      * intros (b1 & b2 & t & c1 & -> & (a & xs & Sp & N & Rf & Su & ->) & (-> & -> & T & Zi & ->)). rewrite app_nil_r. split; [auto|]. exists a, xs, c1, T. auto 8.
      * intros (-> & a & xs & x1 & T & Sp & N & Rf & Su & Zi & ->). eapply gb_last; [exists a, xs; split; [exact Sp|split; [exact N|split; [exact Rf|split; [exact Su|reflexivity]]]]|]. eauto 6.
  - intros pre bs x2. unfold R, Q, mk, mk_types.
    pose proof (Mk pre) as L. destruct (mean_types ss [] [] pre) as [ts ins] eqn:Em. cbn [fst] in L. cbn [c_types set_ustrings set_types].
    set (x := set_ustrings (cache_list ss ns ins) (set_types (ts ++ zrepeat vt_default nt) c)).
    assert (NR : forall a xs x1, namesR ns x (names_of a) xs x1 <-> Forall (fun k => 0 <= k < ns) (names_of a) /\ xs = map (nm ss) (fst (resolve (zlen ss) ins (names_of a))) /\ x1 = set_ustrings (cache_list ss ns (snd (resolve (zlen ss) ins (names_of a)))) x)
      by (intros; apply namesR_resolve; [lia|exact Hss|reflexivity]).
    assert (SU : forall a, super_in (ts ++ zrepeat vt_default nt) a <-> match a with AObj _ _ (Some k) _ _ _ _ => k < nt + zlen pre | _ => True end).
    { intros a. unfold super_in. rewrite zlen_app, L. unfold zrepeat at 1. unfold zlen at 2. rewrite repeat_length, Z2Nat.id by lia. destruct a as [| |? ? [k|]| | | |]; try tauto. lia. }
    split.
    + intros (a & xs & x1 & T & Sp & N & Rf & Su & Zi & ->). apply NR in N as (F & -> & ->). apply SU in Su. exists a. split; [split; [auto|split; auto]|].
      cbn [c_types set_ustrings] in Zi. unfold x in Zi. cbn [c_types set_ustrings set_types] in Zi. apply zinsert_here in Zi; [|exact L]. subst T.
      rewrite mean_types_snoc, Em. destruct (resolve (zlen ss) ins (names_of a)) as [ms i2]. cbn [fst snd]. rewrite mean_type_app. reflexivity.
    + intros (a & (Sp & F & Rf & Su) & ->). rewrite mean_types_snoc, Em. destruct (resolve (zlen ss) ins (names_of a)) as [ms i2] eqn:Er.
      exists a. do 3 eexists. split; [exact Sp|]. split; [apply NR; rewrite Er; cbn [fst snd]; split; [exact F|split; reflexivity]|]. split; [exact Rf|]. split; [apply SU; exact Su|]. split.
      * apply zinsert_here; [exact L|]. rewrite mean_type_app. reflexivity.
      * reflexivity.
  - intros d bs x' d' _. rewrite Z.max_r by lia.
    assert (SM : forall pre bs fs, seqs Q pre bs fs <-> many spell_type bs fs /\ legal_types ns nt (zlen pre) fs).
    { intros pre bs0 fs. split.
      - induction 1 as [pre|pre b f bs0 fs (H1 & H2) S (IH1 & IH2)]; [split; [constructor|exact I]|]. split; [now constructor|]. split; [auto|]. rewrite zlen_app in IH2. exact IH2.
      - intros (M & Lg). revert pre Lg. induction M as [|b bs0 f fs H M IH]; intros pre Lg; [constructor|]. destruct Lg as (L1 & L2). constructor; [split; auto|]. apply IH. rewrite zlen_app. exact L2. }
    split.
    + intros (fs & L & S & -> & ->). apply SM in S as (M & Lg). eauto 8.
    + intros (fs & L & M & Lg & -> & ->). exists fs. split; [auto|]. split; [apply SM; auto|auto].
Qed.
