(** Theorem C88: how many types are compared when a module is hashed for hot reload.  Model: HashCostModel.v (HashModel.v, counting
    the types compared with [==]).  Vocabulary: HashCostSpec.v, [values] of PropsSize.v. *)
From Verif Require Import Prelude StdModel BrassTypes DecoderModel CodeModel FormatSpec ReaderSpec AcceptSpec HashSpec GrammarSpec HashCostSpec.
From Verif Require Import CodeGenericProofs FormatProofs StringsProofs ReaderSizes TypesProofs PropsReader PropsModule PropsGrammar PropsSize PropsHash HashProofs.
From Verif Require HashModel.
From Verif Require Import HashCostModel HashCostProofs HashCostAlloc HashCostFlat.
From Coq Require Import Lia ZifyBool.
Ltac Zify.zify_post_hook ::= Z.div_mod_to_equations.

(** * C88 *)
(** Counting changes nothing. *)
Theorem C88_counts : (forall c, fst (alloc c) = HashModel.alloc c) /\ (forall ch, fst (finalize ch) = HashModel.finalize ch) /\
  (forall ch f, fst (hash_fun ch f) = HashModel.hash_fun ch f) /\ (forall ch f, fst (hash_fun_sign ch f) = HashModel.hash_fun_sign ch f) /\
  (forall ch n, fst (hash_native ch n) = HashModel.hash_native ch n).
Proof. repeat split; intros; [apply f_alloc|apply f_finalize|apply f_hash_fun|apply f_fun_sign|apply f_native]. Qed.
(** Comparing two types finds out whether they are equal; it costs as much as the type owns if they are, and otherwise at least one comparison
    and no more than either owns. *)
Theorem C88_compare a b : (fst (vt_eqc a b) = true <-> a = b) /\ (a = b -> snd (vt_eqc a b) = values a) /\
  1 <= snd (vt_eqc a b) <= Z.min (values a) (values b).
Proof. split; [rewrite vt_eqc_ok; apply vt_eqb_eq|]. split; [intros <-; apply vt_eqc_same|apply vt_eqc_min]. Qed.
(** The exact number: the types in what the two have in common before their first difference ([flat]: what a type consists of, in the order of
    comparison). *)
Theorem C88_compare_exact a b : 
  (forall l x y, flat a = l ++ x -> flat b = l ++ y -> hd_error x <> hd_error y -> snd (vt_eqc a b) = types_in l) /\
  (a <> b -> exists l i x j y, flat a = l ++ i :: x /\ flat b = l ++ j :: y /\ i <> j) /\ types_in (flat a) = values a.
Proof. split; [intros; eapply compare_prefix; eauto|]. split; [apply flat_differ|apply flat_values]. Qed.
(** Looking a type up in a table compares the entries in order up to the first that is equal. *)
Theorem C88_lookup hs t : 
  (forall pre post, ~ In t pre -> snd (hash_at (pre ++ t :: post) hs t) = total (fun x => snd (vt_eqc x t)) pre + values t) /\
  (forall table, ~ In t table -> snd (hash_at table hs t) = total (fun x => snd (vt_eqc x t)) table).
Proof.
  assert (S : forall ts, snd (hash_at ts hs t) = search compare_cost ts t).
  { intros ts. unfold hash_at. rewrite s_bind, f_position, s_position. rewrite s_bind. cbn [need free snd fst]. destruct (HashModel.need _ _); lia. }
  split.
  - intros pre post. rewrite S. induction pre as [|x pre IH]; intros N; cbn [app search].
    + destruct (vt_eq_dec t t); [|congruence]. change (total (fun x => snd (vt_eqc x t)) []) with 0. unfold compare_cost. rewrite vt_eqc_same. lia.
    + change (total (fun x => snd (vt_eqc x t)) (x :: pre)) with (snd (vt_eqc x t) + total (fun x => snd (vt_eqc x t)) pre). destruct (vt_eq_dec x t) as [->|]; [destruct N; now left|].
      rewrite IH by (intros H; apply N; now right). unfold compare_cost. lia.
  - intros table. rewrite S. induction table as [|x r IH]; intros N; [reflexivity|]. cbn [search].
    change (total (fun x => snd (vt_eqc x t)) (x :: r)) with (snd (vt_eqc x t) + total (fun x => snd (vt_eqc x t)) r). destruct (vt_eq_dec x t) as [->|]; [destruct N; now left|].
    rewrite IH by (intros H; apply N; now right). reflexivity.
Qed.
(** Hashing an accepted module makes exactly these lookups, or fewer if it panics. *)
Theorem C88_alloc e0 file c : bytes file -> accepted e0 file c ->
  let n := total (search (fun x t => snd (vt_eqc x t)) (c_types c)) (looked_up c) in
  0 <= snd (alloc c) <= n /\ ((exists ch, HashModel.alloc c = Ok ch) -> snd (alloc c) = n).
Proof.
  intros B A. destruct (accepted_alloc e0 file c B A) as [CO SO]. destruct (w_alloc c CO) as [H1 H2]. split; [exact H1|]. intros [ch E]. rewrite <- f_alloc in E. exact (H2 _ E).
Qed.
Lemma s_write_type ts hs t h : snd (write_type ts hs t h) = search compare_cost ts t.
Proof.
  assert (S : forall ts, snd (hash_at ts hs t) = search compare_cost ts t).
  { intros us. unfold hash_at. rewrite s_bind, f_position, s_position. rewrite s_bind. cbn [need free snd fst]. destruct (HashModel.need _ _); lia. }
  unfold write_type. rewrite s_bind, S. destruct (fst (hash_at ts hs t)); cbn; lia.
Qed.
Lemma s_native ch n : snd (hash_native ch n) = search compare_cost (c_types (ch_code ch)) (n_t n).
Proof. unfold hash_native. cbv zeta. rewrite s_bind, s_write_type. destruct (fst (write_type _ _ _ _)); cbn; lia. Qed.
Lemma s_fun_sign ch f : snd (hash_fun_sign ch f) = search compare_cost (c_types (ch_code ch)) (hf_t f).
Proof.
  unfold hash_fun_sign. rewrite s_bind, s_write_type. destruct (fst (write_type _ _ _ _)); [|lia|lia].
  match goal with |- _ + snd ?m = _ => assert (W : within m 0) by zero; destruct W as [W _]; lia end.
Qed.
(** Likewise for its functions, hashed after that; the signature of a function or native takes one lookup whatever the outcome. *)
Theorem C88_functions e0 file c ch : bytes file -> accepted e0 file c -> ch_code ch = c ->
  let look := search (fun x t => snd (vt_eqc x t)) (c_types c) in
  (forall f, In f (c_functions c) ->
     let n := total look (hf_regs f ++ named_types c f) in
     0 <= snd (hash_fun ch f) <= n /\ ((exists h, HashModel.hash_fun ch f = Ok h) -> snd (hash_fun ch f) = n)) /\
  (forall f, snd (hash_fun_sign ch f) = look (hf_t f)) /\
  (forall n, snd (hash_native ch n) = look (n_t n)).
Proof.
  intros B A E. destruct (accepted_alloc e0 file c B A) as [CO SO]. cbv zeta. split; [|split].
  - intros f Hf. destruct CO as (_ & _ & _ & _ & _ & _ & _ & _ & _ & _ & F & _). rewrite Forall_forall in F. destruct (F f Hf) as (_ & _ & L1 & _ & L2 & _).
    destruct (w_hash_fun ch f (eq_sym L1) (eq_sym L2)) as [H1 H2]. rewrite E in H1, H2. split; [exact H1|]. intros [h Eh]. rewrite <- f_hash_fun in Eh. exact (H2 _ Eh).
  - intros f. rewrite s_fun_sign, E. reflexivity.
  - intros n. rewrite s_native, E. reflexivity.
Qed.
(** Finalisation stops (C52) after the lookup of the first function's type; on any hash structure on which it returns it makes the lookups of all
    signatures and bodies. *)
Theorem C88_finalize : 
  (forall e0 file c ch, bytes file -> accepted e0 file c -> HashModel.alloc c = Ok ch ->
     exists f r, c_functions c = f :: r /\ snd (finalize ch) = search (fun x t => snd (vt_eqc x t)) (c_types c) (hf_t f)) /\
  (forall ch ch', HashModel.finalize ch = Ok ch' -> let c := ch_code ch in let look := search (fun x t => snd (vt_eqc x t)) (c_types c) in
     zlen (c_functions c) = c_nfunctions c -> zlen (c_natives c) = c_nnatives c ->
     Forall (fun f => hf_nregs f = zlen (hf_regs f) /\ hf_nops f = zlen (hf_ops f)) (c_functions c) ->
     snd (finalize ch) = total (fun f => look (hf_t f)) (c_functions c) + total (fun n => look (n_t n)) (c_natives c) +
       total (fun f => total look (hf_regs f ++ named_types c f)) (c_functions c)).
Proof.
  split.
  - intros e0 file c ch B A E. destruct (accepted_alloc e0 file c B A) as [CO SO].
    destruct (HashAlloc.alloc_sound c CO SO ch E) as ((_ & _ & _ & _ & _ & f & (_ & _ & Z) & _) & Ec & Eh & _).
    assert (FO : Forall (function_ok (declared c) (negb (c_hasdebug c =? 0)) (c_ndebugfiles c)) (c_functions c)) by (unfold contents_ok in CO; tauto).
    assert (Nf : zlen (c_functions c) = c_nfunctions c) by (destruct SO; tauto).
    unfold finalize. rewrite Ec. cbv zeta. destruct (c_functions c) as [|g fs] eqn:Ef; [discriminate|]. exists g, fs. split; [reflexivity|].
    assert (Hp : exists n, Z.to_nat (c_nfunctions c) = S n).
    { rewrite <- Nf, zlen_cons. pose proof (zlen_nonneg fs). exists (Z.to_nat (zlen fs)). lia. }
    destruct Hp as [n Hn]. unfold rfor at 1. rewrite Hn. cbn [rloop znth]. change (0 =? 0) with true.
    inversion FO as [|? ? G _]; subst. destruct G as (Ht & _ & _ & _ & _ & _ & _ & Ho & Hff & _).
    assert (P : exists p, fst (hash_fun_sign ch g) = Panic p).
    { rewrite f_fun_sign. unfold HashModel.hash_fun_sign. rewrite Ho, Hff. unfold HashModel.write_type, HashModel.hash_at.
      destruct (HashModel.position _ _) as [k|]; cbn [HashModel.need HashModel.rbind]; [|eauto]. destruct (znth _ k); cbn; eauto. }
    destruct P as [p P].
    repeat first [progress rewrite ?s_bind, ?f_bind, ?s_fun_sign, ?f_fun_sign | rewrite <- f_fun_sign, P | progress cbn [fst snd need free rret HashModel.need HashModel.rbind]]. unfold compare_cost. rewrite ?Ec. lia.
  - intros ch ch' E c look L1 L2 FO. rewrite <- f_finalize in E. unfold finalize in *. cbv zeta in *. fold c in E |- *.
    match goal with |- snd ?m = ?n => assert (W : within m n); [clear E|exact (proj2 W _ E)] end.
    assert (NL : forall x, 0 <= look x) by (intros; apply search_nonneg).
    rewrite <- Z.add_assoc. apply w_bind; [| |intros signs _; apply w_bind; [| |intros signs' _; apply w_last; [|intros; apply w_free]]].
    + apply (w_rfor (fun f => look (hf_t f))); [auto| |auto]. intros j x Zx b. rewrite Zx. change (need PIndex (Some x)) with (rret x). apply w_then; [auto|]. intros a Ea. injection Ea as <-. apply w_last; [apply w_fun_sign|intros; apply w_free].
    + apply Z.add_nonneg_nonneg; apply total_nonneg; intros; [auto|apply sn].
    + apply (w_rfor (fun n => look (n_t n))); [auto| |auto]. intros j x Zx b. rewrite Zx. change (need PIndex (Some x)) with (rret x). apply w_then; [auto|]. intros a Ea. injection Ea as <-. apply w_last; [apply w_native|intros; apply w_free].
    + apply total_nonneg; intros; apply sn.
    + apply (w_rfor (fun f => total look (hf_regs f ++ named_types c f))); [auto| |intros; apply sn]. intros j x Zx b. rewrite Zx. change (need PIndex (Some x)) with (rret x). apply w_then; [apply sn|]. intros a Ea. injection Ea as <-.
      rewrite Forall_forall in FO. destruct (FO x (znth_In _ _ _ Zx)) as [F1 F2]. apply w_last; [|intros; apply w_free].
      exact (w_hash_fun (set_functions_hashes b (set_functions_signs signs' ch)) x F1 F2).
Qed.

(** ** At most exponential *)
Lemma search_bound M ts t : values t <= M -> search compare_cost ts t <= zlen ts * M.
Proof.
  intros H. pose proof (values_pos t). induction ts as [|x r IH]; cbn [search]; [cbn; lia|]. rewrite zlen_cons. pose proof (vt_eqc_min x t) as [_ C]. unfold compare_cost at 1. pose proof (zlen_nonneg r).
  destruct (vt_eq_dec x t); nia.
Qed.
Lemma total_le {A} (f : A -> Z) k l : (forall x, In x l -> f x <= k) -> total f l <= zlen l * k.
Proof.
  induction l as [|x l IH]; intros H; [cbn; lia|]. rewrite zlen_cons. change (total f (x :: l)) with (f x + total f l). pose proof (H x (or_introl eq_refl)). specialize (IH (fun y Hy => H y (or_intror Hy))). lia.
Qed.
Lemma zlen_filter {A} (p : A -> bool) l : zlen (filter p l) <= zlen l.
Proof. induction l as [|x l IH]; [cbn; lia|]. cbn [filter]. destruct (p x); rewrite ?zlen_cons; lia. Qed.
Lemma mixed_count xs ts a : zlen (mixed (mean_type xs ts a)) <= zlen (refs_of a).
Proof.
  assert (N : forall l : list vtype, zlen (if true then [] else l) = 0) by reflexivity.
  unfold mixed. destruct (one_of (vt_kind (mean_type xs ts a)) [HVIRTUAL]); [apply zlen_nonneg|]. unfold mentions.
  assert (Q : forall (b : bool) (l r : list vtype) k, zlen l <= k -> zlen r <= k -> zlen (if b then l else r) <= k) by (intros []; auto).
  assert (E : forall k, 0 <= k -> zlen (@nil vtype) <= k) by (intros; cbn; lia).
  destruct a as [k|m args r|st name sup g fs ps ds|fs|n|n g cs|k t]; cbn [mean_type vt_union vt_tparam refs_of];
    pose proof (fun (A : Type) (l : list A) => zlen_nonneg l) as NN; repeat (apply Q); try (apply E; apply NN).
  - unfold zlen. rewrite !app_length, map_length. cbn [length]. lia.
  - rewrite zlen_app. assert (L : zlen (map (@fd_t vtype) (map (mean_field ts) (combine (skipn 1 xs) (map snd fs)))) <= zlen (map snd fs)) by (unfold zlen; rewrite !map_length, combine_length, map_length; lia).
    pose proof (NN _ (match sup with Some k => [k] | None => [] end)). lia.
  - unfold zlen. rewrite !map_length, combine_length, map_length. lia.
  - generalize (skipn 1 xs). induction cs as [|[x ps] cs IH]; intros l; [destruct l; cbn; lia|]. cbn [map combine flat_map snd]. destruct l as [|y l]; [apply NN|]. cbn [combine map flat_map ec_params snd fst]. rewrite !zlen_app. specialize (IH l). replace (zlen (map (ty ts) ps)) with (zlen ps) by (unfold zlen; now rewrite map_length). lia.
  - cbn. lia.
Qed.

Lemma mean_types_mixed ss bs ats : many spell_type bs ats -> forall ins ts,
  zlen (flat_map mixed (fst (mean_types ss ins ts ats))) + zlen ats <= zlen (flat_map mixed ts) + zlen bs.
Proof.
  intros H. induction H as [|b bs a ats Ha H IH]; intros ins ts; [cbn [mean_types fst]; change (zlen (@nil atype)) with 0; change (zlen (@nil Z)) with 0; lia|].
  cbn [mean_types]. destruct (resolve (zlen ss) ins (names_of a)) as [ms ins']. specialize (IH ins' (ts ++ [mean_type (map (nm ss) ms) ts a])).
  rewrite flat_map_app in IH. cbn [flat_map] in IH. rewrite app_nil_r, zlen_app in IH. rewrite zlen_cons, zlen_app. pose proof (type_refs _ _ Ha). pose proof (mixed_count (map (nm ss) ms) ts a). lia.
Qed.
Lemma mean_types_len ss ats : forall ins ts, zlen (fst (mean_types ss ins ts ats)) = zlen ts + zlen ats.
Proof.
  induction ats as [|a ats IH]; intros ins ts; [cbn; lia|]. cbn [mean_types]. destruct (resolve (zlen ss) ins (names_of a)) as [ms ins']. rewrite IH, zlen_app, !zlen_cons. change (zlen (@nil vtype)) with 0. lia.
Qed.
Lemma looked_up_count file c : bytes file -> zlen file < 2 ^ 63 -> accepted None file c -> zlen (looked_up c) <= 2 * zlen file /\ zlen (c_types c) <= 2 * zlen file.
Proof.
  intros B L A. apply C66_exact in A; auto. destruct A as (used & rest & m & ss & fs & -> & S & G & ->). rewrite zlen_app. pose proof (zlen_nonneg rest).
  destruct S as (h & s1 & s2 & s3 & s4 & s5 & -> & _ & _ & _ & _ & _ & _ & M & t1 & t2 & t3 & t4 & -> & Mg & _).
  pose proof (mean_types_mixed ss s4 (rm_types m) M [] []) as V. pose proof (mean_types_len ss (rm_types m) [] []) as Lt. change (zlen (flat_map mixed [])) with 0 in V. change (zlen (@nil vtype)) with 0 in Lt.
  apply (many_count _ _ 1) in Mg; [|exact ix_len]. unfold mean_module. destruct (mean_types ss [] [] (rm_types m)) as [ts ins]. cbn [fst] in V, Lt.
  rewrite !zlen_app. repeat match goal with |- context [zlen ?x] => lazymatch goal with H : 0 <= zlen x |- _ => fail | _ => pose proof (zlen_nonneg x) end end.
  pose proof (zlen_nonneg (flat_map mixed ts)) as Nm.
  destruct (negb (rm_debug m) && (zlen (rm_types m) =? 0) && (zlen (rm_constants m) =? 0)); [change (zlen (looked_up code_new)) with 0; change (zlen (c_types code_new)) with 0; lia|].
  pose proof (zlen_nonneg (rm_types m)) as NT. pose proof (zlen_nonneg (rm_globals m)) as NG.
  unfold looked_up. set (c := {| c_types := _ |}).
  assert (ED : declared c = ts).
  { unfold declared, c. cbn [c_ntypes c_types]. replace (Z.to_nat (zlen (rm_types m))) with (length ts) by (unfold zlen in *; lia). rewrite firstn_app, Nat.sub_diag, firstn_all. apply app_nil_r. }
  assert (EG : zlen (global_types c) <= zlen (rm_globals m)).
  { unfold global_types, c. cbn [c_nglobals c_globals]. unfold zlen. rewrite firstn_length. lia. }
  rewrite ED, !zlen_app. pose proof (zlen_filter (fun t => vt_kind t =? HABSTRACT) (global_types c)). pose proof (zlen_filter owned_global ts).
  split; [lia|]. unfold c. cbn [c_types]. rewrite zlen_app. unfold zrepeat. unfold zlen at 2. rewrite repeat_length. lia.
Qed.
Theorem C88_bound file c : bytes file -> zlen file < 2 ^ 63 -> accepted None file c ->
  snd (alloc c) <= 4 * zlen file * zlen file * 2 ^ zlen file.
Proof.
  intros B L A. destruct (C88_alloc None file c B A) as [[_ H] _]. cbv zeta in H. etransitivity; [exact H|]. destruct (looked_up_count file c B L A) as [L1 L2].
  pose proof (zlen_nonneg file) as NF. assert (P : 1 <= 2 ^ zlen file) by (change 1 with (2 ^ 0); apply Z.pow_le_mono_r; lia).
  etransitivity; [apply (total_le _ (zlen (c_types c) * 2 ^ zlen file))|].
  - intros t It. apply (search_bound (2 ^ zlen file)). apply (C79_types_bound file c t B L A). destruct (accepted_alloc None file c B A) as [CO SO].
    destruct (HashAlloc.types_table c CO) as [ET LD]. unfold looked_up in It. rewrite !in_app_iff in It.
    assert (DT : forall u, In u (declared c) -> In u (c_types c)) by (intros u Hu; rewrite ET; apply in_or_app; now left).
    assert (GT : forall u, In u (global_types c) -> In u (c_globals c)) by (intros u Hu; unfold global_types in Hu; rewrite <- (firstn_skipn (Z.to_nat (c_nglobals c)) (c_globals c)); apply in_or_app; now left).
    apply in_or_app. destruct It as [It|[It|[It|It]]].
    + apply in_flat_map in It as (u & Hu & It). destruct (HashAlloc.declared_types c CO u Hu) as (_ & _ & _ & T). apply HashAlloc.type_ok_counted in T as (_ & T & _).
      unfold mixed in It. destruct (one_of (vt_kind u) [HVIRTUAL]); [destruct It|]. rewrite Forall_forall in T. destruct (T t It) as [<-|H1]; [|left; auto].
      left. rewrite ET. apply in_or_app. right. unfold zrepeat. destruct (declared c) as [|d r] eqn:Ed; [destruct Hu|]. rewrite zlen_cons in LD. pose proof (zlen_nonneg r).
      replace (Z.to_nat (c_ntypes c)) with (S (Z.to_nat (c_ntypes c - 1))) by lia. now left.
    + apply filter_In in It as [It _]. auto.
    + apply filter_In in It as [It _]. auto.
    + auto.
  - pose proof (zlen_nonneg (looked_up c)). pose proof (zlen_nonneg (c_types c)). transitivity ((2 * zlen file) * ((2 * zlen file) * 2 ^ zlen file)); [|lia]. apply Z.mul_le_mono_nonneg; nia.
Qed.

(** ** Exponential in the worst case *)
(** The tower of C79 with a function to start. *)
Definition tower_fun (n : nat) : amod :=
  {| am_version := 2; am_debug := false; am_ints := []; am_floats := []; am_strings := []; am_bytes := []; am_bytes_pos := []; am_debugfiles := [];
     am_types := am_types (tower n); am_globals := []; am_natives := [];
     am_functions := [{| af_type := 0; af_findex := 0; af_regs := []; af_ops := [IFixed 67 [0]]; af_debug := []; af_assigns := [] |}];
     am_constants := []; am_entrypoint := 0 |}.
Lemma tower_fun_wf n : Z.of_nat n < 8191 -> wf_module (tower_fun n).
Proof.
  intros L. split; [|right; left; discriminate]. unfold encodable. cbn [am_version am_debug am_ints am_floats am_strings am_bytes am_bytes_pos am_debugfiles am_types am_globals am_natives am_functions am_constants am_entrypoint tower_fun].
  rewrite tower_types, tower_names.
  unfold wf_strings, usmall. change (zlen (@nil Z)) with 0. change (zlen (@nil str)) with 0. change (zlen (@nil (Z * Z * Z * Z))) with 0. change (zlen (@nil (Z * list Z))) with 0.
  repeat match goal with |- _ /\ _ => split end; try lia; try solve [constructor]; auto; try (cbn; lia).
  - destruct (tower_wf n L) as [T _]. unfold encodable in T. rewrite tower_types in T. apply T.
  - constructor; [|constructor]. unfold wf_fun. cbn [af_type af_findex af_regs af_ops]. unfold usmall. repeat split; try (cbn; lia); try discriminate; repeat constructor.
Qed.
Lemma tower_fun_len n : Z.of_nat n < 8191 -> zlen (enc_module (tower_fun n)) <= 6 * Z.of_nat n + 25.
Proof.
  intros L. unfold enc_module, enc_header. change (am_types (tower_fun n)) with (am_types (tower n)). rewrite tower_types.
  cbn [am_version am_debug am_ints am_floats am_strings am_bytes am_bytes_pos am_debugfiles am_globals am_natives am_functions am_constants am_entrypoint tower_fun flat_map app].
  change (5 <=? 2) with false. change (4 <=? 2) with false. cbv iota. rewrite !app_nil_r. rewrite !zlen_cons, !zlen_app. change (zlen (@nil Z)) with 0. change (zlen (@nil str)) with 0. change (zlen (@nil (Z * Z * Z * Z))) with 0.
  pose proof (tower_len n L) as T. unfold enc_module, enc_header in T. rewrite tower_types in T. cbn [am_version am_debug am_ints am_floats am_strings am_bytes am_bytes_pos am_debugfiles am_globals am_natives am_functions am_constants am_entrypoint tower flat_map app] in T.
  change (5 <=? 2) with false in T. change (4 <=? 2) with false in T. cbv iota in T. rewrite !app_nil_r in T. rewrite !zlen_cons, !zlen_app in T. change (zlen (@nil Z)) with 0 in T. change (zlen (@nil str)) with 0 in T. change (zlen (@nil afun)) with 0 in T. change (zlen (@nil (Z * Z * Z * Z))) with 0 in T.
  match goal with |- context [zlen (enc_fun ?a ?b ?f)] => change (zlen (enc_fun a b f)) with 6 end. cbn [am_types tower] in T |- *.
  change (zlen (@nil afun)) with 0. change (zlen (enc_index (1 + 0))) with 1. change (zlen (enc_index 0)) with 1 in *. lia.
Qed.
Lemma tower_shape n ts : ts = view_types [] (am_types (tower n)) -> zlen ts = Z.of_nat n + 1 /\
  znth ts 0 = Some (VT UNull None None HVOID) /\
  (forall i, (i < n)%nat -> exists t, znth ts (Z.of_nat i) = Some t /\ znth ts (Z.of_nat (S i)) = Some (VT (FuncType [t] 1 t) None None HFUN)).
Proof.
  intros ->. set (ts := view_types [] (am_types (tower n))). assert (Lt : zlen ts = Z.of_nat n + 1) by (unfold ts; rewrite view_types_len; apply tower_types).
  split; [exact Lt|]. split; [unfold ts; rewrite (C35_backward_partial _ _ 0 (APrim HVOID)); [reflexivity|reflexivity|constructor]|].
  intros i Hi. destruct (znth_in ts (Z.of_nat i) ltac:(lia)) as [t Zt]. exists t. split; [exact Zt|]. unfold ts.
  rewrite (C35_backward_partial _ _ _ _ (tower_at n i ltac:(lia))); [|cbn [refs_of app]; repeat constructor; lia]. fold ts. cbn [view_type map].
  assert (ty ts (Z.of_nat i) = t) as ->; [|reflexivity]. unfold ty. rewrite znth_nth_error in Zt by lia. now apply nth_error_nth.
Qed.
Lemma tower_values n ts : ts = view_types [] (am_types (tower n)) -> forall i, (i <= n)%nat -> exists t, znth ts (Z.of_nat i) = Some t /\ values t = 2 ^ (Z.of_nat i + 1) - 1.
Proof.
  intros E. destruct (tower_shape n ts E) as (_ & Z0 & ZS). induction i as [|i IH]; intros Hi; [eauto|]. destruct (IH ltac:(lia)) as (t & Zt & V). destruct (ZS i ltac:(lia)) as (t' & Zt' & Zs).
  assert (t' = t) as -> by congruence. eexists. split; [exact Zs|]. rewrite values_fun, V. replace (Z.of_nat (S i) + 1) with (Z.succ (Z.of_nat i + 1)) by lia. rewrite Z.pow_succ_r by lia. lia.
Qed.
Lemma tower_hashable n u : hashable (view_module (tower_fun n) u).
Proof.
  set (c := view_module (tower_fun n) u). set (ts := view_types [] (am_types (tower n))). destruct (tower_shape n ts eq_refl) as (Lt & Z0 & ZS).
  assert (ED : declared c = ts).
  { unfold declared, c. cbn [view_module c_ntypes c_types am_types tower_fun am_strings]. fold (tower n). change (APrim HVOID :: map (fun k => AFun false [Z.of_nat k] (Z.of_nat k)) (seq 0 n)) with (am_types (tower n)). fold ts.
    rewrite tower_types. replace (Z.to_nat (Z.of_nat n + 1)) with (length ts) by (unfold zlen in Lt; lia). rewrite firstn_app, Nat.sub_diag, firstn_all. apply app_nil_r. }
  assert (T : forall t, In t ts -> t = VT UNull None None HVOID \/ exists v, In v ts /\ t = VT (FuncType [v] 1 v) None None HFUN).
  { intros t It. apply In_nth_error in It as [i Ei]. assert (Li : (i < length ts)%nat) by (apply nth_error_Some; congruence). assert (Zi : znth ts (Z.of_nat i) = Some t) by (rewrite znth_nth_error by lia; now rewrite Nat2Z.id).
    destruct i as [|i]; [left; change (Z.of_nat 0) with 0 in Zi; congruence|]. right. destruct (ZS i) as (v & Zv & Zs); [unfold zlen in Lt; lia|]. exists v. split; [eapply znth_In; eassumption|congruence]. }
  unfold hashable. rewrite ED. split; [repeat constructor; cbn; lia|]. split; [|split; [|split; [constructor|split; [constructor|]]]].
  - apply Forall_forall. intros t It. destruct (T t It) as [->|(v & Iv & ->)]; [constructor|]. cbn. repeat constructor; exact Iv.
  - unfold slots_in. apply Forall_forall. intros p Hp. apply in_flat_map in Hp as (t & It & Hp). destruct (T t It) as [->|(v & _ & ->)]; destruct Hp.
  - eexists. split; [split; [cbn; lia|split; [cbn; lia|reflexivity]]|]. split; [constructor|constructor].
Qed.
(** Violated: comparisons are exponential in the size of the file.  At most [6 n + 25] bytes make a valid module that can be hashed,
    with at least [2 ^ (n + 1) - 2] comparisons, for all [n] below 8191. *)
Theorem C88_exponential_refuted n : (0 < n)%nat -> Z.of_nat n < 8191 -> wf_module (tower_fun n) /\ zlen (enc_module (tower_fun n)) <= 6 * Z.of_nat n + 25 /\
  exists c, accepted None (enc_module (tower_fun n)) c /\ (exists ch, HashModel.alloc c = Ok ch) /\ 2 ^ (Z.of_nat n + 1) - 2 <= snd (alloc c).
Proof.
  intros Hn L. split; [now apply tower_fun_wf|]. split; [now apply tower_fun_len|]. destruct (C37_roundtrip (tower_fun n) [] (tower_fun_wf n L)) as [u E]. rewrite app_nil_r in E.
  set (c := view_module (tower_fun n) u). assert (A : accepted None (enc_module (tower_fun n)) c) by (unfold accepted, c; now rewrite E).
  assert (B : bytes (enc_module (tower_fun n))) by (apply bytes_module, tower_fun_wf; exact L).
  exists c. split; [exact A|]. assert (H : exists ch, HashModel.alloc c = Ok ch) by (apply (C50_exact None _ c B A); apply tower_hashable). split; [exact H|].
  destruct (C88_alloc None _ c B A) as [_ X]. cbv zeta in X. rewrite (X H). clear X H E.
  set (ts := view_types [] (am_types (tower n))). destruct (tower_shape n ts eq_refl) as (Lt & Z0 & ZS). destruct n as [|k]; [lia|]. destruct (ZS k ltac:(lia)) as (t & Zt & Zs).
  destruct (tower_values (S k) ts eq_refl k ltac:(lia)) as (t' & Zt' & V). assert (t' = t) as -> by congruence.
  assert (ET : c_types c = ts ++ zrepeat vt_default (zlen (am_types (tower (S k))))) by reflexivity.
  assert (ED : declared c = ts).
  { unfold declared. rewrite ET. replace (Z.to_nat (c_ntypes c)) with (length ts).
    - rewrite firstn_app, Nat.sub_diag, firstn_all. apply app_nil_r.
    - change (c_ntypes c) with (zlen (am_types (tower (S k)))). rewrite tower_types. unfold zlen in Lt. lia. }
  assert (S1 : 2 ^ (Z.of_nat k + 1) - 1 <= search compare_cost (c_types c) t).
  { apply znth_In in Zt. rewrite ET. clear - Zt V. induction ts as [|x r IH]; [destruct Zt|]. cbn [app search]. destruct (vt_eq_dec x t) as [->|N]; [unfold compare_cost; rewrite vt_eqc_same; lia|].
    destruct Zt as [->|Zt]; [congruence|]. specialize (IH Zt). pose proof (compare_pos x t). lia. }
  change (search (fun x t0 => snd (vt_eqc x t0)) (c_types c)) with (search compare_cost (c_types c)). unfold looked_up. rewrite ED, total_app.
  pose proof (sn (c_types c) (filter (fun t => vt_kind t =? HABSTRACT) (global_types c) ++ filter owned_global ts ++ global_types c)) as N.
  apply znth_In in Zs. apply in_split in Zs as (l1 & l2 & Es). rewrite Es at 1. rewrite flat_map_app. cbn [flat_map]. rewrite !total_app in N. rewrite !total_app. pose proof (sn (c_types c) (flat_map mixed l1)). pose proof (sn (c_types c) (flat_map mixed l2)).
  change (mixed (VT (FuncType [t] 1 t) None None HFUN)) with [t; t]. change (total (search compare_cost (c_types c)) [t; t]) with (search compare_cost (c_types c) t + (search compare_cost (c_types c) t + 0)).
  replace (Z.of_nat (S k) + 1) with (Z.succ (Z.of_nat k + 1)) by lia. rewrite Z.pow_succ_r by lia. lia.
Qed.
(** So a file of 385 bytes takes 2^61 - 2 comparisons; and a small case counted outright: types void, (void) -> void, ((void) -> void) -> ...,
    hashed by running the model. *)
Example C88_ex : (exists c, accepted None (enc_module (tower_fun 60)) c /\ 2305843009213693950 <= snd (alloc c)) /\ zlen (enc_module (tower_fun 60)) <= 385 /\
  (let c := loaded (tower_fun 3) in map values (c_types c) = [1; 3; 7; 15; 1; 1; 1; 1] /\ zlen (looked_up c) = 6 /\ snd (alloc c) = 30 /\ fst (alloc c) = HashModel.alloc c) /\
  accepted None (enc_module (tower_fun 3)) (loaded (tower_fun 3)).
Proof.
  split; [destruct (C88_exponential_refuted 60 ltac:(lia) ltac:(lia)) as (_ & _ & c & A & _ & H); eauto|]. split; [apply (tower_fun_len 60); lia|].
  split; [vm_compute; repeat split|vm_compute; reflexivity].
Qed.
(** Finalisation: of the small module it stops after comparing one type; of the hash structure of C52_ex, filled in by hand, it returns. *)
Example C88_ex_final : (exists ch, HashModel.alloc (loaded (tower_fun 3)) = Ok ch /\ snd (finalize ch) = 1) /\
  (exists ch', HashModel.finalize ex_final = Ok ch') /\ zlen (c_functions (ch_code ex_final)) = c_nfunctions (ch_code ex_final) /\
  zlen (c_natives (ch_code ex_final)) = c_nnatives (ch_code ex_final) /\
  Forall (fun f => hf_nregs f = zlen (hf_regs f) /\ hf_nops f = zlen (hf_ops f)) (c_functions (ch_code ex_final)) /\ 0 < snd (finalize ex_final).
Proof.
  split; [exists (hashed (loaded (tower_fun 3))); split; [vm_compute; reflexivity|vm_compute; reflexivity]|]. split; [eexists; vm_compute; reflexivity|]. split; [vm_compute; reflexivity|]. split; [vm_compute; reflexivity|].
  split; [vm_compute; repeat constructor|vm_compute; reflexivity].
Qed.
