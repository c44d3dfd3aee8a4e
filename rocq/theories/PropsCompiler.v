(** Theorems C53 and C76: module set-up.  Model: CompilerModel.v.  Vocabulary: AcceptSpec.v, HashSpec.v. *)
From Verif Require Import Prelude StdModel BrassTypes DecoderModel CodeModel FormatSpec ReaderSpec HashModel HashSpec AcceptSpec CompilerModel.
From Verif Require Import CodeGenericProofs FormatProofs StringsProofs ReaderSizes AcceptProofs HashProofs HashAlloc PropsModule PropsHash.
From Coq Require Import Lia ZifyBool FinFun.

(** * Decimal numerals *)
Fixpoint value_of (digits : list Z) (acc : Z) : Z :=
  match digits with [] => acc | d :: r => value_of r (10 * acc + (d - 48)) end.
Lemma value_app a : forall b acc, value_of (a ++ b) acc = value_of b (value_of a acc).
Proof. induction a; intros; cbn; auto. Qed.
Lemma dec_rev_ok fuel : forall n, 0 <= n < Z.of_nat fuel ->
  value_of (rev (dec_rev fuel n)) 0 = n /\ Forall (fun d => 48 <= d <= 57) (dec_rev fuel n) /\ dec_rev fuel n <> [] /\
  (forall d r, rev (dec_rev fuel n) = d :: r -> d = 48 -> n = 0).
Proof.
  induction fuel as [|fuel IH]; intros n H; [lia|]. cbn [dec_rev].
  pose proof (Z.div_mod n 10 ltac:(lia)) as E. pose proof (Z.mod_pos_bound n 10 ltac:(lia)) as B.
  destruct (Z.ltb_spec n 10) as [Hl|Hl].
  - rewrite Z.mod_small by lia. repeat split; [cbn [rev app value_of]; lia|repeat constructor; lia|discriminate|].
    cbn [rev app]. intros d r Eq Ed. assert (48 + n = d) by congruence. lia.
  - assert (Hq : 0 <= n / 10 < Z.of_nat fuel) by (split; [apply Z.div_pos; lia|apply Z.div_lt_upper_bound; lia]).
    destruct (IH _ Hq) as (V & F & N & Z0). cbn [rev]. rewrite value_app, V. cbn [value_of].
    repeat split; [lia|constructor; [lia|exact F]|discriminate|].
    intros d r Eq Ed. destruct (rev (dec_rev fuel (n / 10))) as [|d' r'] eqn:Er.
    + apply (f_equal (@rev Z)) in Er. rewrite rev_involutive in Er. contradiction.
    + cbn [app] in Eq. assert (d' = d) as -> by congruence. pose proof (Z0 d r' eq_refl Ed). lia.
Qed.
(** The numeral of [n]: non-empty, decimal digits, denoting [n], without leading zero unless [n] is 0. *)
Lemma decimal_ok n : 0 <= n -> value_of (decimal n) 0 = n /\ Forall (fun d => 48 <= d <= 57) (decimal n) /\ decimal n <> [] /\
  (forall d r, decimal n = d :: r -> d = 48 -> n = 0).
Proof.
  intros H. destruct (dec_rev_ok (S (Z.to_nat n)) n ltac:(lia)) as (V & F & N & Z0). unfold decimal. repeat split; auto.
  - apply Forall_rev. exact F.
  - intros E. apply N. apply (f_equal (@rev Z)) in E. now rewrite rev_involutive in E.
Qed.
Lemma decimal_inj a b : 0 <= a -> 0 <= b -> decimal a = decimal b -> a = b.
Proof. intros Ha Hb E. destruct (decimal_ok a Ha) as [Va _]. destruct (decimal_ok b Hb) as [Vb _]. rewrite E in Va. congruence. Qed.

(** The u8 globals among the first [n], in order. *)
Definition is_u8 (c : code) (i : Z) : bool := vt_kind (entry vt_default (c_globals c) i) =? HUI8.
Definition indices (n : Z) : list Z := map Z.of_nat (seq 0 (Z.to_nat n)).
Definition u8_globals (c : code) (n : Z) : list Z := filter (is_u8 c) (indices n).
Definition symbol (i : Z) : str := [36; 103; 108; 111; 98; 97; 108] ++ decimal i.
Definition simple_globals (c : code) : Prop :=
  forall i, 0 <= i < c_nglobals c -> In (vt_kind (entry vt_default (c_globals c) i)) [HVOID; HUI8].

Lemma symbol_inj a b : 0 <= a -> 0 <= b -> symbol a = symbol b -> a = b.
Proof. intros Ha Hb E. apply app_inv_head in E. now apply decimal_inj. Qed.
Lemma indices_S n : 0 <= n -> indices (n + 1) = indices n ++ [n].
Proof.
  intros H. unfold indices. replace (Z.to_nat (n + 1)) with (S (Z.to_nat n)) by lia. rewrite seq_S, map_app. cbn [map]. now rewrite Nat.add_0_l, Z2Nat.id.
Qed.
Lemma indices_in n i : 0 <= n -> In i (indices n) <-> 0 <= i < n.
Proof.
  intros H. unfold indices. rewrite in_map_iff. split.
  - intros (k & <- & Hk). apply in_seq in Hk. lia.
  - intros Hi. exists (Z.to_nat i). split; [lia|]. apply in_seq. lia.
Qed.
Lemma find_data_none ds name : (forall d, In d ds -> dd_name d <> name) -> find_data ds name = None.
Proof.
  induction ds as [|d ds IH]; intros H; cbn [find_data]; [reflexivity|]. destruct (str_eqb (dd_name d) name) eqn:E.
  - apply str_eqb_eq in E. destruct (H d); [now left|auto].
  - rewrite IH; [reflexivity|]. intros; apply H. now right.
Qed.
(** The two values made for the [j]-th u8 global, number [i]. *)
Definition values_for (ji : Z * Z) : list global_value := [GSymbol (fst ji); GLoad (2 * fst ji) (i32 (snd ji)) 1 false].
Definition built (c : code) (m : hl_module) (n : Z) (m' : hl_module) : Prop :=
  hm_code m' = hm_code m /\ hm_functions_ptrs m' = hm_functions_ptrs m /\ hm_functions_indexes m' = hm_functions_indexes m /\
  hm_code_hash m' = hm_code_hash m /\
  hm_data m' = map (fun i => mkData (symbol i) true true) (u8_globals c n) /\
  hm_values m' = flat_map values_for (number 0 (u8_globals c n)).
Lemma flat2_len {A} (l : list (Z * A)) (f : Z * A -> list global_value) : (forall x, zlen (f x) = 2) -> zlen (flat_map f l) = 2 * zlen l.
Proof. intros H. induction l as [|x l IH]; cbn [flat_map]; [reflexivity|]. rewrite zlen_app, H, IH, zlen_cons. lia. Qed.
Lemma built_step c m n m' : 0 <= n -> hm_code m = c -> built c m n m' -> is_u8 c n = true ->
  built c m (n + 1) (translate_global m' 1 (global_prefix ++ decimal n) true (as_i32 n)).
Proof.
  intros Hn Ec (H1 & H2 & H3 & H4 & H5 & H6) U. unfold translate_global, declare_data.
  assert (Eu : u8_globals c (n + 1) = u8_globals c n ++ [n]).
  { unfold u8_globals. rewrite indices_S, filter_app by auto. cbn [filter]. now rewrite U. }
  rewrite find_data_none.
  - unfold built. cbn [hm_code hm_functions_ptrs hm_functions_indexes hm_code_hash hm_data hm_values]. rewrite Eu.
    repeat split; auto.
    + rewrite H5, map_app. reflexivity.
    + rewrite H6, H5. rewrite number_app, flat_map_app. f_equal. cbn [number flat_map app]. unfold values_for at 2. cbn [fst snd].
      rewrite flat2_len by reflexivity. rewrite number_len, zlen_map, as_i32_i32. reflexivity.
  - intros d Hd E. rewrite H5 in Hd. apply in_map_iff in Hd as (i & <- & Hi). apply filter_In in Hi as [Hi _].
    apply (indices_in n i Hn) in Hi. cbn [dd_name] in E. apply (symbol_inj i n) in E; lia.
Qed.

Lemma init_globals_ok c m : hm_code m = c -> hm_data m = [] -> hm_values m = [] -> 0 <= c_nglobals c <= zlen (c_globals c) ->
  (simple_globals c -> exists m', init_globals m = Ok m' /\ built c m (c_nglobals c) m') /\
  (~ simple_globals c -> init_globals m = Panic PTodo).
Proof.
  intros Ec E1 E2 Hn. unfold init_globals. rewrite Ec.
  set (body := fun (i : Z) (m0 : hl_module) => _).
  assert (Step : forall i m', 0 <= i < c_nglobals c -> built c m i m' ->
    (In (vt_kind (entry vt_default (c_globals c) i)) [HVOID; HUI8] -> exists m2, body i m' = Ok m2 /\ built c m (i + 1) m2) /\
    (~ In (vt_kind (entry vt_default (c_globals c) i)) [HVOID; HUI8] -> body i m' = Panic PTodo)).
  { intros i m' Hi Hb. unfold body. destruct Hb as (B1 & Hb'). pose proof (conj B1 Hb') as Hb. rewrite B1, Ec.
    rewrite (znth_entry vt_default (c_globals c) i) by lia. cbn [need rbind].
    destruct (Z.eqb_spec (vt_kind (entry vt_default (c_globals c) i)) HUI8) as [K|K].
    - split; [|intros N; destruct N; right; left; auto]. intros _. eexists. split; [reflexivity|]. apply built_step; auto; [lia|].
      unfold is_u8. now apply Z.eqb_eq.
    - destruct (Z.eqb_spec (vt_kind (entry vt_default (c_globals c) i)) HVOID) as [K2|K2].
      + split; [|intros N; destruct N; left; auto]. intros _. exists m'. split; [reflexivity|].
        assert (Eu : u8_globals c (i + 1) = u8_globals c i).
        { unfold u8_globals. rewrite indices_S, filter_app by lia. cbn [filter]. replace (is_u8 c i) with false; [apply app_nil_r|].
          symmetry. unfold is_u8. now apply Z.eqb_neq. }
        unfold built in *. now rewrite Eu.
      + split; [|reflexivity]. intros [H|[H|[]]]; congruence. }
  assert (Init : built c m 0 m) by (unfold built; rewrite E1, E2; repeat split).
  split.
  - intros S. destruct (rfor_ok (fun i m' => built c m i m') (c_nglobals c) body m ltac:(lia) Init) as (m' & E & B).
    + intros i m' Hi Hb. apply (proj1 (Step i m' Hi Hb)). now apply S.
    + eauto.
  - intros N. unfold rfor. assert (Gen : forall k i m', 0 <= i -> i + Z.of_nat k = c_nglobals c -> built c m i m' ->
       (forall j, 0 <= j < i -> In (vt_kind (entry vt_default (c_globals c) j)) [HVOID; HUI8]) -> rloop k i body m' = Panic PTodo).
    { induction k as [|k IH]; intros i m' Hi Hk Hb Hj.
      - exfalso. apply N. intros j Hj'. apply Hj. lia.
      - cbn [rloop]. destruct (Step i m' ltac:(lia) Hb) as [S1 S2].
        destruct (in_dec Z.eq_dec (vt_kind (entry vt_default (c_globals c) i)) [HVOID; HUI8]) as [Hin|Hin].
        + destruct (S1 Hin) as (m2 & -> & Hb2). cbn [rbind]. apply IH; [lia|lia|auto|]. intros j Hj2.
          destruct (Z.eq_dec j i) as [->|]; [auto|]. apply Hj. lia.
        + rewrite (S2 Hin). reflexivity. }
    apply Gen; [lia|lia|exact Init|lia].
Qed.

(** * C53 *)
Definition loads (m : hl_module) : list (Z * Z) :=
  flat_map (fun v => match v with GLoad b o _ _ => [(b, o)] | _ => [] end) (hm_values m).
Lemma new_tables c : 0 <= c_nfunctions c + c_nnatives c ->
  zlen (hm_functions_ptrs (module_new c)) = c_nfunctions c + c_nnatives c /\
  zlen (hm_functions_indexes (module_new c)) = c_nfunctions c + c_nnatives c.
Proof. intros H. cbn [module_new hm_functions_ptrs hm_functions_indexes]. now rewrite zlen_zrepeat. Qed.
(** Without hot reload, set-up succeeds iff every declared global is void or u8; then exactly one exported, writable
    data object per u8 global [i] is declared, named "$global<i>", in order, with two function-level values each, and the
    function tables keep their [nfunctions + nnatives] zero entries.  Otherwise it panics. *)
Theorem C53_init e0 buf c : bytes buf -> accepted e0 buf c ->
  ((exists m, module_init (module_new c) false = Ok m) <-> simple_globals c) /\
  (~ simple_globals c -> module_init (module_new c) false = Panic PTodo) /\
  (forall m, module_init (module_new c) false = Ok m ->
     hm_data m = map (fun i => mkData (symbol i) true true) (u8_globals c (c_nglobals c)) /\
     NoDup (map dd_name (hm_data m)) /\
     (forall s, In s (map dd_name (hm_data m)) <-> exists i, 0 <= i < c_nglobals c /\ vt_kind (entry vt_default (c_globals c) i) = HUI8 /\ s = symbol i) /\
     hm_values m = flat_map values_for (number 0 (u8_globals c (c_nglobals c))) /\
     zlen (hm_functions_ptrs m) = c_nfunctions c + c_nnatives c /\ zlen (hm_functions_indexes m) = c_nfunctions c + c_nnatives c /\
     hm_code_hash m = None).
Proof.
  intros B A. destruct (accepted_alloc e0 buf c B A) as [CO SO]. destruct (counts c SO) as (_ & Cg & Cf & Cn & _).
  assert (Lg : zlen (c_globals c) = 2 * c_nglobals c) by (destruct SO; tauto).
  unfold module_init. cbn [rbind rret]. destruct (init_globals_ok c (module_new c) eq_refl eq_refl eq_refl ltac:(lia)) as [I1 I2].
  assert (Dec : simple_globals c \/ ~ simple_globals c).
  { destruct (forallb (fun i => let k := vt_kind (entry vt_default (c_globals c) i) in (k =? HVOID) || (k =? HUI8)) (indices (c_nglobals c))) eqn:F.
    - left. intros i Hi. rewrite forallb_forall in F. specialize (F i (proj2 (indices_in (c_nglobals c) i (proj1 Cg)) Hi)). cbv zeta in F.
      apply orb_true_iff in F as [F|F]; apply Z.eqb_eq in F; rewrite F; cbn; auto.
    - right. intros S. rewrite <- not_true_iff_false in F. apply F. apply forallb_forall. intros i Hi. apply indices_in in Hi; [|lia].
      cbv zeta. destruct (S i Hi) as [H|[H|[]]]; rewrite <- H; reflexivity. }
  split; [|split; [exact I2|]].
  - split.
    + intros [m E]. destruct Dec as [|N]; [auto|]. rewrite (I2 N) in E. discriminate.
    + intros S. destruct (I1 S) as (m & E & _). eauto.
  - intros m E. destruct Dec as [S|N]; [|rewrite (I2 N) in E; discriminate].
    destruct (I1 S) as (m' & E' & (B1 & B2 & B3 & B4 & B5 & B6)). assert (m' = m) as -> by congruence.
    destruct (new_tables c ltac:(lia)) as [T1 T2].
    assert (En : map dd_name (hm_data m) = map symbol (u8_globals c (c_nglobals c))) by (rewrite B5, map_map; reflexivity).
    repeat split; auto.
    + rewrite En. assert (ND : NoDup (u8_globals c (c_nglobals c))).
      { apply NoDup_filter. unfold indices. apply FinFun.Injective_map_NoDup; [intros a b; lia|apply seq_NoDup]. }
      assert (Pos : forall i, In i (u8_globals c (c_nglobals c)) -> 0 <= i).
      { intros i Hi. apply filter_In in Hi as [Hi _]. apply indices_in in Hi; lia. }
      clear - ND Pos. induction (u8_globals c (c_nglobals c)) as [|x l IH]; cbn [map]; constructor; inversion ND; subst.
      * intros H. apply in_map_iff in H as (y & Ey & Hy). apply symbol_inj in Ey; [subst; contradiction| |]; apply Pos; [now right|now left].
      * apply IH; auto. intros; apply Pos. now right.
    + rewrite En, in_map_iff. intros (i & Es & Hi). apply filter_In in Hi as [Hi Hu]. apply indices_in in Hi; [|lia]. exists i.
      repeat split; auto; try lia. now apply Z.eqb_eq.
    + rewrite En, in_map_iff. intros (i & Hi & K & ->). exists i. split; [reflexivity|]. apply filter_In. split; [apply indices_in; lia|].
      unfold is_u8. now apply Z.eqb_eq.
    + rewrite B2. exact T1.
    + rewrite B3. exact T2.
Qed.
(** With hot reload the module must also be hashable, and its hash structure is kept. *)
Theorem C53_hot_reload e0 buf c : bytes buf -> accepted e0 buf c ->
  ((exists m, module_init (module_new c) true = Ok m) <-> hashable c /\ simple_globals c) /\
  (forall m, module_init (module_new c) true = Ok m -> exists ch, alloc c = Ok ch /\ hm_code_hash m = Some ch /\
     hm_data m = map (fun i => mkData (symbol i) true true) (u8_globals c (c_nglobals c))).
Proof.
  intros B A. destruct (accepted_alloc e0 buf c B A) as [CO SO]. destruct (counts c SO) as (_ & Cg & _).
  assert (Lg : zlen (c_globals c) = 2 * c_nglobals c) by (destruct SO; tauto).
  destruct (C53_init e0 buf c B A) as (S1 & S2 & _).
  assert (Dec : simple_globals c \/ ~ simple_globals c).
  { destruct (module_init (module_new c) false) as [m|e|p] eqn:E.
    - left. apply S1. eauto.
    - right. intros S. destruct (proj2 S1 S) as [m E']. discriminate.
    - right. intros S. destruct (proj2 S1 S) as [m E']. discriminate. }
  clear S1 S2.
  unfold module_init in *. cbn [rbind rret module_new hm_code hm_data hm_values] in *.
  assert (K : forall ch, alloc c = Ok ch -> let m0 := {| hm_code := c; hm_data := []; hm_values := []; hm_functions_ptrs := hm_functions_ptrs (module_new c);
      hm_functions_indexes := hm_functions_indexes (module_new c); hm_code_hash := Some ch |} in
     (simple_globals c -> exists m', init_globals m0 = Ok m' /\ built c m0 (c_nglobals c) m') /\ (~ simple_globals c -> init_globals m0 = Panic PTodo)).
  { intros ch E m0. apply init_globals_ok; auto; lia. }
  split.
  - rewrite <- (C50_exact e0 buf c B A). split.
    + intros [m E]. apply rbind_ok in E as (m0 & E0 & E). apply rbind_ok in E0 as (ch & Ea & E0). split; [eauto|].
      destruct Dec as [|N]; [auto|]. destruct (K ch Ea) as [_ K2]. unfold rret in E0. cbn [module_new hm_functions_ptrs hm_functions_indexes] in *.
      match type of E0 with Ok ?x = _ => assert (m0 = x) as -> by congruence end. rewrite (K2 N) in E. discriminate.
    + intros [[ch Ea] S]. rewrite Ea. cbn [rbind rret]. destruct (K ch Ea) as [K1 _]. destruct (K1 S) as (m & E & _). exists m. exact E.
  - intros m E. apply rbind_ok in E as (m0 & E0 & E). apply rbind_ok in E0 as (ch & Ea & E0). exists ch. split; [auto|].
    unfold rret in E0. match type of E0 with Ok ?x = _ => assert (m0 = x) as -> by congruence end.
    destruct (K ch Ea) as [K1 K2]. destruct Dec as [S|N].
    + destruct (K1 S) as (m' & E' & (_ & _ & _ & B4 & B5 & _)). cbn [hm_code hm_data hm_values module_new hm_functions_ptrs hm_functions_indexes] in E, E'.
      assert (m' = m) as -> by (rewrite E in E'; congruence). split; [rewrite B4; reflexivity|exact B5].
    + cbn [hm_code hm_data hm_values module_new hm_functions_ptrs hm_functions_indexes] in E, K2. rewrite (K2 N) in E. discriminate.
Qed.
(** A void global and eleven u8 ones. *)
Definition ex_globals (gs : list Z) : amod := {|
  am_version := 5; am_debug := false; am_ints := []; am_floats := []; am_strings := [[69]; [67]]; am_bytes := []; am_bytes_pos := [];
  am_debugfiles := []; am_types := [APrim HVOID; APrim HUI8; APrim HI32]; am_globals := gs; am_natives := [];
  am_functions := [{| af_type := 0; af_findex := 0; af_regs := []; af_ops := [IFixed 67 [0]]; af_debug := []; af_assigns := [] |}];
  am_constants := []; am_entrypoint := 0 |}.
Example C53_ex : let c := loaded (ex_globals [1; 0; 1; 1; 1; 1; 1; 1; 1; 1; 1; 1]) in
  accepted None (enc_module (ex_globals [1; 0; 1; 1; 1; 1; 1; 1; 1; 1; 1; 1])) c /\ 
  (exists m, module_init (module_new c) false = Ok m /\ zlen (hm_data m) = 11 /\
     nth 10 (map dd_name (hm_data m)) [] = [36; 103; 108; 111; 98; 97; 108; 49; 49] /\ znth (hm_values m) 3 = Some (GLoad 2 2 1 false)) /\
  (exists m, module_init (module_new c) true = Ok m) /\
  module_init (module_new (loaded (ex_globals [1; 2]))) false = Panic PTodo.
Proof.
  cbv zeta. split; [vm_compute; reflexivity|]. split; [eexists; split; [vm_compute; reflexivity|repeat split]|].
  split; [eexists; vm_compute; reflexivity|vm_compute; reflexivity].
Qed.

(** * C76: setting up a module again *)
(** [init] called once per element of [hs], with that hot-reload flag, on the same module. *)
Fixpoint inits (m : hl_module) (hs : list bool) : R hl_module :=
  match hs with [] => Ok m | h :: hs => m' <~ module_init m h ;; inits m' hs end.
(** The values one round makes when [base] values exist already. *)
Definition values_at (base : Z) (ji : Z * Z) : list global_value := [GSymbol (fst ji); GLoad (base + 2 * fst ji) (i32 (snd ji)) 1 false].
Definition round (c : code) (base n : Z) : list global_value := flat_map (values_at base) (number 0 (u8_globals c n)).
Definition data_of (c : code) : list data_decl := map (fun i => mkData (symbol i) true true) (u8_globals c (c_nglobals c)).

Lemma find_data_at pre : forall x post, (forall d, In d pre -> dd_name d <> dd_name x) ->
  find_data (pre ++ x :: post) (dd_name x) = Some (zlen pre).
Proof.
  induction pre as [|d pre IH]; intros x post N; cbn [app find_data].
  - rewrite (proj2 (str_eqb_eq _ _) eq_refl). reflexivity.
  - destruct (str_eqb (dd_name d) (dd_name x)) eqn:E; [apply str_eqb_eq in E; destruct (N d); [now left|auto]|].
    rewrite IH by (intros; apply N; now right). cbn [option_map]. rewrite zlen_cons. f_equal; lia.
Qed.
Lemma u8_split c n : 0 <= n < c_nglobals c -> is_u8 c n = true -> exists post, u8_globals c (c_nglobals c) = u8_globals c n ++ n :: post.
Proof.
  intros Hn U. unfold u8_globals, indices. replace (Z.to_nat (c_nglobals c)) with (Z.to_nat n + S (Z.to_nat (c_nglobals c - n - 1)))%nat by lia.
  rewrite seq_app, map_app, filter_app. cbn [seq map filter]. rewrite Nat.add_0_l, Z2Nat.id by lia. rewrite U. eauto.
Qed.
(** Another round on a module whose data objects are already declared. *)
Lemma again c m : hm_code m = c -> hm_data m = data_of c -> 0 <= c_nglobals c <= zlen (c_globals c) -> simple_globals c ->
  exists m', init_globals m = Ok m' /\ hm_code m' = c /\ hm_functions_ptrs m' = hm_functions_ptrs m /\ hm_functions_indexes m' = hm_functions_indexes m /\
    hm_code_hash m' = hm_code_hash m /\ hm_data m' = data_of c /\ hm_values m' = hm_values m ++ round c (zlen (hm_values m)) (c_nglobals c).
Proof.
  intros Ec Ed Hn S. unfold init_globals. rewrite Ec.
  set (body := fun (i : Z) (m0 : hl_module) => _).
  apply (rfor_ok (fun i m' => hm_code m' = c /\ hm_functions_ptrs m' = hm_functions_ptrs m /\ hm_functions_indexes m' = hm_functions_indexes m /\
    hm_code_hash m' = hm_code_hash m /\ hm_data m' = data_of c /\ hm_values m' = hm_values m ++ round c (zlen (hm_values m)) i) (c_nglobals c) body m).
  - lia.
  - repeat split; auto. unfold round. cbn [u8_globals indices]. rewrite app_nil_r. reflexivity.
  - intros i m' Hi (B1 & B2 & B3 & B4 & B5 & B6). unfold body. rewrite B1. rewrite (znth_entry vt_default (c_globals c) i) by lia. cbn [need rbind].
    destruct (Z.eqb_spec (vt_kind (entry vt_default (c_globals c) i)) HUI8) as [K|K].
    + eexists. split; [reflexivity|]. assert (U : is_u8 c i = true) by (unfold is_u8; now apply Z.eqb_eq).
      assert (Eu : u8_globals c (i + 1) = u8_globals c i ++ [i]).
      { unfold u8_globals. rewrite indices_S, filter_app by lia. cbn [filter]. now rewrite U. }
      destruct (u8_split c i Hi U) as [post Ep].
      assert (F : find_data (hm_data m') (global_prefix ++ decimal i) = Some (zlen (u8_globals c i))).
      { rewrite B5. unfold data_of. rewrite Ep, map_app. cbn [map]. change (global_prefix ++ decimal i) with (dd_name (mkData (symbol i) true true)).
        rewrite find_data_at.
        - now rewrite zlen_map.
        - intros d Hd E. apply in_map_iff in Hd as (j & <- & Hj). apply filter_In in Hj as [Hj _]. apply (indices_in i j ltac:(lia)) in Hj. cbn [dd_name] in E.
          apply (symbol_inj j i) in E; lia. }
      unfold translate_global, declare_data. rewrite F. cbn [hm_code hm_functions_ptrs hm_functions_indexes hm_code_hash hm_data hm_values].
      repeat split; auto. rewrite B6, <- app_assoc. f_equal. unfold round. rewrite Eu, number_app, flat_map_app. f_equal.
      cbn [number flat_map app]. unfold values_at at 2. cbn [fst snd]. rewrite zlen_app, flat2_len by reflexivity. rewrite number_len, as_i32_i32. reflexivity.
    + assert (K2 : vt_kind (entry vt_default (c_globals c) i) = HVOID) by (destruct (S i Hi) as [H|[H|[]]]; congruence). rewrite K2. cbn.
      exists m'. split; [reflexivity|]. repeat split; auto. rewrite B6. f_equal. unfold round.
      assert (Eu : u8_globals c (i + 1) = u8_globals c i).
      { unfold u8_globals. rewrite indices_S, filter_app by lia. cbn [filter]. replace (is_u8 c i) with false; [apply app_nil_r|].
        symmetry. unfold is_u8. rewrite K2. reflexivity. }
      now rewrite Eu.
Qed.
Definition rounds (c : code) (hs : list bool) (k : Z) : list global_value :=
  flat_map (fun r => round c (2 * zlen (u8_globals c (c_nglobals c)) * fst r) (c_nglobals c)) (number k hs).
Lemma round_len c base n : zlen (round c base n) = 2 * zlen (u8_globals c n).
Proof. unfold round. rewrite flat2_len by reflexivity. now rewrite number_len. Qed.

Lemma more_inits c (Hn : 0 <= c_nglobals c <= zlen (c_globals c)) (S : simple_globals c) hs : forall m k, 0 <= k ->
  hm_code m = c -> hm_data m = data_of c -> zlen (hm_values m) = 2 * zlen (u8_globals c (c_nglobals c)) * k ->
  (In true hs -> exists ch, alloc c = Ok ch) ->
  exists m', inits m hs = Ok m' /\ hm_code m' = c /\ hm_functions_ptrs m' = hm_functions_ptrs m /\ hm_functions_indexes m' = hm_functions_indexes m /\
    hm_data m' = data_of c /\ hm_values m' = hm_values m ++ rounds c hs k /\
    hm_code_hash m' = (if existsb (fun h => h) hs then match alloc c with Ok ch => Some ch | _ => None end else hm_code_hash m).
Proof.
  induction hs as [|h hs IH]; intros m k Hk Ec Ed Ev Ea.
  - exists m. cbn [inits existsb]. unfold rounds. cbn [number flat_map]. rewrite app_nil_r. repeat split; auto.
  - cbn [inits]. unfold module_init.
    set (m0 := if h then match alloc c with Ok ch => {| hm_code := hm_code m; hm_data := hm_data m; hm_values := hm_values m;
                  hm_functions_ptrs := hm_functions_ptrs m; hm_functions_indexes := hm_functions_indexes m; hm_code_hash := Some ch |} | _ => m end else m).
    assert (E0 : (if h then h0 <~ alloc (hm_code m) ;; rret {| hm_code := hm_code m; hm_data := hm_data m; hm_values := hm_values m;
                  hm_functions_ptrs := hm_functions_ptrs m; hm_functions_indexes := hm_functions_indexes m; hm_code_hash := Some h0 |} else rret m) = Ok m0).
    { unfold m0. rewrite Ec. destruct h; [|reflexivity]. destruct (Ea ltac:(now left)) as [ch ->]. reflexivity. }
    rewrite E0. cbn [rbind].
    assert (P : hm_code m0 = c /\ hm_data m0 = data_of c /\ hm_values m0 = hm_values m /\ hm_functions_ptrs m0 = hm_functions_ptrs m /\
       hm_functions_indexes m0 = hm_functions_indexes m /\ hm_code_hash m0 = if h then match alloc c with Ok ch => Some ch | _ => None end else hm_code_hash m).
    { unfold m0. destruct h; [|repeat split; auto]. destruct (Ea ltac:(now left)) as [ch ->]. cbn. repeat split; auto. }
    destruct P as (P1 & P2 & P3 & P4 & P5 & P6).
    destruct (again c m0 P1 P2 Hn S) as (m1 & -> & Q1 & Q2 & Q3 & Q4 & Q5 & Q6). cbn [rbind].
    assert (Lv : zlen (hm_values m1) = 2 * zlen (u8_globals c (c_nglobals c)) * (k + 1)) by (rewrite Q6, zlen_app, round_len, P3, Ev; lia).
    destruct (IH m1 (k + 1) ltac:(lia) Q1 Q5 Lv (fun H => Ea (or_intror H))) as (m' & -> & R1 & R2 & R3 & R4 & R5 & R6).
    exists m'. split; [reflexivity|]. repeat split; auto; try congruence.
    + rewrite R5, Q6, P3, Ev, <- app_assoc. f_equal.
    + rewrite R6, Q4, P6. cbn [existsb]. destruct h, (existsb (fun h => h) hs); reflexivity.
Qed.

(** Any number of set-ups of the same module succeed iff every declared global is void or u8 and, if hot reload is asked for
    once, the module is hashable; after any number of them (at least one) the same data objects are declared as after one,
    the function tables are unchanged, the hash structure is there iff it was asked for, and each round has added one pair of
    values per u8 global, numbered on from the ones before. *)
Theorem C76_reinit e0 buf c h hs : bytes buf -> accepted e0 buf c ->
  ((exists m, inits (module_new c) (h :: hs) = Ok m) <-> simple_globals c /\ (In true (h :: hs) -> hashable c)) /\
  (forall m, inits (module_new c) (h :: hs) = Ok m ->
     hm_data m = map (fun i => mkData (symbol i) true true) (u8_globals c (c_nglobals c)) /\
     hm_values m = flat_map (fun r => flat_map (values_at (2 * zlen (u8_globals c (c_nglobals c)) * fst r)) (number 0 (u8_globals c (c_nglobals c)))) (number 0 (h :: hs)) /\
     hm_functions_ptrs m = hm_functions_ptrs (module_new c) /\ hm_functions_indexes m = hm_functions_indexes (module_new c) /\
     hm_code m = c /\ (hm_code_hash m <> None <-> In true (h :: hs)) /\ (forall ch, hm_code_hash m = Some ch -> alloc c = Ok ch)).
Proof.
  intros B A. destruct (accepted_alloc e0 buf c B A) as [CO SO]. destruct (counts c SO) as (_ & Cg & _).
  assert (Lg : zlen (c_globals c) = 2 * c_nglobals c) by (destruct SO; tauto).
  assert (Hn : 0 <= c_nglobals c <= zlen (c_globals c)) by lia.
  destruct (C53_init e0 buf c B A) as (F1 & _ & F2). destruct (C53_hot_reload e0 buf c B A) as (G1 & G2).
  assert (First : forall m1, module_init (module_new c) h = Ok m1 -> simple_globals c /\ (h = true -> hashable c) /\
     hm_code m1 = c /\ hm_data m1 = data_of c /\ hm_values m1 = round c 0 (c_nglobals c) /\ hm_functions_ptrs m1 = hm_functions_ptrs (module_new c) /\
     hm_functions_indexes m1 = hm_functions_indexes (module_new c) /\ hm_code_hash m1 = if h then match alloc c with Ok ch => Some ch | _ => None end else None).
  { intros m1 E1.
    assert (SH : simple_globals c /\ (h = true -> hashable c)).
    { destruct h; [assert (X : exists m, module_init (module_new c) true = Ok m) by eauto; apply G1 in X; tauto|].
      assert (X : exists m, module_init (module_new c) false = Ok m) by eauto. apply F1 in X. split; [auto|discriminate]. }
    destruct SH as [S Hh]. split; [auto|]. split; [auto|].
    assert (Er : round c 0 (c_nglobals c) = flat_map values_for (number 0 (u8_globals c (c_nglobals c)))) by reflexivity.
    unfold module_init in E1. apply rbind_ok in E1 as (m0 & E0 & E1).
    assert (P : hm_code m0 = c /\ hm_data m0 = [] /\ hm_values m0 = [] /\ hm_functions_ptrs m0 = hm_functions_ptrs (module_new c) /\
       hm_functions_indexes m0 = hm_functions_indexes (module_new c) /\ hm_code_hash m0 = if h then match alloc c with Ok ch => Some ch | _ => None end else None).
    { destruct h; [apply rbind_ok in E0 as (ch & Ea & E0); change (hm_code (module_new c)) with c in Ea; rewrite Ea|]; unfold rret in E0;
        match type of E0 with Ok ?x = _ => assert (m0 = x) as -> by congruence end; repeat split. }
    destruct P as (P1 & P2 & P3 & P4 & P5 & P6). destruct (init_globals_ok c m0 P1 P2 P3 Hn) as [I _]. destruct (I S) as (m' & E' & (B1 & B2 & B3 & B4 & B5 & B6)).
    assert (m' = m1) as -> by congruence. rewrite Er. unfold data_of. repeat split; congruence. }
  assert (All : forall m1, module_init (module_new c) h = Ok m1 -> (In true hs -> exists ch, alloc c = Ok ch) -> exists m', inits m1 hs = Ok m' /\
     hm_code m' = c /\ hm_functions_ptrs m' = hm_functions_ptrs m1 /\ hm_functions_indexes m' = hm_functions_indexes m1 /\
     hm_data m' = data_of c /\ hm_values m' = hm_values m1 ++ rounds c hs 1 /\
     hm_code_hash m' = (if existsb (fun h => h) hs then match alloc c with Ok ch => Some ch | _ => None end else hm_code_hash m1)).
  { intros m1 E1 Ha. destruct (First m1 E1) as (S & _ & Q1 & Q2 & Q3 & _). apply more_inits; auto; [lia|]. rewrite Q3, round_len. lia. }
  assert (Need : forall l m m', hm_code m = c -> inits m l = Ok m' -> In true l -> exists ch, alloc c = Ok ch).
  { induction l as [|x l IH]; intros m m' Em E; [intros []|]. intros [->|Hin].
    - cbn [inits] in E. apply rbind_ok in E as (m2 & E & _). unfold module_init in E. apply rbind_ok in E as (m3 & E & _). rewrite Em in E. apply rbind_ok in E as (ch & E & _). eauto.
    - cbn [inits] in E. apply rbind_ok in E as (m2 & E2 & E). apply (IH m2 m'); auto.
      unfold module_init in E2. apply rbind_ok in E2 as (m3 & E3 & E2).
      assert (C3 : hm_code m3 = c).
      { destruct x; [apply rbind_ok in E3 as (ch & _ & E3)|]; unfold rret in E3; match type of E3 with Ok ?y = _ => assert (m3 = y) as -> by congruence end; exact Em. }
      clear - E2 C3 Hn. unfold init_globals in E2. rewrite C3 in E2. refine (rfor_inv (fun _ m => hm_code m = c) _ _ _ _ (proj1 Hn) C3 _ E2). intros i a b Hi Ca X. cbv beta in X. rewrite Ca in X.
      destruct (znth (c_globals c) i) as [t|]; [|discriminate]. cbn [need rbind] in X.
      destruct (vt_kind t =? HUI8).
      + unfold rret in X. match type of X with Ok ?y = _ => assert (b = y) as -> by congruence end. unfold translate_global, declare_data.
        destruct (find_data (hm_data a) (global_prefix ++ decimal i)); exact Ca.
      + destruct (vt_kind t =? HVOID); unfold rret in X; congruence. }
  split.
  - split.
    + intros [m E]. pose proof (Need (h :: hs) (module_new c) m eq_refl E) as Hh. cbn [inits] in E. apply rbind_ok in E as (m1 & E1 & E).
      destruct (First m1 E1) as (S & _). split; [auto|]. intros Hin. apply (C50_exact e0 buf c B A). auto.
    + intros [S Hh]. assert (X : exists m1, module_init (module_new c) h = Ok m1).
      { destruct h; [apply G1; split; [apply Hh; now left|auto]|now apply F1]. }
      destruct X as [m1 E1]. destruct (All m1 E1) as (m & E & _).
      * intros Hin. apply (C50_exact e0 buf c B A). apply Hh. now right.
      * exists m. cbn [inits]. rewrite E1. exact E.
  - intros m E. pose proof (Need (h :: hs) (module_new c) m eq_refl E) as Hh. cbn [inits] in E. apply rbind_ok in E as (m1 & E1 & E).
    destruct (First m1 E1) as (S & _ & Q1 & Q2 & Q3 & Q4 & Q5 & Q6). destruct (All m1 E1) as (m' & E' & R1 & R2 & R3 & R4 & R5 & R6); [intros; apply Hh; now right|].
    assert (m' = m) as -> by congruence. split; [exact R4|]. split; [|split; [congruence|split; [congruence|split; [auto|]]]].
    + rewrite R5, Q3. cbn [number flat_map fst]. rewrite Z.mul_0_r. reflexivity.
    + rewrite R6, Q6. cbn [In]. destruct (existsb (fun h => h) hs) eqn:Eb.
      * apply existsb_exists in Eb as (x & Hx & ->). destruct (Hh (or_intror Hx)) as [ch ->]. split; [split; [auto|discriminate]|]. intros; congruence.
      * assert (N : ~ In true hs) by (intros Hx; rewrite <- not_true_iff_false in Eb; apply Eb, existsb_exists; eauto).
        destruct h; [destruct (Hh (or_introl eq_refl)) as [ch ->]; split; [split; [auto|discriminate]|intros; congruence]|].
        split; [split; [congruence|intros [X|X]; [discriminate|contradiction]]|discriminate].
Qed.
Example C76_ex : let c := loaded (ex_globals [1; 0; 1; 1]) in accepted None (enc_module (ex_globals [1; 0; 1; 1])) c /\
  exists m, inits (module_new c) [false; true; false] = Ok m /\ zlen (hm_data m) = 3 /\ zlen (hm_values m) = 18 /\
    znth (hm_values m) 8 = Some (GSymbol 1) /\ znth (hm_values m) 9 = Some (GLoad 8 2 1 false).
Proof. cbv zeta. split; [vm_compute; reflexivity|]. eexists. split; [vm_compute; reflexivity|repeat split]. Qed.
