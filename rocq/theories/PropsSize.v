(** Theorem C79: how much memory the types and strings of a module take.  Model: CodeModel.v.
    Vocabulary: FormatSpec.v (files), GrammarSpec.v. *)
From Verif Require Import Prelude StdModel BrassTypes DecoderModel CodeModel FormatSpec ReaderSpec ErrSpec GrammarSpec.
From Verif Require Import CodeGenericProofs Utf8Proofs FormatProofs StringsProofs TypesProofs ReaderPost GrammarNames PropsReader PropsModule PropsGrammar.
From Coq Require Import Lia ZifyBool.
Ltac Zify.zify_post_hook ::= Z.div_mod_to_equations.

(** * Specification *)
(** The number of type values a type owns, itself included: in the crate every reference from a type to another is an owned copy
    (types.rs:61-102: [Vec<ValueType>], [Box<ValueType>], [ObjField.t], ...). *)
Fixpoint values (t : vtype) : Z :=
  match t with
  | VT u _ p _ =>
      1 + (match p with Some q => values q | None => 0 end)
      + match u with
        | FuncType args _ r => (fix go (l : list vtype) := match l with [] => 0 | a :: l => values a + go l end) args + values r
        | ObjType _ s fs _ _ _ _ _ _ _ => values s + (fix go (l : list (obj_field vtype)) := match l with [] => 0 | mkField _ _ a :: l => values a + go l end) fs
        | VirtualType _ fs => (fix go (l : list (obj_field vtype)) := match l with [] => 0 | mkField _ _ a :: l => values a + go l end) fs
        | EnumType _ _ cs _ =>
            (fix go (l : list (enum_construct vtype)) := match l with [] => 0
             | mkCon _ _ ps _ _ _ :: l => (fix go (l : list vtype) := match l with [] => 0 | a :: l => values a + go l end) ps + go l end) cs
        | URef a => values a
        | _ => 0
        end
  end.
(** A module whose [i]-th type is the type of functions from the one before to the one before. *)
Definition tower (n : nat) : amod :=
  {| am_version := 2; am_debug := false; am_ints := []; am_floats := []; am_strings := []; am_bytes := []; am_bytes_pos := []; am_debugfiles := [];
     am_types := APrim HVOID :: map (fun k => AFun false [Z.of_nat k] (Z.of_nat k)) (seq 0 n);
     am_globals := []; am_natives := []; am_functions := []; am_constants := []; am_entrypoint := 0 |}.

(** * Proofs *)
Lemma index_len v : small v -> 1 <= zlen (enc_index v) <= 2.
Proof.
  unfold small, enc_index. cbv zeta. intros H. destruct ((0 <=? v) && (v <? 128)); [cbn; lia|]. destruct (Z.ltb_spec (Z.abs v) 8192); [cbn; lia|lia].
Qed.
Lemma tower_types n : zlen (am_types (tower n)) = Z.of_nat n + 1.
Proof. cbn [am_types tower]. unfold zlen. cbn [length]. rewrite map_length, seq_length. lia. Qed.
Lemma tower_at n i : (i < n)%nat -> znth (am_types (tower n)) (Z.of_nat (S i)) = Some (AFun false [Z.of_nat i] (Z.of_nat i)).
Proof.
  intros L. rewrite znth_nth_error by lia. rewrite Nat2Z.id. cbn [am_types tower nth_error]. rewrite nth_error_map. 
  rewrite (nth_error_nth' _ 0%nat) by (rewrite seq_length; lia). rewrite seq_nth by lia. reflexivity.
Qed.
Lemma tower_names n : flat_map names_of (am_types (tower n)) = [].
Proof. cbn [am_types tower flat_map names_of app]. induction (seq 0 n) as [|k l IH]; [reflexivity|exact IH]. Qed.
Lemma tower_wf n : Z.of_nat n < 8191 -> wf_module (tower n).
Proof.
  intros L. split; [|right; left; discriminate]. unfold encodable. rewrite tower_types, tower_names.
  cbn [am_version am_debug am_ints am_floats am_strings am_bytes am_bytes_pos am_debugfiles am_globals am_natives am_functions am_constants am_entrypoint tower].
  unfold wf_strings, usmall. change (zlen (@nil Z)) with 0. change (zlen (@nil str)) with 0. change (zlen (@nil afun)) with 0. change (zlen (@nil (Z * Z * Z * Z))) with 0. change (zlen (@nil (Z * list Z))) with 0.
  repeat match goal with |- _ /\ _ => split end; try lia; try solve [constructor]; auto.
  cbn [am_types tower]. constructor.
  - repeat split; cbn; auto.
  - apply Forall_forall. intros a Ha. apply in_map_iff in Ha as (k & <- & Hk). apply in_seq in Hk. repeat split; cbn; auto; repeat constructor; lia.
Qed.
Lemma flat_len_le A (f : A -> list Z) k l : (forall x, In x l -> zlen (f x) <= k) -> zlen (flat_map f l) <= k * zlen l.
Proof.
  induction l as [|x l IH]; intros H; [cbn; lia|]. cbn [flat_map]. rewrite zlen_app, zlen_cons. pose proof (H x (or_introl eq_refl)).
  specialize (IH (fun y Hy => H y (or_intror Hy))). lia.
Qed.
Lemma tower_len n : Z.of_nat n < 8191 -> zlen (enc_module (tower n)) <= 6 * Z.of_nat n + 19.
Proof.
  intros L. unfold enc_module, enc_header. rewrite tower_types. cbn [am_version am_debug am_ints am_floats am_strings am_bytes am_bytes_pos am_debugfiles am_globals am_natives am_functions am_constants am_entrypoint tower flat_map app].
  change (5 <=? 2) with false. change (4 <=? 2) with false. cbv iota. rewrite !app_nil_r. rewrite !zlen_cons, !zlen_app. change (zlen (@nil Z)) with 0. change (zlen (@nil str)) with 0. change (zlen (@nil afun)) with 0. change (zlen (@nil (Z * Z * Z * Z))) with 0.
  change (zlen (enc_index 0)) with 1. change (zlen (enc_strings [])) with 4. pose proof (index_len (Z.of_nat n + 1) ltac:(unfold small; lia)).
  cbn [am_types tower flat_map]. rewrite zlen_app. change (zlen (enc_atype (APrim HVOID))) with 1.
  assert (zlen (flat_map enc_atype (map (fun k => AFun false [Z.of_nat k] (Z.of_nat k)) (seq 0 n))) <= 6 * Z.of_nat n).
  { replace (Z.of_nat n) with (zlen (map (fun k => AFun false [Z.of_nat k] (Z.of_nat k)) (seq 0 n))) by (unfold zlen; rewrite map_length, seq_length; reflexivity).
    apply flat_len_le. intros a Ha. apply in_map_iff in Ha as (k & <- & Hk). apply in_seq in Hk. cbn [enc_atype flat_map]. rewrite !zlen_cons, app_nil_r, zlen_app.
    pose proof (index_len (Z.of_nat k) ltac:(unfold small; lia)). lia. }
  lia.
Qed.
Lemma values_fun a r m k : values (VT (FuncType [a] m r) None None k) = 1 + values a + values r.
Proof. cbn [values]. lia. Qed.

(** * C79 *)
(** Violated: the number of type values is exponential in the size of the file.  At most [6 n + 19] bytes make a valid file whose last type
    takes [2 ^ (n + 1) - 1] of them (each the size of a [ValueType]), for all [n] below 8191. *)
Theorem C79_types_refuted n : Z.of_nat n < 8191 -> wf_module (tower n) /\ zlen (enc_module (tower n)) <= 6 * Z.of_nat n + 19 /\
  exists c t, accepted None (enc_module (tower n)) c /\ znth (c_types c) (Z.of_nat n) = Some t /\ values t = 2 ^ (Z.of_nat n + 1) - 1.
Proof.
  intros L. split; [now apply tower_wf|]. split; [now apply tower_len|]. destruct (C37_roundtrip (tower n) [] (tower_wf n L)) as [u E]. rewrite app_nil_r in E.
  set (ts := view_types (am_strings (tower n)) (am_types (tower n))).
  assert (Lt : zlen ts = Z.of_nat n + 1) by (unfold ts; rewrite view_types_len; apply tower_types).
  assert (B : forall i, (i <= n)%nat -> exists t, znth ts (Z.of_nat i) = Some t /\ values t = 2 ^ (Z.of_nat i + 1) - 1).
  { induction i as [|i IH]; intros Hi.
    - exists (VT UNull None None HVOID). split; [|reflexivity]. unfold ts. rewrite (C35_backward_partial _ _ 0 (APrim HVOID)); [reflexivity|reflexivity|constructor].
    - destruct (IH ltac:(lia)) as (t & Zt & Vt). eexists. split.
      + unfold ts. rewrite (C35_backward_partial _ _ _ _ (tower_at n i ltac:(lia))); [reflexivity|]. cbn [refs_of app]. repeat constructor; lia.
      + fold ts. cbn [view_type map]. assert (T : ty ts (Z.of_nat i) = t).
        { unfold ty. rewrite znth_nth_error in Zt by lia. now apply nth_error_nth. }
        rewrite T, values_fun, Vt. replace (Z.of_nat (S i) + 1) with (Z.succ (Z.of_nat i + 1)) by lia. rewrite Z.pow_succ_r by lia. lia. }
  destruct (B n (le_n _)) as (t & Zt & Vt). exists (view_module (tower n) u), t. split; [unfold accepted; now rewrite E|]. split; [|exact Vt].
  cbn [view_module c_types]. fold ts. rewrite znth_app_l by lia. exact Zt.
Qed.
(** So a file of 379 bytes needs at least 2^61 - 1 type values. *)
Example C79_ex : zlen (enc_module (tower 60)) <= 379 /\ exists c t, accepted None (enc_module (tower 60)) c /\ znth (c_types c) 60 = Some t /\ values t = 2305843009213693951.
Proof. destruct (C79_types_refuted 60 ltac:(lia)) as (_ & L & H). split; [exact L|exact H]. Qed.

(** It is at most exponential. *)
Lemma values_ty ts k M : 1 <= M -> (forall t, In t ts -> values t <= M) -> values (ty ts k) <= M.
Proof. intros HM H. unfold ty. destruct (nth_in_or_default (Z.to_nat k) ts vt_default) as [I| ->]; [auto|exact HM]. Qed.
Lemma values_list M l : (forall t, In t l -> values t <= M) ->
  (fix go (l : list vtype) := match l with [] => 0 | a :: l => values a + go l end) l <= zlen l * M.
Proof. induction l as [|t l IH]; intros H; [cbn; lia|]. rewrite zlen_cons. specialize (IH (fun x Hx => H x (or_intror Hx))). specialize (H t (or_introl eq_refl)). lia. Qed.
Lemma values_fields M l : (forall f, In f l -> values (fd_t f) <= M) ->
  (fix go (l : list (obj_field vtype)) := match l with [] => 0 | mkField _ _ a :: l => values a + go l end) l <= zlen l * M.
Proof. induction l as [|[a b t] l IH]; intros H; [cbn; lia|]. rewrite zlen_cons. specialize (IH (fun x Hx => H x (or_intror Hx))). specialize (H _ (or_introl eq_refl)). cbn [fd_t] in H. lia. Qed.
Lemma fields_bound M ts xs (fs : list (Z * Z)) : 1 <= M -> (forall t, In t ts -> values t <= M) ->
  (fix go (l : list (obj_field vtype)) := match l with [] => 0 | mkField _ _ a :: l => values a + go l end) (map (mean_field ts) (combine xs (map snd fs))) <= zlen fs * M.
Proof.
  intros HM H. etransitivity; [apply (values_fields M)|].
  - intros f Hf. apply in_map_iff in Hf as ([a b] & <- & _). now apply values_ty.
  - apply Z.mul_le_mono_nonneg_r; [lia|]. unfold zlen. rewrite map_length, combine_length, map_length. lia.
Qed.
Lemma cons_bound M ts : 1 <= M -> (forall t, In t ts -> values t <= M) -> forall (cs : list (Z * list Z)) xs,
  (fix go (l : list (enum_construct vtype)) := match l with [] => 0
     | mkCon _ _ ps _ _ _ :: l => (fix go (l : list vtype) := match l with [] => 0 | a :: l => values a + go l end) ps + go l end)
    (map (fun p => mkCon (fst p) (zlen (snd p)) (map (ty ts) (snd p)) 0 false []) (combine xs (map snd cs))) <= zlen (flat_map snd cs) * M.
Proof.
  intros HM H. induction cs as [|[a ps] cs IH]; intros xs; [destruct xs; cbn; lia|]. destruct xs as [|x xs]; cbn [map combine flat_map snd fst].
  { pose proof (zlen_nonneg (ps ++ flat_map snd cs)). nia. }
  rewrite zlen_app. specialize (IH xs). assert (P : (fix go (l : list vtype) := match l with [] => 0 | a :: l => values a + go l end) (map (ty ts) ps) <= zlen ps * M).
  { etransitivity; [apply (values_list M)|unfold zlen; rewrite map_length; lia]. intros t Ht. apply in_map_iff in Ht as (k & <- & _). now apply values_ty. }
  lia.
Qed.
Lemma type_values xs ts a M : 1 <= M -> (forall t, In t ts -> values t <= M) -> values (mean_type xs ts a) <= 1 + (1 + zlen (refs_of a)) * M.
Proof.
  intros HM H. pose proof (values_ty ts) as V. destruct a as [k|m args r|st name sup g fs ps ds|fs|n|n g cs|k t]; cbn [mean_type values refs_of].
  - change (zlen (@nil Z)) with 0. lia.
  - assert (P : (fix go (l : list vtype) := match l with [] => 0 | a :: l => values a + go l end) (map (ty ts) args) <= zlen args * M).
    { etransitivity; [apply (values_list M)|unfold zlen; rewrite map_length; lia]. intros t Ht. apply in_map_iff in Ht as (k & <- & _). now apply values_ty. }
    specialize (V r M HM H). rewrite zlen_app. change (zlen [r]) with 1. lia.
  - pose proof (fields_bound M ts (skipn 1 xs) fs HM H) as P. rewrite zlen_app. replace (zlen (map snd fs)) with (zlen fs) by (unfold zlen; now rewrite map_length).
    destruct sup as [s|]; [specialize (V s M HM H); change (zlen [s]) with 1; lia|]. change (values vt_default) with 1. change (zlen (@nil Z)) with 0. lia.
  - pose proof (fields_bound M ts xs fs HM H) as P. replace (zlen (map snd fs)) with (zlen fs) by (unfold zlen; now rewrite map_length). lia.
  - change (zlen (@nil Z)) with 0. lia.
  - pose proof (cons_bound M ts HM H cs (skipn 1 xs)) as P. lia.
  - specialize (V t M HM H). change (zlen [t]) with 1. lia.
Qed.
Lemma both_len A B (P : list Z -> A -> Prop) (Q : list Z -> B -> Prop) p q : (forall b x, P b x -> p <= zlen b) -> (forall b x, Q b x -> q <= zlen b) ->
  forall b x, both P Q b x -> p + q <= zlen b.
Proof. intros HP HQ b x (b1 & b2 & -> & H1 & H2). rewrite zlen_app. apply HP in H1. apply HQ in H2. lia. Qed.
Lemma type_refs b a : spell_type b a -> 1 + zlen (refs_of a) <= zlen b.
Proof.
  destruct a as [k|m args r|st name sup g fs ps ds|fs|n|n g cs|k t]; cbn [spell_type refs_of].
  - intros (-> & _). cbn. lia.
  - intros (a & b' & -> & _ & M & I). rewrite !zlen_cons, !zlen_app. apply (many_count _ _ 1) in M; [|exact ix_len]. apply ix_len in I. change (zlen [r]) with 1. lia.
  - intros (b1 & b2 & b3 & b4 & b5 & b6 & b7 & b8 & b9 & -> & H1 & (k & H2 & Hs) & H3 & _ & _ & _ & M & _). rewrite zlen_cons, !zlen_app. apply ix_len in H1, H2. apply uix_len in H3.
    apply (many_count _ _ 2) in M; [|apply (both_len _ _ ix ix 1 1); exact ix_len]. replace (zlen (map snd fs)) with (zlen fs) by (unfold zlen; now rewrite map_length).
    assert (zlen (match sup with Some k => [k] | None => [] end) <= 1) by (destruct sup; cbn; lia).
    pose proof (zlen_nonneg b4). pose proof (zlen_nonneg b5). pose proof (zlen_nonneg b6). pose proof (zlen_nonneg b8). pose proof (zlen_nonneg b9). pose proof (zlen_nonneg fs). lia.
  - intros (b1 & b2 & -> & _ & M). rewrite zlen_cons, zlen_app. apply (many_count _ _ 2) in M; [|apply (both_len _ _ ix ix 1 1); exact ix_len].
    replace (zlen (map snd fs)) with (zlen fs) by (unfold zlen; now rewrite map_length). pose proof (zlen_nonneg fs). pose proof (zlen_nonneg b1). lia.
  - intros (b' & -> & _). rewrite zlen_cons. pose proof (zlen_nonneg b'). change (zlen (@nil Z)) with 0. lia.
  - intros (b1 & b2 & b3 & b4 & -> & _ & _ & _ & M). rewrite zlen_cons, !zlen_app. pose proof (zlen_nonneg b1). pose proof (zlen_nonneg b2). pose proof (zlen_nonneg b3).
    enough (zlen (flat_map snd cs) <= zlen b4) by lia. clear - M. induction M as [|b bs [x ps] xs (c0 & c1 & -> & _ & (d1 & d2 & -> & _ & Mp)) M IH]; [cbn; lia|]. cbn [flat_map snd]. rewrite !zlen_app.
    cbn [snd] in Mp. apply (many_count _ _ 1) in Mp; [|exact ix_len]. pose proof (zlen_nonneg c0). pose proof (zlen_nonneg d1). lia.
  - intros (b' & -> & _ & I). rewrite !zlen_cons. apply ix_len in I. change (zlen (@nil Z)) with 0. lia.
Qed.
Lemma small_pow r : 0 <= r -> 2 + r <= 2 ^ (1 + r).
Proof. apply (natlike_ind (fun r => 2 + r <= 2 ^ (1 + r))); [cbn; lia|]. intros x Hx IH. replace (1 + Z.succ x) with (Z.succ (1 + x)) by lia. rewrite Z.pow_succ_r by lia. lia. Qed.
Lemma types_values ss bs ats : many spell_type bs ats -> forall ins ts M, 1 <= M -> (forall t, In t ts -> values t <= M) ->
  forall t, In t (fst (mean_types ss ins ts ats)) -> values t <= 2 ^ zlen bs * M.
Proof.
  intros H. induction H as [|b bs a ats Ha H IH]; intros ins ts M HM V t It.
  - cbn in It. specialize (V t It). change (2 ^ zlen (@nil Z)) with 1. lia.
  - cbn [mean_types] in It. destruct (resolve (zlen ss) ins (names_of a)) as [ms ins']. pose proof (type_refs _ _ Ha) as R. pose proof (zlen_nonneg b) as Lb. pose proof (zlen_nonneg bs) as Lbs.
    assert (P1 : 2 ^ (1 + zlen (refs_of a)) <= 2 ^ zlen b) by (apply Z.pow_le_mono_r; lia). pose proof (zlen_nonneg (refs_of a)) as Lr. pose proof (small_pow (zlen (refs_of a)) Lr) as P2.
    specialize (IH ins' (ts ++ [mean_type (map (nm ss) ms) ts a]) (2 ^ zlen b * M)). rewrite zlen_app, Z.pow_add_r by lia. rewrite <- Z.mul_assoc, (Z.mul_comm (2 ^ zlen b)), <- Z.mul_assoc. 
    assert (E : 2 ^ zlen bs * (M * 2 ^ zlen b) = 2 ^ zlen bs * (2 ^ zlen b * M)) by ring.
    assert (Q : values t <= 2 ^ zlen bs * (2 ^ zlen b * M)); [|nia].
    apply IH; [nia| |exact It]. intros u Hu. apply in_app_iff in Hu as [Hu|[<-|[]]].
    + specialize (V u Hu). nia.
    + pose proof (type_values (map (nm ss) ms) ts a M HM V). nia.
Qed.
Theorem C79_types_bound file c t : bytes file -> zlen file < 2 ^ 63 -> accepted None file c -> In t (c_types c ++ c_globals c) -> values t <= 2 ^ zlen file.
Proof.
  intros B L A I. apply C66_exact in A; auto. destruct A as (used & rest & m & ss & fs & -> & S & G & ->). rewrite zlen_app. pose proof (zlen_nonneg rest).
  destruct S as (h & s1 & s2 & s3 & s4 & s5 & -> & _ & _ & _ & _ & _ & _ & M & _).
  pose proof (types_values ss s4 (rm_types m) M [] [] 1 ltac:(lia) ltac:(intros ? [])) as V. unfold mean_module in I. destruct (mean_types ss [] [] (rm_types m)) as [ts ins] eqn:Em. cbn [fst] in V.
  set (w := zlen _ + zlen rest). assert (W : zlen s4 <= w).
  { unfold w. rewrite !zlen_app. repeat match goal with |- context [zlen ?x] => lazymatch goal with H : 0 <= zlen x |- _ => fail | _ => pose proof (zlen_nonneg x) end end. lia. }
  assert (P : 2 ^ zlen s4 <= 2 ^ w) by (apply Z.pow_le_mono_r; lia). assert (D : 1 <= 2 ^ zlen s4) by (pose proof (zlen_nonneg s4); change 1 with (2 ^ 0); apply Z.pow_le_mono_r; lia).
  assert (V' : forall t, In t ts -> values t <= 2 ^ zlen s4) by (intros u Hu; specialize (V u Hu); lia).
  destruct (negb (rm_debug m) && (zlen (rm_types m) =? 0) && (zlen (rm_constants m) =? 0)); [destruct I|]. cbn [c_types c_globals] in I.
  rewrite !in_app_iff in I. enough (values t <= 2 ^ zlen s4) by lia.
  destruct I as [[I|I]|[I|I]]; [auto| | |].
  - apply repeat_spec in I. subst. exact D.
  - apply in_map_iff in I as (k & <- & _). now apply values_ty.
  - apply repeat_spec in I. subst. exact D.
Qed.

(** The text of the strings is linear... *)
Lemma lossy_len fuel : forall s, (length s <= fuel)%nat -> zlen (lossy_fuel fuel s) <= 3 * zlen s.
Proof.
  induction fuel as [|f IH]; intros s H; [pose proof (zlen_nonneg s); change (zlen (lossy_fuel 0 s)) with 0; lia|]. cbn [lossy_fuel]. destruct s as [|b r] eqn:Es; [cbn; lia|]. rewrite <- Es in *.
  assert (1 <= length s)%nat by (rewrite Es; cbn; lia). destruct (utf8_head s) as [[] n] eqn:E; pose proof (utf8_head_len s _ _ ltac:(congruence) E) as N; specialize (IH (skipn n s)); rewrite zlen_app; unfold zlen in *; rewrite skipn_length in IH; rewrite ?firstn_length; change (length replacement) with 3%nat; lia.
Qed.
Lemma cuts_total text : forall n cur sizes ss, cuts text n cur sizes ss -> total zlen ss <= Z.max 0 (zlen text - cur).
Proof.
  induction n as [|n IH]; intros cur [|k sizes] [|s ss]; cbn [cuts]; try tauto; [cbn; lia|]. intros ((pre & post & E & Hp & Hk & _) & H).
  change (total zlen (s :: ss)) with (zlen s + total zlen ss). assert (zlen text = cur + k + zlen post) by (rewrite E, !zlen_app; lia). pose proof (zlen_nonneg post). pose proof (zlen_nonneg s).
  destruct (Z.leb_spec (zlen text) (cur + k)); [destruct H as (-> & ->); cbn; lia|]. apply IH in H. lia.
Qed.
Lemma strings_total b t ss : spell_strings b t -> strings_of t ss -> total zlen ss <= 3 * zlen b.
Proof.
  intros (c & -> & _ & _) (_ & C). apply cuts_total in C. pose proof (lossy_len (length (rs_text t)) (rs_text t) (le_n _)) as L. fold (from_utf8_lossy (rs_text t)) in L. rewrite !zlen_app.
  pose proof (zlen_nonneg (enc_le 4 (zlen (rs_text t)))). pose proof (zlen_nonneg (rs_text t)). pose proof (zlen_nonneg c). lia.
Qed.
Theorem C79_text_partial file c : bytes file -> zlen file < 2 ^ 63 -> accepted None file c ->
  total zlen (c_strings c) + total zlen (c_debugfiles c) <= 3 * zlen file.
Proof.
  intros B L A. apply C66_exact in A; auto. destruct A as (used & rest & m & ss & fs & -> & S & G & ->). rewrite zlen_app. pose proof (zlen_nonneg rest). unfold mean_module.
  destruct (mean_types ss [] [] (rm_types m)) as [ts ins]. destruct (negb (rm_debug m) && (zlen (rm_types m) =? 0) && (zlen (rm_constants m) =? 0)). { cbn [total fold_right c_strings c_debugfiles code_new]. pose proof (zlen_nonneg used). lia. }
  destruct S as (h & s1 & s2 & s3 & s4 & s5 & -> & _ & _ & _ & S1 & _ & S3 & _). destruct G as (_ & G1 & G2 & _). cbn [c_strings c_debugfiles]. apply (strings_total _ _ _ S1) in G1.
  assert (X : total zlen fs <= 3 * zlen s3).
  { unfold spell_debugfiles in S3. destruct (rm_debug m).
    - destruct S3 as (b1 & b2 & -> & _ & S3). apply (strings_total _ _ _ S3) in G2. rewrite zlen_app. pose proof (zlen_nonneg b1). lia.
    - destruct S3 as (-> & E). rewrite E in G2. destruct G2 as (_ & C). apply cuts_total in C. cbn in C |- *. lia. }
  rewrite !zlen_app. pose proof (zlen_nonneg h). pose proof (zlen_nonneg (flat_map (enc_le 4) (rm_ints m))). pose proof (zlen_nonneg (flat_map (enc_le 8) (rm_floats m))).
  pose proof (zlen_nonneg s2). pose proof (zlen_nonneg s4). pose proof (zlen_nonneg s5). lia.
Qed.
(** ... but each name is a copy of a string, so names are quadratic: [n] abstract types of one name of [n] letters. *)
Definition name_text (t : vtype) : Z := match vt_abs_name t with Some s => zlen s | None => 0 end.
Definition named (n : nat) : amod :=
  {| am_version := 2; am_debug := false; am_ints := []; am_floats := []; am_strings := [repeat 97 n]; am_bytes := []; am_bytes_pos := []; am_debugfiles := [];
     am_types := repeat (AAbstract 0) n;
     am_globals := []; am_natives := []; am_functions := []; am_constants := []; am_entrypoint := 0 |}.
Lemma named_first n : forall seen, (seen = [] \/ In 0 seen) -> increasing_first_use seen (flat_map names_of (repeat (AAbstract 0) n)).
Proof.
  induction n as [|n IH]; intros seen H; [exact I|]. cbn [repeat flat_map names_of app increasing_first_use]. split; [destruct H as [->|H]; [right; constructor|left; exact H]|].
  apply IH. right. now left.
Qed.
Lemma letters_utf8 n : utf8 (repeat 97 n).
Proof. exists (repeat 97 n). split; [apply Forall_forall; intros x Hx; apply repeat_spec in Hx; subst; left; lia|]. induction n as [|n IH]; [reflexivity|]. cbn [repeat flat_map]. rewrite <- IH. reflexivity. Qed.
Lemma named_wf n : 0 < Z.of_nat n < 8192 -> wf_module (named n).
Proof.
  intros L. split; [|right; left; destruct n; [lia|discriminate]]. unfold encodable.
  cbn [am_version am_debug am_ints am_floats am_strings am_bytes am_bytes_pos am_debugfiles am_types am_globals am_natives am_functions am_constants am_entrypoint named].
  unfold wf_strings, usmall. change (zlen (@nil Z)) with 0. change (zlen (@nil str)) with 0. change (zlen (@nil afun)) with 0. change (zlen (@nil (Z * Z * Z * Z))) with 0. change (zlen (@nil (Z * list Z))) with 0.
  change (zlen [repeat 97 n]) with 1. assert (Ln : zlen (repeat (AAbstract 0) n) = Z.of_nat n) by (unfold zlen; now rewrite repeat_length). rewrite Ln.
  repeat match goal with |- _ /\ _ => split end; try lia; try solve [constructor]; auto.
  - repeat constructor; [apply letters_utf8|unfold zlen; rewrite repeat_length; lia].
  - apply Forall_forall. intros a Ha. apply repeat_spec in Ha. subst. repeat split; cbn; repeat constructor; lia.
  - apply named_first. now left.
Qed.
Theorem C79_names_refuted n : 0 < Z.of_nat n < 8192 -> zlen (enc_module (named n)) <= 3 * Z.of_nat n + 21 /\
  exists c, accepted None (enc_module (named n)) c /\ total name_text (c_types c) = Z.of_nat n * Z.of_nat n.
Proof.
  intros L. split.
  - unfold enc_module, enc_header. cbn [am_version am_debug am_ints am_floats am_strings am_bytes am_bytes_pos am_debugfiles am_types am_globals am_natives am_functions am_constants am_entrypoint named flat_map app].
    assert (Ln : zlen (repeat (AAbstract 0) n) = Z.of_nat n) by (unfold zlen; now rewrite repeat_length). rewrite Ln.
    change (5 <=? 2) with false. change (4 <=? 2) with false. cbv iota. unfold enc_strings. cbn [flat_map]. rewrite !app_nil_r. rewrite !zlen_cons, !zlen_app. change (zlen (@nil Z)) with 0. change (zlen (@nil str)) with 0. change (zlen (@nil afun)) with 0. change (zlen (@nil (Z * Z * Z * Z))) with 0.
    change (zlen (enc_index 0)) with 1. change (zlen [repeat 97 n]) with 1. change (zlen (enc_index 1)) with 1. change (zlen [0]) with 1. pose proof (index_len (Z.of_nat n) ltac:(unfold small; lia)). rewrite zlen_enc_le.
    assert (La : zlen (repeat 97 n) = Z.of_nat n) by (unfold zlen; now rewrite repeat_length). rewrite La.
    pose proof (flat_len_le _ enc_atype 2 (repeat (AAbstract 0) n)) as F. rewrite Ln in F. specialize (F ltac:(intros x Hx; apply repeat_spec in Hx; subst; cbn; lia)). change (zlen (enc_index (1 + zlen (@nil (list Z))))) with 1. lia.
  - destruct (C37_roundtrip (named n) [] (named_wf n L)) as [u E]. rewrite app_nil_r in E. exists (view_module (named n) u). split; [unfold accepted; now rewrite E|].
    cbn [view_module c_types]. set (ts := view_types _ _). assert (T : ts = repeat (VT UNull (Some (repeat 97 n)) None HABSTRACT) n).
    { unfold ts, view_types. cbn [am_strings am_types named]. set (x := VT _ _ _ _). assert (G : forall k acc, fold_left (fun ts a => ts ++ [view_type [repeat 97 n] ts a]) (repeat (AAbstract 0) k) acc = acc ++ repeat x k).
      { induction k as [|k IH]; intros acc; [cbn; now rewrite app_nil_r|]. cbn [repeat fold_left]. rewrite IH, <- app_assoc. reflexivity. }
      rewrite G. reflexivity. }
    rewrite T. assert (A : forall l l', total name_text (l ++ l') = total name_text l + total name_text l').
    { induction l as [|y l IH]; intros l'; [reflexivity|]. change (total name_text (y :: l)) with (name_text y + total name_text l). cbn [app]. change (total name_text (y :: l ++ l')) with (name_text y + total name_text (l ++ l')). rewrite IH. lia. }
    rewrite A. assert (R : forall y k, total name_text (repeat y k) = Z.of_nat k * name_text y).
    { intros y. induction k as [|k IH]; [reflexivity|]. cbn [repeat]. change (total name_text (y :: repeat y k)) with (name_text y + total name_text (repeat y k)). rewrite IH. lia. }
    unfold zrepeat. rewrite !R. cbn [name_text vt_abs_name vt_default]. assert (La : zlen (repeat 97 n) = Z.of_nat n) by (unfold zlen; now rewrite repeat_length). rewrite La. lia.
Qed.
Example C79_ex2 : zlen (enc_module (named (Z.to_nat 8000))) <= 24021 /\ exists c, accepted None (enc_module (named (Z.to_nat 8000))) c /\ total name_text (c_types c) = 64000000.
Proof. destruct (C79_names_refuted (Z.to_nat 8000)) as (H1 & H2); [lia|]. rewrite Z2Nat.id in * by lia. split; [exact H1|exact H2]. Qed.

(** * C71, inside functions and the name cache *)
Lemma op_extra b i : spell_op b i -> zlen (o_extra (read_op i)) + 2 <= 2 * zlen b.
Proof.
  assert (D : forall i, zlen (o_extra (read_op i)) <= 2 * zlen (o_extra (view_op i))).
  { intros j. unfold read_op. destruct (padded j); cbn [o_extra]; pose proof (zlen_nonneg (o_extra (view_op j))); [rewrite zlen_app, zlen_repeat; lia|lia]. }
  specialize (D i). intros H. enough (zlen (o_extra (view_op i)) + 1 <= zlen b) by lia. clear D.
  destruct i as [op args|op p1 p2 xs|r offs e]; cbn [spell_op view_op o_extra] in *.
  - destruct H as (c & -> & _ & M). rewrite zlen_cons. apply (many_count _ _ 1) in M; [|exact ix_len]. unfold zlen in *. rewrite skipn_length. lia.
  - destruct H as (b1 & b2 & b3 & -> & _ & V1 & V2 & _ & M). rewrite zlen_cons, !zlen_app, zlen_cons. apply (many_count _ _ 1) in M; [|exact ix_len]. pose proof (zlen_nonneg b1). pose proof (zlen_nonneg b2). lia.
  - destruct H as (b1 & b2 & b3 & b4 & -> & V1 & V2 & M & V4). rewrite zlen_cons, !zlen_app. apply (many_count _ _ 1) in M; [|exact uix_len]. pose proof (zlen_nonneg b1). pose proof (zlen_nonneg b2). pose proof (zlen_nonneg b4). lia.
Qed.
Lemma rrec_len b r : spell_rrec b r -> 1 <= zlen b.
Proof. destruct r; cbn [spell_rrec]; intros (-> & _); cbn; lia. Qed.
Lemma run_debug_len nf nops rs : forall i file line l, run_debug nf nops i file line rs = Some l -> zlen l <= zlen rs.
Proof.
  induction rs as [|r rs IH]; intros i file line l H; cbn [run_debug] in H.
  - destruct (i <? nops); [discriminate|]. injection H as <-. reflexivity.
  - rewrite zlen_cons. destruct (negb (i <? nops)); [discriminate|]. destruct r as [f|d n|d|a b c].
    + destruct (f <? nf); [|discriminate]. apply IH in H. lia.
    + destruct (_ && _); [|discriminate]. apply IH in H. lia.
    + destruct (_ <? _); [|discriminate]. destruct (run_debug nf nops (i + 1) file (line + d) rs) as [x|] eqn:E; [|discriminate]. injection H as <-. apply IH in E. rewrite zlen_cons. lia.
    + destruct (run_debug nf nops (i + 1) file (abs_line a b c) rs) as [x|] eqn:E; [|discriminate]. injection H as <-. apply IH in E. rewrite zlen_cons. lia.
Qed.
Lemma pairs_len l : zlen (pairs l) = 2 * zlen l.
Proof. induction l as [|x l IH]; [reflexivity|]. unfold pairs in *. cbn [flat_map app]. rewrite !zlen_cons, IH. lia. Qed.
Lemma many_total' A (P : list Z -> A -> Prop) (w : A -> Z) bs xs : (forall b x, P b x -> w x <= 2 * zlen b) -> many P bs xs -> total w xs <= 2 * zlen bs.
Proof. intros H M. induction M as [|b bs x xs Hp M IH]; [cbn; lia|]. change (total w (x :: xs)) with (w x + total w xs). rewrite zlen_app. apply H in Hp. lia. Qed.
(** Operand lists and debug entries of a function. *)
Definition inside (f : hl_function) : Z := total (fun o => 2 + zlen (o_extra o)) (hf_ops f) + zlen (hf_debug f).
Lemma fun_inside v d nf ts b f : spell_fun v d b f -> inside (mean_fun nf d ts f) <= 2 * zlen b.
Proof.
  intros (b1 & b2 & b3 & b4 & b5 & b6 & b7 & -> & V1 & V2 & V3 & V4 & M5 & M6 & D). unfold inside. cbn [mean_fun hf_ops hf_debug].
  rewrite total_map, !zlen_app. apply (many_total' _ _ (fun i => 2 + zlen (o_extra (read_op i)))) in M6; [|intros c i H; apply op_extra in H; lia].
  pose proof (zlen_nonneg b1). pose proof (zlen_nonneg b2). pose proof (zlen_nonneg b3). pose proof (zlen_nonneg b4). pose proof (zlen_nonneg b5).
  enough (Q : zlen (if d then match run_debug nf (zlen (rf_ops f)) 0 (-1) 0 (rf_debug f) with Some l => pairs l | None => [] end else []) <= 2 * zlen b7) by lia.
  destruct d; [|change (zlen (@nil Z)) with 0; pose proof (zlen_nonneg b7); lia]. destruct D as (c1 & c2 & -> & M & _). rewrite zlen_app. pose proof (zlen_nonneg c1). pose proof (zlen_nonneg c2).
  destruct (run_debug _ _ _ _ _ _) as [l|] eqn:E; [|change (zlen (@nil Z)) with 0; lia]. rewrite pairs_len. apply run_debug_len in E. apply (many_count _ _ 1) in M; [|exact rrec_len]. lia.
Qed.
Lemma many_names_len A (P : list Z -> A -> Prop) (g : A -> Z) bs xs : (forall b x, P b x -> 1 <= zlen b) -> many P bs xs -> zlen (map g xs) <= zlen bs.
Proof. intros H M. apply (many_count _ _ 1) in M; [|exact H]. unfold zlen in *. rewrite map_length. lia. Qed.
Lemma type_names b t : spell_type b t -> zlen (names_of t) <= zlen b.
Proof.
  assert (BL : forall A C (P : list Z -> A -> Prop) (Q : list Z -> C -> Prop) c p, (forall b x, P b x -> 1 <= zlen b) -> both P Q c p -> 1 <= zlen c).
  { intros A C P Q c p HP (c1 & c2 & -> & V & _). apply HP in V. rewrite zlen_app. pose proof (zlen_nonneg c2). lia. }
  destruct t as [k|m args r|st name sup g fs ps ds|fs|n|n g cs|k t]; cbn [spell_type names_of]; intros H.
  - change (zlen (@nil Z)) with 0. apply zlen_nonneg.
  - change (zlen (@nil Z)) with 0. apply zlen_nonneg.
  - destruct H as (b1 & b2 & b3 & b4 & b5 & b6 & b7 & b8 & b9 & -> & V1 & _ & _ & _ & _ & _ & M7 & M8 & _). rewrite !zlen_cons, !zlen_app.
    apply (many_names_len _ _ fst) in M7; [|intros c x; apply BL, ix_len]. apply (many_names_len _ _ (fun p => fst (fst p))) in M8; [|intros c x; apply BL; intros c' x'; apply BL, ix_len].
    apply ix_len in V1. pose proof (zlen_nonneg b2). pose proof (zlen_nonneg b3). pose proof (zlen_nonneg b4). pose proof (zlen_nonneg b5). pose proof (zlen_nonneg b6). pose proof (zlen_nonneg b9). lia.
  - destruct H as (b1 & b2 & -> & _ & M). apply (many_names_len _ _ fst) in M; [|intros c x; apply BL, ix_len]. rewrite zlen_cons, zlen_app. pose proof (zlen_nonneg b1). lia.
  - destruct H as (c & -> & V). apply ix_len in V. rewrite !zlen_cons. change (zlen (@nil Z)) with 0. lia.
  - destruct H as (b1 & b2 & b3 & b4 & -> & V1 & _ & _ & M). apply (many_names_len _ _ fst) in M; [|intros c x; apply BL, ix_len]. apply ix_len in V1. rewrite !zlen_cons, !zlen_app.
    pose proof (zlen_nonneg b2). pose proof (zlen_nonneg b3). lia.
  - change (zlen (@nil Z)) with 0. apply zlen_nonneg.
Qed.
Lemma resolve_ins have : forall ns ins, zlen (snd (resolve have ins ns)) <= zlen ins + zlen ns.
Proof.
  induction ns as [|n ns IH]; intros ins; cbn [resolve]; [change (zlen (@nil Z)) with 0; cbn [snd]; lia|]. rewrite zlen_cons. destruct (slot have ins n).
  - specialize (IH ins). destruct (resolve have ins ns). cbn [snd] in *. lia.
  - specialize (IH (n :: ins)). destruct (resolve have (n :: ins) ns). cbn [snd] in *. rewrite zlen_cons in IH. lia.
Qed.
Lemma mean_types_ins ss : forall ats ins ts, zlen (snd (mean_types ss ins ts ats)) <= zlen ins + total (fun a => zlen (names_of a)) ats.
Proof.
  induction ats as [|a ats IH]; intros ins ts; cbn [mean_types]; [cbn; lia|]. pose proof (resolve_ins (zlen ss) (names_of a) ins) as R. destruct (resolve (zlen ss) ins (names_of a)) as [ms ins']. cbn [snd] in R.
  specialize (IH ins' (ts ++ [mean_type (map (nm ss) ms) ts a])). change (total (fun a => zlen (names_of a)) (a :: ats)) with (zlen (names_of a) + total (fun a => zlen (names_of a)) ats). lia.
Qed.
(** Operand lists and debug tables are paid for too, and the name cache never exceeds the announced number of strings by more than the file. *)
Theorem C71_inside_partial file c : bytes file -> zlen file < 2 ^ 63 -> accepted None file c ->
  total inside (c_functions c) <= 2 * zlen file /\ zlen (c_ustrings c) <= c_nstrings c + zlen file.
Proof.
  intros B L A. apply C66_exact in A; auto. destruct A as (used & rest & m & ss & fs & -> & S & G & ->). rewrite zlen_app. pose proof (zlen_nonneg rest). unfold mean_module.
  pose proof (mean_types_ins ss (rm_types m) [] []) as Li. destruct (mean_types ss [] [] (rm_types m)) as [ts ins] eqn:Em. cbn [snd] in Li. change (zlen (@nil Z)) with 0 in Li.
  destruct (negb (rm_debug m) && (zlen (rm_types m) =? 0) && (zlen (rm_constants m) =? 0)). { cbn [c_functions c_ustrings c_nstrings code_new total fold_right]. change (zlen (@nil (option str))) with 0. pose proof (zlen_nonneg used). lia. }
  cbn [c_functions c_ustrings c_nstrings].
  destruct S as (h & s1 & s2 & s3 & s4 & s5 & -> & Hh & _ & _ & S1 & S2 & S3 & S4 & (t1 & t2 & t3 & t4 & -> & M9 & M10 & M11 & M12)).
  apply (many_total _ _ (fun a => zlen (names_of a))) in S4; [|intros b t; apply type_names].
  apply (many_total' _ _ (fun f => inside (mean_fun (rs_count (rm_debugfiles m)) (rm_debug m) ts f))) in M11; [|intros b f; apply fun_inside].
  rewrite !zlen_app, total_map. pose proof (zlen_nonneg h). pose proof (zlen_nonneg s1). pose proof (zlen_nonneg s2). pose proof (zlen_nonneg s3). pose proof (zlen_nonneg t1). pose proof (zlen_nonneg t2). pose proof (zlen_nonneg t3). pose proof (zlen_nonneg t4). pose proof (zlen_nonneg s4).
  pose proof (zlen_nonneg (flat_map (enc_le 4) (rm_ints m))). pose proof (zlen_nonneg (flat_map (enc_le 8) (rm_floats m))).
  destruct G as (_ & (G0 & _) & _). rewrite cache_len by exact G0. split; lia.
Qed.
Example C71_inside_ex : exists c, accepted None (enc_module ex_mod) c /\ 0 < total inside (c_functions c).
Proof. destruct (C37_roundtrip ex_mod [] ex_wf) as (u & R). exists (view_module ex_mod u). rewrite app_nil_r in R. split; [unfold accepted; now rewrite R|reflexivity]. Qed.
