(** Theorem C92: how many types are copied when a module is hashed for hot reload.  Model: HashCopyModel.v (after HashModel.v). *)
From Verif Require Import Prelude StdModel BrassTypes DecoderModel FormatSpec ReaderSpec AcceptSpec GrammarSpec HashSpec HashCostSpec CodeGenericProofs FormatProofs StringsProofs ReaderSizes PropsGrammar PropsSize PropsModule HashProofs HashAlloc PropsHash.
From Verif Require HashModel.
From Verif Require Import HashCostModel HashCostProofs HashCostAlloc HashCopySpec HashCopyModel.
From Coq Require Import Lia ZifyBool.

(** * Outcomes *)
Lemma f_clone {B} n (k : unit -> R B) : fst (rbind (clone n) k) = fst (k tt).
Proof. unfold clone. cbn. destruct (k tt). reflexivity. Qed.
Ltac fsame l := repeat first [ reflexivity | rewrite f_clone | rewrite l | rewrite f_bind | apply rbind_ext; intros
  | match goal with |- HashModel.rbind ?a _ = HashModel.rbind ?b _ => let E := fresh in assert (E : a = b); [|rewrite E; clear E] end
  | apply f_rfor; intros
  | match goal with |- fst (if ?b then _ else _) = (if ?b then _ else _) => destruct b end
  | match goal with |- fst (match ?b with _ => _ end) = _ => destruct b end ].
Lemma f_hash_fields isrec rec rec' n fs h : (forall x, fst (rec x) = rec' x) -> fst (hash_fields isrec rec n fs h) = HashModel.hash_fields isrec rec' n fs h.
Proof. intros H. unfold hash_fields, HashModel.hash_fields. cbv zeta. fsame H. Qed.
Lemma f_hash_body isrec rec rec' t : (forall x, fst (rec x) = rec' x) -> fst (hash_body isrec rec t) = HashModel.hash_body isrec rec' t.
Proof.
  intros H. unfold hash_body, HashModel.hash_body. cbv zeta. pose proof (fun n fs h => f_hash_fields isrec rec rec' n fs h H) as HF.
  rewrite f_bind. match goal with |- HashModel.rbind ?a _ = HashModel.rbind ?b _ => assert (E : a = b); [|rewrite E; reflexivity] end.
  destruct ((vt_kind t =? HFUN) || (vt_kind t =? HMETHOD)).
  { destruct (vt_union t); try reflexivity. fsame H. }
  destruct ((vt_kind t =? HOBJ) || (vt_kind t =? HSTRUCT)).
  { destruct (vt_union t); try reflexivity. apply HF. }
  destruct ((vt_kind t =? HREF) || (vt_kind t =? HNULL)).
  { destruct isrec; [reflexivity|]. fsame H. }
  destruct (vt_kind t =? HVIRTUAL).
  { destruct (vt_union t); try reflexivity. apply HF. }
  destruct (vt_kind t =? HENUM).
  { destruct (vt_union t); try reflexivity. fsame H. }
  fsame H.
Qed.
Lemma f_vt_hash b t : fst (vt_hash b t) = HashModel.vt_hash b t.
Proof.
  assert (R : forall t, fst (vt_hash_rec t) = HashModel.vt_hash_rec t) by (intros; apply f_hash_body; reflexivity).
  destruct b; [apply R|]. apply f_hash_body, R.
Qed.
Lemma f_write ts hs t h : fst (write_type ts hs t h) = HashModel.write_type ts hs t h. Proof. reflexivity. Qed.
Lemma f_hash_type_rec' ch i : fst (hash_type_rec ch i) = HashModel.hash_type_rec ch i.
Proof. unfold hash_type_rec, HashModel.hash_type_rec. cbv zeta. fsame f_write. Qed.
Lemma f_cht ch t : fst (code_hash_type ch t) = HashModel.code_hash_type ch t. Proof. reflexivity. Qed.
Lemma f_indexes c l : fst (alloc_indexes c l) = HashModel.alloc_indexes c l.
Proof. unfold alloc_indexes, HashModel.alloc_indexes. fsame f_cht. Qed.
Lemma f_types1 c l : fst (alloc_types1 c l) = HashModel.alloc_types1 c l.
Proof. unfold alloc_types1, HashModel.alloc_types1. fsame f_vt_hash. Qed.
Lemma f_types2' ch c : fst (alloc_types2 ch c) = HashModel.alloc_types2 ch c.
Proof. unfold alloc_types2, HashModel.alloc_types2. fsame f_hash_type_rec'. Qed.
Lemma f_globals1' ch c l : fst (alloc_globals1 ch c l) = HashModel.alloc_globals1 ch c l.
Proof. unfold alloc_globals1, HashModel.alloc_globals1. fsame f_cht. Qed.
Lemma f_globals2' ch c l : fst (alloc_globals2 ch c l) = HashModel.alloc_globals2 ch c l.
Proof. unfold alloc_globals2, HashModel.alloc_globals2. cbv zeta. fsame f_cht. Qed.
Lemma f_finish' ch c l : fst (alloc_finish ch c l) = HashModel.alloc_finish ch c l.
Proof. unfold alloc_finish, HashModel.alloc_finish. fsame f_cht. Qed.
(** The counting model has the outcomes of the model of the other theorems. *)
Theorem C92_counts : (forall c, fst (alloc c) = HashModel.alloc c) /\ (forall b t, fst (vt_hash b t) = HashModel.vt_hash b t).
Proof.
  split; [|apply f_vt_hash]. intros c. unfold alloc, HashModel.alloc. cbv zeta. rewrite f_clone. rewrite f_bind, f_indexes. apply rbind_ext. intros idx.
  rewrite f_bind, f_types1. apply rbind_ext. intros hs. rewrite f_bind, f_types2'. apply rbind_ext. intros hs2.
  rewrite f_bind, f_globals1'. apply rbind_ext. intros l1. rewrite f_bind, f_globals2'. apply rbind_ext. intros l2. rewrite f_bind. apply rbind_ext. intros l3.
  rewrite f_bind. apply rbind_ext. intros l4. rewrite f_bind, f_finish'. reflexivity.
Qed.

(** * Amounts *)
Lemma tn (l : list vtype) : 0 <= total values l. Proof. apply total_nonneg. intros. apply values_nonneg. Qed.
Lemma w_clone n : 0 <= n -> within (clone n) n. Proof. intros H. split; [cbn; lia|reflexivity]. Qed.
Lemma w_cloned {B} n m (k : unit -> R B) : 0 <= n -> 0 <= m -> within (k tt) m -> within (rbind (clone n) k) (n + m).
Proof. intros N M H. apply w_bind; [now apply w_clone|exact M|]. intros [] _. exact H. Qed.
(** Entries found in a table. *)
Lemma w_entry {A B} (l : list A) i x p (k : A -> R B) n : znth l i = Some x -> 0 <= n -> within (k x) n -> within (rbind (need p (znth l i)) k) n.
Proof. intros E N H. rewrite E. apply w_then; [exact N|]. intros a X. cbn in X. injection X as <-. exact H. Qed.
Lemma total_ext {A} (f g : A -> Z) l : (forall x, In x l -> f x = g x) -> total f l = total g l.
Proof. induction l as [|x l IH]; intros H; [reflexivity|]. change (f x + total f l = g x + total g l). rewrite (H x (or_introl eq_refl)), IH; [reflexivity|]. intros y Hy. apply H. now right. Qed.
Lemma total_plus {A} (f g : A -> Z) l : total (fun x => f x + g x) l = total f l + total g l.
Proof. induction l as [|x l IH]; [reflexivity|]. change ((f x + g x) + total (fun x => f x + g x) l = (f x + total f l) + (g x + total g l)). lia. Qed.
Lemma total_times {A} k (f : A -> Z) l : total (fun x => k * f x) l = k * total f l.
Proof. induction l as [|x l IH]; [cbn; lia|]. change (k * f x + total (fun x => k * f x) l = k * (f x + total f l)). lia. Qed.
Lemma total_const {A} k (l : list A) : total (fun _ => k) l = zlen l * k.
Proof. induction l as [|x l IH]; [reflexivity|]. rewrite zlen_cons. change (k + total (fun _ => k) l = (1 + zlen l) * k). lia. Qed.
Lemma cn (l : list (enum_construct vtype)) : 0 <= total construct_values l. Proof. apply total_nonneg. intros. apply tn. Qed.

Section Hash.
Context (isrec : bool) (rec : vtype -> R Z) (cost : vtype -> Z) (N0 : forall t, 0 <= cost t).
Context (W0 : forall t, counted t -> isrec = false -> within (rec t) (cost t)).
Let field_cost (f : obj_field vtype) : Z := values (fd_t f) + if isrec then 0 else values (fd_t f) + cost (fd_t f).
Lemma w_fields n fs h : n = zlen fs -> (isrec = false -> Forall counted (map (@fd_t vtype) fs)) -> within (hash_fields isrec rec n fs h) (total field_cost fs).
Proof.
  intros L F. unfold hash_fields.
  assert (NN : forall f, 0 <= if isrec then 0 else values (fd_t f) + cost (fd_t f)).
  { intros f. pose proof (values_nonneg (fd_t f)). pose proof (N0 (fd_t f)). destruct isrec; lia. }
  assert (N1 : forall f, 0 <= field_cost f).
  { intros f. unfold field_cost. pose proof (values_nonneg (fd_t f)). pose proof (NN f). lia. }
  apply w_rfor; [exact L| |intros; apply N1]. intros j x Zx b. eapply w_entry; [exact Zx|apply N1|]. unfold field_cost. apply w_cloned; [apply values_nonneg|apply NN|].
  cbv zeta. destruct isrec eqn:Er; [apply w_free|]. apply w_cloned; [apply values_nonneg|apply N0|]. apply w_last; [|intros; apply w_free].
  specialize (F eq_refl). rewrite Forall_forall in F. apply W0; [|reflexivity]. apply F, in_map. eapply znth_In; eassumption.
Qed.
Definition body_cost (t : vtype) : Z :=
  (if one_of (vt_kind t) [HFUN; HMETHOD] then if isrec then 0 else mentioned t
   else if one_of (vt_kind t) [HOBJ; HSTRUCT; HVIRTUAL] then mentioned t + (if isrec then 0 else mentioned t)
   else if one_of (vt_kind t) [HENUM] then 2 * mentioned t else 0)
  + (if isrec then 0 else total cost (mentions t)).
Lemma fields_cost fs : total field_cost fs = total values (map (@fd_t vtype) fs) + (if isrec then 0 else total values (map (@fd_t vtype) fs)) + (if isrec then 0 else total cost (map (@fd_t vtype) fs)).
Proof.
  unfold field_cost. rewrite total_plus, !total_map. destruct isrec.
  - rewrite total_const. lia.
  - rewrite total_plus. lia.
Qed.
Lemma w_body t : counted t -> (isrec = false -> Forall counted (mentions t)) -> within (hash_body isrec rec t) (body_cost t).
Proof.
  intros (C & _) M. unfold hash_body, body_cost, mentioned. cbv zeta. apply w_last; [|intros; apply w_free].
  assert (CN : forall l, 0 <= total cost l) by (intros; apply total_nonneg; intros; apply N0).
  unfold mentions in *. rewrite !one_of_2, !one_of_1 in *. unfold one_of. cbn [existsb]. rewrite !orb_false_r.
  destruct ((vt_kind t =? HFUN) || (vt_kind t =? HMETHOD)) eqn:K1.
  { destruct (vt_union t); try (eapply w_to; [apply w_free|destruct isrec; reflexivity]).
    destruct isrec eqn:Er.
    - eapply w_to; [apply w_last; [|intros; apply w_free]|]. 2: reflexivity. eapply w_to; [apply (w_rfor (fun _ : vtype => 0) _ args); [exact C| |lia]|rewrite total_const; lia]. intros; apply w_free.
    - specialize (M eq_refl). apply Forall_app in M as [M1 M2]. rewrite Forall_forall in M1. pose proof (Forall_inv M2) as Mr. rewrite !total_app.
      eapply w_to; [apply (w_bind _ _ (total (fun x => values x + cost x) args) (values ret + cost ret))|].
      + assert (P : forall x, 0 <= values x + cost x) by (intros x; pose proof (values_nonneg x); pose proof (N0 x); lia).
        apply w_rfor; [exact C| |intros; apply P].
        intros j x Zx b. eapply w_entry; [exact Zx|apply P|]. apply w_cloned; [apply values_nonneg|apply N0|]. apply w_last; [|intros; apply w_free].
        apply W0; [|reflexivity]. apply M1. eapply znth_In; eassumption.
      + pose proof (values_nonneg ret). pose proof (N0 ret). lia.
      + intros h _. apply w_cloned; [apply values_nonneg|apply N0|]. apply w_last; [|intros; apply w_free]. now apply W0.
      + rewrite total_plus. change (total values [ret]) with (values ret + 0). change (total cost [ret]) with (cost ret + 0). lia. }
  destruct ((vt_kind t =? HOBJ) || (vt_kind t =? HSTRUCT)) eqn:K2.
  { replace ((vt_kind t =? HOBJ) || ((vt_kind t =? HSTRUCT) || (vt_kind t =? HVIRTUAL))) with true by lia.
    destruct (vt_union t); try (eapply w_to; [apply w_free|destruct isrec; reflexivity]). eapply w_to; [apply w_fields; [exact C|exact M]|]. apply fields_cost. }
  replace ((vt_kind t =? HOBJ) || ((vt_kind t =? HSTRUCT) || (vt_kind t =? HVIRTUAL))) with (vt_kind t =? HVIRTUAL) by lia.
  destruct ((vt_kind t =? HREF) || (vt_kind t =? HNULL)) eqn:K3.
  { replace (vt_kind t =? HVIRTUAL) with false by (unfold HREF, HNULL, HVIRTUAL in *; lia). replace (vt_kind t =? HENUM) with false by (unfold HREF, HNULL, HENUM in *; lia).
    destruct isrec eqn:Er; [apply w_free|]. destruct (vt_tparam t) as [p|].
    - specialize (M eq_refl). apply Forall_inv in M. change (total cost [p]) with (cost p + 0). rewrite Z.add_0_r. cbn [Z.add]. apply w_then; [apply N0|]. intros a E. cbn in E. injection E as <-. apply w_last; [|intros; apply w_free]. now apply W0.
    - apply w_then; [cbn; lia|]. discriminate. }
  destruct (vt_kind t =? HVIRTUAL) eqn:K4.
  { destruct (vt_union t); try (eapply w_to; [apply w_free|destruct isrec; reflexivity]). eapply w_to; [apply w_fields; [exact C|exact M]|]. apply fields_cost. }
  destruct (vt_kind t =? HENUM) eqn:K5.
  { destruct (vt_union t); try (eapply w_to; [apply w_free|destruct isrec; reflexivity]). destruct C as [C1 C2]. rewrite Forall_forall in C2.
    assert (NN : forall x, 0 <= if isrec then 0 else cost x) by (intros x; pose proof (N0 x); destruct isrec; lia).
    set (pc := fun x => values x + if isrec then 0 else cost x).
    assert (NP : forall x, 0 <= pc x) by (intros x; unfold pc; pose proof (values_nonneg x); pose proof (NN x); lia).
    assert (NPL : forall l, 0 <= total pc l) by (intros; apply total_nonneg; intros; apply NP).
    eapply w_to; [apply (w_rfor (fun k => construct_values k + total pc (ec_params k))); [exact C1| |]|].
    - intros j x Zx b. pose proof (znth_In _ _ _ Zx) as Ix. eapply w_entry; [exact Zx|pose proof (NPL (ec_params x)); unfold construct_values; pose proof (tn (ec_params x)); lia|].
      apply w_cloned; [apply tn|apply NPL|]. cbv zeta. apply w_rfor; [now apply C2| |intros; apply NP].
      intros j' y Zy b'. eapply w_entry; [exact Zy|apply NP|]. apply w_cloned; [apply values_nonneg|apply NN|].
      destruct isrec eqn:Er; [apply w_free|]. apply w_last; [|intros; apply w_free]. apply W0; [|reflexivity]. specialize (M eq_refl). rewrite Forall_forall in M. apply M, in_flat_map. exists x. split; [exact Ix|]. eapply znth_In; eassumption.
    - intros x _. unfold construct_values. pose proof (tn (ec_params x)). pose proof (NPL (ec_params x)). lia.
    - rewrite total_plus. rewrite !total_flat. unfold pc. unfold construct_values.
      rewrite (total_ext (fun x => total (fun x0 => values x0 + (if isrec then 0 else cost x0)) (ec_params x)) (fun x => total values (ec_params x) + if isrec then 0 else total cost (ec_params x))).
      + rewrite total_plus. destruct isrec; [rewrite total_const; lia|lia].
      + intros x _. rewrite total_plus. destruct isrec; [rewrite total_const; lia|reflexivity]. }
  cbn [total fold_right]. destruct (vt_kind t =? HABSTRACT); [|eapply w_to; [apply w_free|destruct isrec; reflexivity]].
  destruct isrec; (apply w_then; [cbn; lia|intros; apply w_free]).
Qed.
End Hash.

Lemma mn t : 0 <= mentioned t. Proof. apply tn. Qed.
Lemma inside_nonneg t : 0 <= copied_inside t.
Proof. unfold copied_inside. pose proof (mn t). destruct (one_of (vt_kind t) [HOBJ; HSTRUCT; HVIRTUAL]), (one_of (vt_kind t) [HENUM]); lia. Qed.
Lemma inside_total l : 0 <= total copied_inside l. Proof. apply total_nonneg. intros. apply inside_nonneg. Qed.
Lemma outside_nonneg t : 0 <= copied_outside t.
Proof. unfold copied_outside. pose proof (mn t). pose proof (inside_total (mentions t)). destruct (one_of (vt_kind t) [HFUN; HMETHOD]), (one_of (vt_kind t) [HOBJ; HSTRUCT; HVIRTUAL; HENUM]); lia. Qed.
Lemma mixing_nonneg t : 0 <= copied_mixing t.
Proof. unfold copied_mixing. pose proof (mn t). destruct (one_of (vt_kind t) [HFUN; HMETHOD; HOBJ; HSTRUCT; HENUM]); lia. Qed.
Lemma w_hash_inner t : counted t -> within (vt_hash true t) (copied_inside t).
Proof.
  intros C. eapply w_to; [apply (w_body true (fun _ => free (Panic PFuel)) (fun _ => 0)); [lia|discriminate|exact C|discriminate]|].
  unfold body_cost, copied_inside. destruct (one_of (vt_kind t) [HFUN; HMETHOD]) eqn:K; [|destruct (one_of (vt_kind t) [HOBJ; HSTRUCT; HVIRTUAL]), (one_of (vt_kind t) [HENUM]); lia].
  rewrite one_of_2 in K. unfold one_of. cbn [existsb]. unfold HFUN, HMETHOD, HOBJ, HSTRUCT, HVIRTUAL, HENUM in *.
  replace ((vt_kind t =? 11) || ((vt_kind t =? 21) || ((vt_kind t =? 15) || false))) with false by lia. replace ((vt_kind t =? 18) || false) with false by lia. reflexivity.
Qed.
Lemma w_hash_outer t : counted t -> Forall counted (mentions t) -> within (vt_hash false t) (copied_outside t).
Proof.
  intros C M. eapply w_to; [apply (w_body false vt_hash_rec copied_inside); [apply inside_nonneg|intros u Cu _; now apply (w_hash_inner u)|exact C|intros _; exact M]|].
  unfold body_cost, copied_outside. destruct (one_of (vt_kind t) [HFUN; HMETHOD]); [reflexivity|].
  unfold one_of. cbn [existsb]. destruct (vt_kind t =? HOBJ), (vt_kind t =? HSTRUCT), (vt_kind t =? HVIRTUAL), (vt_kind t =? HENUM); cbn [orb]; lia.
Qed.
Lemma w_mixing ch i t : znth (c_types (ch_code ch)) i = Some t -> counted t -> within (hash_type_rec ch i) (copied_mixing t).
Proof.
  intros Zt (C & _). unfold hash_type_rec. cbv zeta. eapply w_entry; [exact Zt|apply mixing_nonneg|]. apply w_last; [|intros; apply w_free].
  unfold copied_mixing, mentioned, mentions. rewrite !one_of_2, !one_of_1. unfold one_of. cbn [existsb].
  destruct ((vt_kind t =? HFUN) || (vt_kind t =? HMETHOD)) eqn:K1.
  { replace ((vt_kind t =? HFUN) || ((vt_kind t =? HMETHOD) || ((vt_kind t =? HOBJ) || ((vt_kind t =? HSTRUCT) || ((vt_kind t =? HENUM) || false))))) with true by lia.
    destruct (vt_union t); try apply w_free. rewrite total_app. change (total values [ret]) with (values ret + 0). rewrite Z.add_0_r. apply w_bind; [|apply values_nonneg|].
    - apply w_rfor; [exact C| |intros; apply values_nonneg]. intros j x Zx b. eapply w_entry; [exact Zx|apply values_nonneg|]. eapply w_to; [apply w_cloned; [apply values_nonneg| |apply w_free]; lia|lia].
    - intros h _. eapply w_to; [apply w_cloned; [apply values_nonneg| |apply w_free]; lia|lia]. }
  destruct ((vt_kind t =? HOBJ) || (vt_kind t =? HSTRUCT)) eqn:K2.
  { replace ((vt_kind t =? HFUN) || ((vt_kind t =? HMETHOD) || ((vt_kind t =? HOBJ) || ((vt_kind t =? HSTRUCT) || ((vt_kind t =? HENUM) || false))))) with true by lia.
    destruct (vt_union t); try apply w_free. rewrite total_map. apply w_rfor; [exact C| |intros; apply values_nonneg]. intros j x Zx b. eapply w_entry; [exact Zx|apply values_nonneg|].
    eapply w_to; [apply w_cloned; [apply values_nonneg| |apply w_free]; lia|lia]. }
  replace ((vt_kind t =? HFUN) || ((vt_kind t =? HMETHOD) || ((vt_kind t =? HOBJ) || ((vt_kind t =? HSTRUCT) || ((vt_kind t =? HENUM) || false))))) with (vt_kind t =? HENUM) by lia.
  destruct ((vt_kind t =? HREF) || (vt_kind t =? HNULL)) eqn:K3.
  { replace (vt_kind t =? HENUM) with false by (unfold HREF, HNULL, HENUM in *; lia). apply w_then; [lia|]. intros. apply w_free. }
  destruct (vt_kind t =? HVIRTUAL) eqn:K4.
  { replace (vt_kind t =? HENUM) with false by (unfold HENUM, HVIRTUAL in *; lia). apply w_free. }
  destruct (vt_kind t =? HENUM) eqn:K5; [|apply w_free].
  destruct (vt_union t); try apply w_free. destruct C as [C1 C2]. rewrite total_flat. rewrite Forall_forall in C2.
  apply w_rfor; [exact C1| |intros; apply tn]. intros j x Zx b. eapply w_entry; [exact Zx|apply tn|]. eapply w_to; [apply (w_cloned _ 0); [apply tn|lia|]|unfold construct_values; lia].
  eapply w_to; [apply (w_rfor (fun _ : vtype => 0) _ (ec_params x)); [apply C2; eapply znth_In; eassumption| |lia]|rewrite total_const; lia].
  intros j' y Zy b'. eapply w_entry; [exact Zy|lia|apply w_free].
Qed.

(** * Specification of the whole *)
(** Loading is followed by one copy of the module; then, for every function and native, a copy of the whole table of functions (natives); twice
    for every type a copy of the whole type table; for every global a copy of the whole table of globals; and the copies of single entries. *)
Definition copied_by_alloc (c : code) : Z :=
  let D := declared c in let G := global_types c in
  let functions := total fun_values (c_functions c) in let natives := total native_values (c_natives c) in
  let types := total values (c_types c) in let globals := total values (c_globals c) in
  (types + globals + natives + functions)
  + (c_nfunctions c * functions + functions) + (c_nnatives c * natives + natives)
  + (c_ntypes c * types + total values D + total copied_outside D)
  + total copied_mixing D
  + (c_nglobals c * globals + total values (filter (fun t => vt_kind t =? HABSTRACT) G))
  + (c_ntypes c * types + total values D + total values (filter owned_global D))
  + total values G.

Lemma parts_nonneg u : 0 <= parts u. Proof. unfold parts. pose proof (values_pos (VT u None None 0)). lia. Qed.
Lemma fun_values_nonneg : forall f, 0 <= fun_values f.
Proof.
  fix IH 1. intros [t fi nr no rf regs ops dbg obj field]. cbn [fun_values]. pose proof (values_nonneg t). pose proof (tn regs).
  assert (0 <= match obj with Some u => parts u | None => 0 end) by (destruct obj; [apply parts_nonneg|lia]).
  assert (0 <= match field with Some (mkFF _ (Some g)) => fun_values g | _ => 0 end) by (destruct field as [[nm [gf|]]|]; [apply IH|lia|lia]). lia.
Qed.
Lemma natives_nonneg n : 0 <= native_values n. Proof. apply values_nonneg. Qed.

Section Alloc.
Context (c : code) (CO : contents_ok c) (SO : sizes_ok c).
Let types := total values (c_types c).
Let globals := total values (c_globals c).
Let functions := total fun_values (c_functions c).
Let natives := total native_values (c_natives c).
Lemma types_nn : 0 <= types. Proof. apply tn. Qed.
Lemma globals_nn : 0 <= globals. Proof. apply tn. Qed.
Lemma functions_nn : 0 <= functions. Proof. apply total_nonneg. intros. apply fun_values_nonneg. Qed.
Lemma natives_nn : 0 <= natives. Proof. apply total_nonneg. intros. apply natives_nonneg. Qed.
Lemma turns {A} (f : A -> Z) k l n : n = zlen l -> total (fun x => k + f x) l = n * k + total f l.
Proof. intros ->. rewrite total_plus, total_const. reflexivity. Qed.
Lemma c_indexes l : within (alloc_indexes c l) ((c_nfunctions c * functions + functions) + (c_nnatives c * natives + natives)).
Proof.
  destruct SO as (_ & _ & _ & _ & _ & _ & _ & _ & _ & LN & LF & _). unfold alloc_indexes.
  pose proof functions_nn as F0. pose proof natives_nn as N0.
  apply w_bind.
  - eapply w_to; [apply (w_rfor (fun f => functions + fun_values f) _ (c_functions c)); [auto| |]|]. 
    + intros j x Zx b. pose proof (fun_values_nonneg x). apply w_cloned; [exact F0|auto|]. eapply w_entry; [exact Zx|auto|]. eapply w_to; [apply (w_cloned _ 0); [auto|lia|apply w_free]|lia].
    + intros x _. pose proof (fun_values_nonneg x). lia.
    + rewrite (turns fun_values functions (c_functions c) (c_nfunctions c)); auto.
  - pose proof (zlen_nonneg (c_natives c)). rewrite <- LN. nia.
  - intros l' _. eapply w_to; [apply (w_rfor (fun f => natives + native_values f) _ (c_natives c)); [auto| |]|].
    + intros j x Zx b. pose proof (natives_nonneg x). apply w_cloned; [exact N0|auto|]. eapply w_entry; [exact Zx|auto|]. eapply w_to; [apply (w_cloned _ 0); [auto|lia|apply w_free]|lia].
    + intros x _. pose proof (natives_nonneg x). lia.
    + rewrite (turns native_values natives (c_natives c) (c_nnatives c)); auto.
Qed.
Lemma c_types1 l : within (alloc_types1 c l) (c_ntypes c * types + total values (declared c) + total copied_outside (declared c)).
Proof.
  destruct (types_table c CO) as [ET LD]. pose proof types_nn as T0. unfold alloc_types1.
  assert (P : forall x, 0 <= values x + copied_outside x) by (intros x; pose proof (values_nonneg x); pose proof (outside_nonneg x); lia).
  eapply w_to; [apply (w_rfor (fun t => types + (values t + copied_outside t)) _ (declared c)); [now rewrite LD| |]|].
  - intros j t Zt b. pose proof (znth_some_range _ _ _ Zt). pose proof (values_nonneg t). pose proof (outside_nonneg t). apply w_cloned; [exact T0|apply P|].
    rewrite (types_get c CO) by lia. eapply w_entry; [exact Zt|apply P|]. apply w_cloned; [auto|auto|]. apply w_last; [|intros; apply w_free].
    destruct (declared_types c CO t ltac:(eapply znth_In; eassumption)) as (C & _ & M & _). now apply w_hash_outer.
  - intros x _. specialize (P x). lia.
  - rewrite (turns (fun t => values t + copied_outside t) types (declared c) (c_ntypes c)) by auto. rewrite total_plus. lia.
Qed.
Lemma c_types2 ch : ch_code ch = c -> within (alloc_types2 ch c) (total copied_mixing (declared c)).
Proof.
  intros Ec. destruct (types_table c CO) as [ET LD]. unfold alloc_types2. apply w_rfor; [now rewrite LD| |intros; apply mixing_nonneg].
  intros j t Zt b. pose proof (znth_some_range _ _ _ Zt). apply w_then; [apply mixing_nonneg|]. intros a _. apply w_last; [|intros; apply w_free].
  apply w_mixing; [|apply (declared_types c CO); eapply znth_In; eassumption]. rewrite Ec, (types_get c CO) by lia. exact Zt.
Qed.
Lemma c_globals1 ch l : within (alloc_globals1 ch c l) (c_nglobals c * globals + total values (filter (fun t => vt_kind t =? HABSTRACT) (global_types c))).
Proof.
  destruct (globals_table c CO) as (ET & LD & _). fold (global_types c) in LD. pose proof globals_nn as T0. unfold alloc_globals1. rewrite total_filter.
  assert (N : forall t, 0 <= if vt_kind t =? HABSTRACT then values t else 0) by (intros t; pose proof (values_nonneg t); destruct (vt_kind t =? HABSTRACT); lia).
  eapply w_to; [apply (w_rfor (fun t => globals + if vt_kind t =? HABSTRACT then values t else 0) _ (global_types c)); [now rewrite LD| |]|].
  - intros j t Zt b. pose proof (znth_some_range _ _ _ Zt). apply w_cloned; [exact T0|apply N|]. apply w_then; [apply N|]. intros a _. rewrite (globals_get c CO) by lia.
    eapply w_entry; [exact Zt|apply N|]. destruct (vt_kind t =? HABSTRACT); [|apply w_free]. eapply w_to; [apply (w_cloned _ 0); [apply values_nonneg|lia|]|lia].
    apply w_then; [lia|]. intros. apply w_free.
  - intros x _. specialize (N x). lia.
  - rewrite (turns (fun t => if vt_kind t =? HABSTRACT then values t else 0) globals (global_types c) (c_nglobals c)) by auto. reflexivity.
Qed.
Lemma c_globals2 ch l : within (alloc_globals2 ch c l) (c_ntypes c * types + total values (declared c) + total values (filter owned_global (declared c))).
Proof.
  destruct (types_table c CO) as [ET LD]. pose proof types_nn as T0. unfold alloc_globals2. cbv zeta. rewrite total_filter.
  assert (N : forall t, 0 <= if owned_global t then values t else 0) by (intros t; pose proof (values_nonneg t); destruct (owned_global t); lia).
  assert (P : forall t, 0 <= values t + if owned_global t then values t else 0) by (intros t; pose proof (values_nonneg t); specialize (N t); lia).
  eapply w_to; [apply (w_rfor (fun t => types + (values t + if owned_global t then values t else 0)) _ (declared c)); [now rewrite LD| |]|].
  - intros j t Zt b. pose proof (znth_some_range _ _ _ Zt) as Rj. apply w_cloned; [exact T0|apply P|]. rewrite (types_get c CO) by lia. eapply w_entry; [exact Zt|apply P|].
    apply w_cloned; [apply values_nonneg|apply N|].
    pose proof (znth_In _ _ _ Zt) as It. destruct (declared_types c CO t It) as (_ & _ & _ & T).
    assert (S : forall gs, within (_ <~ clone (values t) ;; x <~ code_hash_type ch t ;; g <~ need PIndex (znth gs 0) ;; need PIndex (zset b (as_usize (g - 1)) (as_i32 x))) (values t)).
    { intros gs. eapply w_to; [apply (w_cloned _ 0); [apply values_nonneg|lia|]|lia]. apply w_then; [lia|]. intros. apply w_then; [lia|]. intros. apply w_free. }
    unfold owned_global. unfold one_of. cbn [existsb].
    destruct ((vt_kind t =? HOBJ) || (vt_kind t =? HSTRUCT)) eqn:K1.
    { replace ((vt_kind t =? HOBJ) || ((vt_kind t =? HSTRUCT) || ((vt_kind t =? HENUM) || false))) with true by lia.
      rewrite <- one_of_2 in K1. apply kind_shape in T as [T _]. specialize (T K1). destruct (vt_union t); try contradiction. apply S. }
    replace ((vt_kind t =? HOBJ) || ((vt_kind t =? HSTRUCT) || ((vt_kind t =? HENUM) || false))) with (vt_kind t =? HENUM) by lia.
    destruct (vt_kind t =? HENUM) eqn:K2; [|apply w_free].
    apply kind_shape in T as [_ T]. specialize (T ltac:(lia)). destruct (vt_union t); try contradiction. apply S.
  - intros x _. specialize (P x). lia.
  - rewrite (turns (fun t => values t + if owned_global t then values t else 0) types (declared c) (c_ntypes c)) by auto. rewrite total_plus. lia.
Qed.
Lemma c_finish ch l : within (alloc_finish ch c l) (total values (global_types c)).
Proof.
  destruct (globals_table c CO) as (ET & LD & _). fold (global_types c) in LD. unfold alloc_finish.
  apply w_rfor; [now rewrite LD| |intros; apply values_nonneg].
  intros j t Zt b. pose proof (znth_some_range _ _ _ Zt). rewrite (globals_get c CO) by lia. eapply w_entry; [exact Zt|apply values_nonneg|].
  eapply w_to; [apply (w_cloned _ 0); [apply values_nonneg|lia|]|lia]. apply w_then; [lia|]. intros. apply w_then; [lia|]. intros. apply w_free.
Qed.
Lemma c_alloc : within (alloc c) (copied_by_alloc c).
Proof.
  unfold copied_by_alloc. cbv zeta. fold types globals functions natives.
  pose proof types_nn as T0. pose proof globals_nn as G0. pose proof functions_nn as F0. pose proof natives_nn as N0.
  pose proof (c_indexes (zrepeat 0 0)) as W1. pose proof (w_nonneg _ _ W1) as P1.
  pose proof (w_nonneg _ _ (c_types1 [])) as P2. pose proof (w_nonneg _ _ (c_types2 (alloc_start c) eq_refl)) as P3.
  pose proof (w_nonneg _ _ (c_globals1 (alloc_start c) [])) as P4. pose proof (w_nonneg _ _ (c_globals2 (alloc_start c) [])) as P5. pose proof (tn (global_types c)) as P6.
  unfold alloc. cbv zeta. eapply w_to; [apply w_cloned; [| |
    apply w_bind; [apply c_indexes| |intros idx _; apply w_bind; [apply c_types1| |intros hs _; apply w_bind; [apply c_types2; reflexivity| |intros hs2 _; apply w_bind; [apply c_globals1| |intros l1 _;
      apply w_bind; [apply c_globals2| |intros l2 _; apply w_then; [|intros l3 _; apply w_then; [|intros l4 _; apply w_last; [apply c_finish|intros; apply w_free]]]]]]]]]|].
  all: try exact P6. all: unfold code_values; fold types globals functions natives; lia.
Qed.
End Alloc.

(** * The theorems *)
(** Whatever file was loaded: hashing the module copies exactly this many types, or fewer if it panics on the way. *)
Theorem C92_alloc e0 file c : bytes file -> accepted e0 file c ->
  0 <= snd (alloc c) <= copied_by_alloc c /\ ((exists ch, HashModel.alloc c = Ok ch) -> snd (alloc c) = copied_by_alloc c).
Proof.
  intros B A. destruct (accepted_alloc e0 file c B A) as [CO SO]. destruct (c_alloc c CO SO) as [H1 H2]. split; [exact H1|].
  intros [ch E]. rewrite <- (proj1 C92_counts) in E. exact (H2 _ E).
Qed.
(** The signature of a single type. *)
Theorem C92_hash e0 file c t : bytes file -> accepted e0 file c -> In t (declared c) ->
  snd (vt_hash true t) = copied_inside t /\ snd (vt_hash false t) = copied_outside t.
Proof.
  intros B A I. destruct (accepted_alloc e0 file c B A) as [CO SO]. destruct (declared_types c CO t I) as (C & _ & M & _).
  destruct (C47_accepted e0 file c t B A I) as [E1 E2]. rewrite <- (proj2 C92_counts) in E1, E2. split; [eapply w_hash_inner; eauto|eapply w_hash_outer; eauto].
Qed.
(** Hence the number of copies grows with the square of the number of types, of globals, of functions and of natives (a module's tables of types
    and globals are twice as long as declared). *)
Theorem C92_quadratic e0 file c ch : bytes file -> accepted e0 file c -> HashModel.alloc c = Ok ch ->
  4 * c_ntypes c ^ 2 + 2 * c_nglobals c ^ 2 + c_nfunctions c ^ 2 + c_nnatives c ^ 2 <= snd (alloc c).
Proof.
  intros B A E. pose proof (C92_alloc e0 file c B A) as (_ & H). rewrite H by eauto. destruct (accepted_alloc e0 file c B A) as [CO SO].
  assert (TL : forall l, zlen l <= total values l).
  { intros l. rewrite <- (Z.mul_1_r (zlen l)), <- total_const. induction l as [|x l IH]; [cbn; lia|]. change (1 + total (fun _ => 1) l <= values x + total values l). pose proof (values_pos x). lia. }
  assert (FL : forall l, zlen l <= total fun_values l).
  { intros l. rewrite <- (Z.mul_1_r (zlen l)), <- total_const. induction l as [|x l IH]; [cbn; lia|]. change (1 + total (fun _ => 1) l <= fun_values x + total fun_values l).
    assert (1 <= fun_values x); [|lia]. destruct x as [t fi nr no rf regs ops dbg obj field]. cbn [fun_values]. pose proof (values_pos t). pose proof (tn regs).
    assert (0 <= match obj with Some u => parts u | None => 0 end) by (destruct obj; [apply parts_nonneg|lia]).
    assert (0 <= match field with Some (mkFF _ (Some g)) => fun_values g | _ => 0 end) by (destruct field as [[nm [gf|]]|]; [apply fun_values_nonneg|lia|lia]). lia. }
  assert (NL : forall l, zlen l <= total native_values l).
  { intros l. rewrite <- (Z.mul_1_r (zlen l)), <- total_const. induction l as [|x l IH]; [cbn; lia|]. change (1 + total (fun _ => 1) l <= native_values x + total native_values l). assert (1 <= native_values x) by apply values_pos. lia. }
  destruct SO as (R & _ & _ & _ & _ & _ & _ & LT & LG & LN & LF & _). pose proof (TL (c_types c)) as T1. pose proof (TL (c_globals c)) as T2. pose proof (FL (c_functions c)) as T3. pose proof (NL (c_natives c)) as T4.
  rewrite LT in T1. rewrite LG in T2. rewrite LF in T3. rewrite LN in T4.
  assert (R0 : 0 <= c_ntypes c /\ 0 <= c_nglobals c /\ 0 <= c_nfunctions c /\ 0 <= c_nnatives c).
  { rewrite Forall_forall in R. repeat split; apply R; cbn; tauto. }
  unfold copied_by_alloc. cbv zeta.
  pose proof (tn (declared c)). pose proof (tn (global_types c)). pose proof (tn (filter owned_global (declared c))). pose proof (tn (filter (fun t => vt_kind t =? HABSTRACT) (global_types c))).
  assert (0 <= total copied_outside (declared c)) by (apply total_nonneg; intros; apply outside_nonneg). assert (0 <= total copied_mixing (declared c)) by (apply total_nonneg; intros; apply mixing_nonneg).
  destruct R0 as (R1 & R2 & R3 & R4). rewrite !Z.pow_2_r. set (T := total values (c_types c)) in *. set (G := total values (c_globals c)) in *. set (F := total fun_values (c_functions c)) in *. set (N := total native_values (c_natives c)) in *.
  assert (c_ntypes c * (2 * c_ntypes c) <= c_ntypes c * T) by (apply Z.mul_le_mono_nonneg_l; lia). assert (c_nglobals c * (2 * c_nglobals c) <= c_nglobals c * G) by (apply Z.mul_le_mono_nonneg_l; lia).
  assert (c_nfunctions c * c_nfunctions c <= c_nfunctions c * F) by (apply Z.mul_le_mono_nonneg_l; lia). assert (c_nnatives c * c_nnatives c <= c_nnatives c * N) by (apply Z.mul_le_mono_nonneg_l; lia). lia.
Qed.
Lemma f_finalize' ch : fst (finalize ch) = HashModel.finalize ch.
Proof.
  unfold finalize, HashModel.finalize. cbv zeta. rewrite f_bind. erewrite f_rfor; [|intros; rewrite f_bind; apply rbind_ext; intros; rewrite f_clone, f_bind; reflexivity]. apply rbind_ext. intros l.
  rewrite f_bind. erewrite f_rfor; [|intros; rewrite f_bind; apply rbind_ext; intros; rewrite f_clone, f_bind; reflexivity]. apply rbind_ext. intros l'.
  rewrite f_bind. erewrite f_rfor; [|intros; rewrite f_bind; apply rbind_ext; intros; rewrite f_clone, f_bind; reflexivity]. reflexivity.
Qed.
(** [finalize], of any hash structure whose tables are as long as its counts say: every function twice, every native once. *)
Theorem C92_finalize ch : let c := ch_code ch in
  zlen (c_functions c) = c_nfunctions c -> zlen (c_natives c) = c_nnatives c ->
  fst (finalize ch) = HashModel.finalize ch /\
  let n := 2 * total fun_values (c_functions c) + total native_values (c_natives c) in
  0 <= snd (finalize ch) <= n /\ ((exists ch', HashModel.finalize ch = Ok ch') -> snd (finalize ch) = n).
Proof.
  intros c L1 L2. split; [apply f_finalize'|]. cbv zeta.
  assert (W : within (finalize ch) (2 * total fun_values (c_functions c) + total native_values (c_natives c))).
  2:{ destruct W as [H1 H2]. split; [exact H1|]. intros [ch' E]. rewrite <- f_finalize' in E. exact (H2 _ E). }
  assert (F0 : 0 <= total fun_values (c_functions c)) by (apply total_nonneg; intros; apply fun_values_nonneg). assert (N0 : 0 <= total native_values (c_natives c)) by (apply total_nonneg; intros; apply natives_nonneg).
  assert (WF : forall (body : Z -> hl_function -> list Z -> HashModel.R Z) acc, within (rfor (c_nfunctions c) (fun i l =>
      f <~ need PIndex (znth (c_functions c) i) ;; _ <~ clone (fun_values f) ;; x <~ free (body i f l) ;; need PIndex (zset l i x)) acc) (total fun_values (c_functions c))).
  { intros body acc. apply w_rfor; [auto| |intros; apply fun_values_nonneg]. intros j x Zx b. eapply w_entry; [exact Zx|apply fun_values_nonneg|].
    eapply w_to; [apply (w_cloned _ 0); [apply fun_values_nonneg|lia|]|lia]. apply w_then; [lia|]. intros. apply w_free. }
  unfold finalize. cbv zeta. fold c. eapply w_to; [apply (w_bind _ _ (total fun_values (c_functions c)) (total native_values (c_natives c) + total fun_values (c_functions c))); [apply (WF (fun _ f _ => HashModel.hash_fun_sign ch f))|lia|intros signs _; apply w_bind; [| |intros signs' _; apply w_last; [|intros; apply w_free]]]|].
  - apply (w_rfor native_values); [auto| |intros; apply natives_nonneg]. intros j x Zx b. eapply w_entry; [exact Zx|apply natives_nonneg|].
    eapply w_to; [apply (w_cloned _ 0); [apply natives_nonneg|lia|]|lia]. apply w_then; [lia|]. intros. apply w_free.
  - exact F0.
  - apply (WF (fun _ f l => HashModel.hash_fun (set_functions_hashes l (set_functions_signs signs' ch)) f)).
  - lia.
Qed.
From Verif Require Import PropsLookup.
(** Violated: the copies, and with them the memory needed, are exponential in the size of the file.  At most [6 n + 25] bytes make a valid module
    that can be hashed, copying at least [2 (n + 1) (2 ^ (n + 1) - 1)] types, for all [n] below 8191. *)
Theorem C92_exponential_refuted n : Z.of_nat n < 8191 -> wf_module (tower_fun n) /\ zlen (enc_module (tower_fun n)) <= 6 * Z.of_nat n + 25 /\
  exists c, accepted None (enc_module (tower_fun n)) c /\ (exists ch, HashModel.alloc c = Ok ch) /\
    2 * (Z.of_nat n + 1) * (2 ^ (Z.of_nat n + 1) - 1) <= snd (alloc c).
Proof.
  intros L. split; [now apply tower_fun_wf|]. split; [now apply tower_fun_len|]. destruct (C37_roundtrip (tower_fun n) [] (tower_fun_wf n L)) as [u E]. rewrite app_nil_r in E.
  set (c := view_module (tower_fun n) u). assert (A : accepted None (enc_module (tower_fun n)) c) by (unfold accepted, c; now rewrite E).
  assert (B : bytes (enc_module (tower_fun n))) by (apply bytes_module, tower_fun_wf; exact L).
  exists c. split; [exact A|]. assert (H : exists ch, HashModel.alloc c = Ok ch) by (apply (C50_exact None _ c B A); apply tower_hashable). split; [exact H|].
  destruct (C92_alloc None _ c B A) as [_ X]. rewrite (X H). clear X H E.
  destruct (accepted_alloc None _ c B A) as [CO SO]. 
  set (ts := view_types [] (am_types (tower n))). destruct (tower_values n ts eq_refl n ltac:(lia)) as (t & Zt & V).
  assert (ET : c_types c = ts ++ zrepeat vt_default (zlen (am_types (tower n)))) by reflexivity.
  assert (EN : c_ntypes c = Z.of_nat n + 1) by (change (c_ntypes c) with (zlen (am_types (tower n))); apply tower_types).
  assert (S1 : 2 ^ (Z.of_nat n + 1) - 1 <= total values (c_types c)).
  { apply znth_In in Zt. rewrite ET, total_app. pose proof (tn (zrepeat vt_default (zlen (am_types (tower n))))). enough (values t <= total values ts) by lia. clear - Zt.
    induction ts as [|x r IH]; [destruct Zt|]. change (total values (x :: r)) with (values x + total values r). pose proof (tn r). pose proof (values_nonneg x). destruct Zt as [->|Zt]; [lia|]. specialize (IH Zt). lia. }
  unfold copied_by_alloc. cbv zeta. rewrite EN. 
  pose proof (tn (declared c)). pose proof (tn (global_types c)). pose proof (tn (filter owned_global (declared c))). pose proof (tn (filter (fun t => vt_kind t =? HABSTRACT) (global_types c))).
  assert (0 <= total copied_outside (declared c)) by (apply total_nonneg; intros; apply outside_nonneg). assert (0 <= total copied_mixing (declared c)) by (apply total_nonneg; intros; apply mixing_nonneg).
  pose proof (functions_nn c) as F0. pose proof (natives_nn c) as N0. pose proof (globals_nn c) as G0. pose proof (types_nn c) as T0.
  assert (R0 : 0 <= c_nglobals c /\ 0 <= c_nfunctions c /\ 0 <= c_nnatives c).
  { destruct SO as (R & _). rewrite Forall_forall in R. repeat split; apply R; cbn; tauto. }
  destruct R0 as (R2 & R3 & R4).
  pose proof (Z.mul_nonneg_nonneg _ _ R2 G0). pose proof (Z.mul_nonneg_nonneg _ _ R3 F0). pose proof (Z.mul_nonneg_nonneg _ _ R4 N0).
  set (P := 2 ^ (Z.of_nat n + 1) - 1) in *. set (T := total values (c_types c)) in *.
  assert ((Z.of_nat n + 1) * P <= (Z.of_nat n + 1) * T) by (apply Z.mul_le_mono_nonneg_l; lia). lia.
Qed.
(** A file of 385 bytes: more than 2^67 copies.  A tower of three function types counted outright, and a module with classes, enums, globals,
    natives and functions. *)
Example C92_ex :
  (exists c, accepted None (enc_module (tower_fun 60)) c /\ 2 ^ 67 < snd (alloc c)) /\ zlen (enc_module (tower_fun 60)) <= 385 /\
  (accepted None (enc_module (tower_fun 3)) (loaded (tower_fun 3)) /\ (exists ch, HashModel.alloc (loaded (tower_fun 3)) = Ok ch) /\
   map values (declared (loaded (tower_fun 3))) = [1; 3; 7; 15] /\ map copied_outside (declared (loaded (tower_fun 3))) = [0; 2; 6; 14] /\
   snd (alloc (loaded (tower_fun 3))) = 369) /\
  (accepted None (enc_module ex_hash) (loaded ex_hash) /\ bytes (enc_module ex_hash) /\ (exists ch, HashModel.alloc (loaded ex_hash) = Ok ch) /\
   map copied_inside (declared (loaded ex_hash)) = [0; 0; 0; 0; 2; 2; 0; 0] /\ map copied_outside (declared (loaded ex_hash)) = [0; 0; 0; 1; 2; 4; 0; 2] /\
   snd (alloc (loaded ex_hash)) = 625).
Proof.
  split; [destruct (C92_exponential_refuted 60 ltac:(lia)) as (_ & _ & c & A & _ & H); exists c; split; [exact A|]; change (2 * (Z.of_nat 60 + 1) * (2 ^ (Z.of_nat 60 + 1) - 1)) with 281312847124070662022 in H; change (2 ^ 67) with 147573952589676412928; lia|].
  split; [apply (tower_fun_len 60); lia|]. split.
  - split; [vm_compute; reflexivity|]. split; [exists (hashed (loaded (tower_fun 3))); vm_compute; reflexivity|]. repeat apply conj; vm_compute; reflexivity.
  - split; [exact ex_hash_accepted|]. split; [exact ex_hash_bytes|]. split; [exists (hashed (loaded ex_hash)); exact ex_hash_ok|]. repeat apply conj; vm_compute; reflexivity.
Qed.
(** Finalisation of the hash structure of C52_ex, filled in by hand. *)
Example C92_ex_final : (exists ch', HashModel.finalize ex_final = Ok ch') /\ zlen (c_functions (ch_code ex_final)) = c_nfunctions (ch_code ex_final) /\
  zlen (c_natives (ch_code ex_final)) = c_nnatives (ch_code ex_final) /\ 0 < snd (finalize ex_final).
Proof. split; [eexists; vm_compute; reflexivity|]. repeat apply conj; vm_compute; reflexivity. Qed.
