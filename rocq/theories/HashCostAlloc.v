(** What hashing a module costs, phase by phase. *)
From Verif Require Import Prelude StdModel BrassTypes DecoderModel FormatSpec ReaderSpec AcceptSpec HashSpec HashCostSpec CodeGenericProofs FormatProofs StringsProofs ReaderSizes PropsGrammar PropsSize HashProofs HashAlloc.
From Verif Require HashModel.
From Verif Require Import HashCostModel HashCostProofs.
From Coq Require Import Lia ZifyBool.

Definition compare_cost (a b : vtype) : Z := snd (vt_eqc a b).
Lemma compare_pos a b : 1 <= compare_cost a b. Proof. apply vt_eqc_min. Qed.
Lemma search_nonneg ts t : 0 <= search compare_cost ts t.
Proof. induction ts as [|x r IH]; cbn [search]; [lia|]. pose proof (compare_pos x t). destruct (vt_eq_dec x t); lia. Qed.
Lemma s_position ts t : snd (position ts t) = search compare_cost ts t.
Proof.
  induction ts as [|x r IH]; [reflexivity|]. cbn [position search]. unfold compare_cost at 1. pose proof (vt_eqc_ok x t) as E. destruct (vt_eqc x t) as [b n]. cbn [fst snd] in E |- *.
  destruct (vt_eq_dec x t) as [X|X].
  - assert (b = true) as -> by (rewrite E; now apply vt_eqb_eq). cbn. lia.
  - assert (b = false) as ->. { rewrite E. destruct (HashModel.vt_eqb x t) eqn:Q; [|reflexivity]. now apply vt_eqb_eq in Q. }
    destruct (position r t) as [o n']. cbn [snd] in IH |- *. lia.
Qed.

(** At most [n], and exactly [n] if the result is normal. *)
Definition within {A} (m : R A) (n : Z) : Prop := 0 <= snd m <= n /\ (forall a, fst m = Ok a -> snd m = n).
Lemma w_nonneg {A} (m : R A) n : within m n -> 0 <= n. Proof. intros [H _]. lia. Qed.
Lemma w_free {A} (m : HashModel.R A) : within (free m) 0. Proof. split; [cbn; lia|reflexivity]. Qed.
Lemma w_stop {A} (m : HashModel.R A) n : 0 <= n -> (forall a, m <> Ok a) -> within (free m) n.
Proof. intros H N. split; [cbn; lia|]. cbn. intros a E. now apply N in E. Qed.
Lemma w_to {A} (m : R A) n n' : within m n -> n = n' -> within m n'. Proof. now intros ? <-. Qed.
Lemma w_bind {A B} (m : R A) (k : A -> R B) n n' : within m n -> 0 <= n' -> (forall a, fst m = Ok a -> within (k a) n') -> within (rbind m k) (n + n').
Proof.
  intros [H1 H2] N H3. unfold within. rewrite s_bind, f_bind. destruct (fst m) as [a|e|p] eqn:E.
  - specialize (H2 a eq_refl). destruct (H3 a eq_refl) as [H4 H5]. split; [lia|]. cbn. intros b Hb. specialize (H5 b Hb). lia.
  - split; [lia|discriminate].
  - split; [lia|discriminate].
Qed.
Lemma w_then {A B} (m : HashModel.R A) (k : A -> R B) n : 0 <= n -> (forall a, m = Ok a -> within (k a) n) -> within (rbind (free m) k) n.
Proof. intros N H. eapply w_to; [apply w_bind; [apply w_free|exact N|exact H]|lia]. Qed.
Lemma w_last {A B} (m : R A) (k : A -> R B) n : within m n -> (forall a, within (k a) 0) -> within (rbind m k) n.
Proof. intros H K. eapply w_to; [apply (w_bind _ _ n 0); [exact H|lia|intros a _; apply K]|lia]. Qed.
Lemma total_nonneg {A} (f : A -> Z) l : (forall x, In x l -> 0 <= f x) -> 0 <= total f l.
Proof. induction l as [|x l IH]; intros H; [cbn; lia|]. change (total f (x :: l)) with (f x + total f l). pose proof (H x (or_introl eq_refl)). specialize (IH (fun y Hy => H y (or_intror Hy))). lia. Qed.
Lemma total_app {A} (f : A -> Z) l r : total f (l ++ r) = total f l + total f r.
Proof. induction l as [|x l IH]; [reflexivity|]. change (total f ((x :: l) ++ r)) with (f x + total f (l ++ r)). change (total f (x :: l)) with (f x + total f l). lia. Qed.
Lemma total_flat {A B} (f : B -> Z) (g : A -> list B) l : total f (flat_map g l) = total (fun x => total f (g x)) l.
Proof. induction l as [|x l IH]; [reflexivity|]. cbn [flat_map]. rewrite total_app, IH. reflexivity. Qed.
Lemma total_filter {A} (f : A -> Z) (p : A -> bool) l : total f (filter p l) = total (fun x => if p x then f x else 0) l.
Proof. induction l as [|x l IH]; [reflexivity|]. cbn [filter]. change (total (fun x => if p x then f x else 0) (x :: l)) with ((if p x then f x else 0) + total (fun x => if p x then f x else 0) l). rewrite <- IH. destruct (p x); [reflexivity|lia]. Qed.
Lemma total_map {A B} (f : B -> Z) (g : A -> B) l : total f (map g l) = total (fun x => f (g x)) l.
Proof. induction l as [|x l IH]; [reflexivity|]. cbn [map]. change (f (g x) + total f (map g l) = f (g x) + total (fun x => f (g x)) l). lia. Qed.
Lemma w_rloop {A B} (f : A -> Z) (body : Z -> B -> R B) : forall (l : list A) i acc,
  (forall j x, znth l j = Some x -> forall b, within (body (i + j) b) (f x)) -> (forall x, In x l -> 0 <= f x) ->
  within (rloop (length l) i body acc) (total f l).
Proof.
  induction l as [|x l IH]; intros i acc H N; [apply w_free|]. cbn [length rloop]. change (total f (x :: l)) with (f x + total f l). apply w_bind.
  - replace i with (i + 0) by lia. apply H. reflexivity.
  - apply total_nonneg. intros y Hy. apply N. now right.
  - intros a _. apply IH; [|intros y Hy; apply N; now right]. intros j y Zy b. pose proof (znth_some_range _ _ _ Zy) as Rj.
    replace (i + 1 + j) with (i + (1 + j)) by lia. apply H. rewrite znth_nth_error in Zy |- * by lia. replace (Z.to_nat (1 + j)) with (S (Z.to_nat j)) by lia. exact Zy.
Qed.
Lemma w_rfor {A B} (f : A -> Z) (body : Z -> B -> R B) (l : list A) n acc : n = zlen l ->
  (forall j x, znth l j = Some x -> forall b, within (body j b) (f x)) -> (forall x, In x l -> 0 <= f x) -> within (rfor n body acc) (total f l).
Proof. intros -> H N. unfold rfor, zlen. rewrite Nat2Z.id. now apply w_rloop. Qed.

Lemma w_hash_at ts hs t : within (hash_at ts hs t) (search compare_cost ts t).
Proof.
  unfold hash_at. eapply w_to; [apply (w_bind _ _ (search compare_cost ts t) 0)|lia]; [|lia|].
  - split; [|intros; apply s_position]. rewrite s_position. pose proof (search_nonneg ts t). lia.
  - intros o _. apply w_then; [lia|]. intros. apply w_free.
Qed.
Lemma w_write_type ts hs t h : within (write_type ts hs t h) (search compare_cost ts t).
Proof. unfold write_type. apply w_last; [apply w_hash_at|intros; apply w_free]. Qed.
Lemma w_code_hash_type ch t : within (code_hash_type ch t) (search compare_cost (c_types (ch_code ch)) t).
Proof. unfold code_hash_type. apply w_last; [apply w_write_type|intros; apply w_free]. Qed.
Lemma sn ts l : 0 <= total (search compare_cost ts) l. Proof. apply total_nonneg. intros. apply search_nonneg. Qed.
Lemma w_hash_type_rec ch i t : znth (c_types (ch_code ch)) i = Some t -> counted t ->
  within (hash_type_rec ch i) (total (search compare_cost (c_types (ch_code ch))) (mixed t)).
Proof.
  intros Zt (C & _). unfold hash_type_rec. cbv zeta. rewrite Zt. change (need PUnwrap (Some t)) with (rret t). apply w_then; [apply sn|]. intros t' E. injection E as <-.
  apply w_last; [|intros; apply w_free]. set (ts := c_types (ch_code ch)). set (hs := ch_type_hashes ch). unfold mixed, mentions. rewrite !one_of_2, !one_of_1.
  destruct ((vt_kind t =? HFUN) || (vt_kind t =? HMETHOD)) eqn:K1.
  { replace (vt_kind t =? HVIRTUAL) with false by (unfold HFUN, HMETHOD, HVIRTUAL in *; lia).
    destruct (vt_union t); try apply w_free. rewrite total_app. change (total (search compare_cost ts) [ret]) with (search compare_cost ts ret + 0). rewrite Z.add_0_r. apply w_bind; [|apply search_nonneg|intros; apply w_write_type].
    apply w_rfor; [exact C| |intros; apply search_nonneg]. intros j x Zx b. rewrite Zx. change (need PUnwrap (Some x)) with (rret x). apply w_then; [apply search_nonneg|]. intros a E. injection E as <-. apply w_write_type. }
  destruct ((vt_kind t =? HOBJ) || (vt_kind t =? HSTRUCT)) eqn:K2.
  { replace (vt_kind t =? HVIRTUAL) with false by (unfold HOBJ, HSTRUCT, HVIRTUAL in *; lia).
    destruct (vt_union t); try apply w_free. rewrite total_map.
    apply w_rfor; [exact C| |intros; apply search_nonneg]. intros j x Zx b. rewrite Zx. change (need PUnwrap (Some x)) with (rret x). apply w_then; [apply search_nonneg|]. intros a E. injection E as <-. apply w_write_type. }
  destruct ((vt_kind t =? HREF) || (vt_kind t =? HNULL)) eqn:K3.
  { replace (vt_kind t =? HVIRTUAL) with false by (unfold HREF, HNULL, HVIRTUAL in *; lia).
    destruct (vt_tparam t) as [p|].
    - change (total (search compare_cost ts) [p]) with (search compare_cost ts p + 0). rewrite Z.add_0_r. change (need PUnwrap (Some p)) with (rret p). apply w_then; [apply search_nonneg|]. intros a E. injection E as <-. apply w_write_type.
    - apply w_then; [cbn; lia|]. discriminate. }
  destruct (vt_kind t =? HVIRTUAL) eqn:K4.
  { replace (vt_kind t =? HENUM) with false by (unfold HENUM, HVIRTUAL in *; lia). apply w_free. }
  destruct (vt_kind t =? HENUM) eqn:K5; [|apply w_free].
  destruct (vt_union t); try apply w_free. destruct C as [C1 C2]. rewrite total_flat.
  apply w_rfor; [exact C1| |intros; apply sn]. intros j x Zx b. rewrite Zx. change (need PUnwrap (Some x)) with (rret x). apply w_then; [apply sn|]. intros a E. injection E as <-.
  rewrite Forall_forall in C2. apply w_rfor; [apply C2; eapply znth_In; eassumption| |intros; apply search_nonneg].
  intros j' y Zy b'. rewrite Zy. change (need PUnwrap (Some y)) with (rret y). apply w_then; [apply search_nonneg|]. intros a E. injection E as <-. apply w_write_type.
Qed.

Lemma kind_shape ss T t : type_ok ss T t ->
  (one_of (vt_kind t) [HOBJ; HSTRUCT] = true -> match vt_union t with ObjType _ _ _ _ _ _ _ _ _ _ => True | _ => False end) /\
  (vt_kind t = HENUM -> match vt_union t with EnumType _ _ _ _ => True | _ => False end).
Proof.
  intros H. assert (PK : forall k, In k prim_kinds \/ k = HNULL \/ k = HABSTRACT \/ k = HVIRTUAL \/ In k param_kinds \/ In k [HFUN; HMETHOD] ->
     one_of k [HOBJ; HSTRUCT] <> true /\ k <> HENUM).
  { intros k X. cbn in X. repeat (destruct X as [X|X]); try contradiction; subst k; split; discriminate. }
  destruct t as [u a p k]. cbn [vt_union vt_kind]. destruct u, a, p; cbn [type_ok] in H; try contradiction; try (destruct (PK k ltac:(tauto)) as [P1 P2]; split; intros; [now apply P1|now apply P2]).
  - destruct rt; contradiction.
  - destruct rt; contradiction.
  - destruct rt; contradiction.
  - destruct rt; [contradiction|]. split; [auto|]. intros ->. destruct H as ([H|[H|[]]] & _); discriminate H.
  - split; [|auto]. destruct H as (-> & _). discriminate.
Qed.

Section Alloc.
Context (c : code) (CO : contents_ok c) (SO : sizes_ok c).
Notation look := (search compare_cost (c_types c)).
Lemma w_types2 ch : ch_code ch = c -> within (alloc_types2 ch c) (total look (flat_map mixed (declared c))).
Proof.
  intros Ec. destruct (types_table c CO) as [ET LD]. unfold alloc_types2. rewrite total_flat. apply w_rfor; [now rewrite LD| |intros; apply sn].
  intros j t Zt b. pose proof (znth_some_range _ _ _ Zt). apply w_then; [apply sn|]. intros a _. apply w_last; [|intros; apply w_free].
  pose proof (w_hash_type_rec ch j t) as W. rewrite Ec in W. apply W; [|apply (declared_types c CO); eapply znth_In; eassumption].
  rewrite (types_get c CO) by lia. exact Zt.
Qed.
Lemma w_globals1 ch l : ch_code ch = c -> within (alloc_globals1 ch c l) (total look (filter (fun t => vt_kind t =? HABSTRACT) (global_types c))).
Proof.
  intros Ec. destruct (globals_table c CO) as (ET & LD & _). fold (global_types c) in LD. unfold alloc_globals1. rewrite total_filter.
  assert (N : forall t, 0 <= if vt_kind t =? HABSTRACT then look t else 0) by (intros t; destruct (vt_kind t =? HABSTRACT); [apply search_nonneg|lia]).
  apply w_rfor; [now rewrite LD| |intros; apply N].
  intros j t Zt b. pose proof (znth_some_range _ _ _ Zt). apply w_then; [apply N|]. intros a _. rewrite (globals_get c CO) by lia. unfold global_types in Zt. rewrite Zt. apply w_then; [apply N|]. intros x E. injection E as <-.
  destruct (vt_kind t =? HABSTRACT); [|apply w_free]. apply w_last; [|intros; apply w_free]. rewrite <- Ec. apply w_code_hash_type.
Qed.
Lemma w_globals2 ch l : ch_code ch = c -> within (alloc_globals2 ch c l) (total look (filter owned_global (declared c))).
Proof.
  intros Ec. destruct (types_table c CO) as [ET LD]. unfold alloc_globals2. cbv zeta. rewrite total_filter.
  assert (N : forall t, 0 <= if owned_global t then look t else 0) by (intros t; destruct (owned_global t); [apply search_nonneg|lia]).
  apply w_rfor; [now rewrite LD| |intros; apply N].
  intros j t Zt b. pose proof (znth_some_range _ _ _ Zt) as Rj. rewrite (types_get c CO) by lia. rewrite Zt. apply w_then; [apply N|]. intros x E. injection E as <-.
  pose proof (znth_In _ _ _ Zt) as It. destruct (declared_types c CO t It) as (_ & _ & _ & T).
  assert (S : forall gs, within (x <~ code_hash_type ch t ;; g <~ need PIndex (znth gs 0) ;; need PIndex (zset b (as_usize (g - 1)) (as_i32 x))) (look t)).
  { intros gs. apply w_last; [rewrite <- Ec; apply w_code_hash_type|]. intros a. apply w_then; [lia|]. intros. apply w_free. }
  unfold owned_global, one_of. cbn [existsb]. 
  destruct ((vt_kind t =? HOBJ) || (vt_kind t =? HSTRUCT)) eqn:K1.
  { replace ((vt_kind t =? HOBJ) || ((vt_kind t =? HSTRUCT) || ((vt_kind t =? HENUM) || false))) with true by (destruct (vt_kind t =? HOBJ); cbn in *; [auto|now rewrite K1]).
    rewrite <- one_of_2 in K1. apply kind_shape in T as [T _]. specialize (T K1). destruct (vt_union t); try contradiction. apply S. }
  destruct (vt_kind t =? HENUM) eqn:K2.
  { replace ((vt_kind t =? HOBJ) || ((vt_kind t =? HSTRUCT) || (true || false))) with true by (destruct (vt_kind t =? HOBJ), (vt_kind t =? HSTRUCT); auto).
    apply kind_shape in T as [_ T]. specialize (T ltac:(lia)). destruct (vt_union t); try contradiction. apply S. }
  replace ((vt_kind t =? HOBJ) || ((vt_kind t =? HSTRUCT) || (false || false))) with false by (destruct (vt_kind t =? HOBJ), (vt_kind t =? HSTRUCT); cbn in *; auto; discriminate).
  apply w_free.
Qed.
Lemma w_finish ch l : ch_code ch = c -> within (alloc_finish ch c l) (total look (global_types c)).
Proof.
  intros Ec. destruct (globals_table c CO) as (ET & LD & _). fold (global_types c) in LD. unfold alloc_finish.
  apply w_rfor; [now rewrite LD| |intros; apply search_nonneg].
  intros j t Zt b. pose proof (znth_some_range _ _ _ Zt). rewrite (globals_get c CO) by lia. unfold global_types in Zt. rewrite Zt. apply w_then; [apply search_nonneg|]. intros x E. injection E as <-.
  apply w_last; [rewrite <- Ec; apply w_code_hash_type|]. intros a. apply w_then; [lia|]. intros. apply w_free.
Qed.
Lemma w_alloc : within (alloc c) (total look (looked_up c)).
Proof.
  unfold alloc, looked_up. cbv zeta. rewrite !total_app.
  pose proof (sn (c_types c) (flat_map mixed (declared c))) as N1. pose proof (sn (c_types c) (filter (fun t => vt_kind t =? HABSTRACT) (global_types c))) as N2.
  pose proof (sn (c_types c) (filter owned_global (declared c))) as N3. pose proof (sn (c_types c) (global_types c)) as N4.
  apply w_then; [lia|]. intros idx _. apply w_then; [lia|]. intros hs _. apply w_bind; [apply w_types2; reflexivity|lia|]. intros hs2 _. apply w_bind; [apply w_globals1; reflexivity|lia|]. intros l1 _.
  apply w_bind; [apply w_globals2; reflexivity|lia|]. intros l2 _. apply w_then; [lia|]. intros l3 _. apply w_then; [lia|]. intros l4 _. apply w_last; [apply w_finish; reflexivity|]. intros. apply w_free.
Qed.
End Alloc.

(** * Functions and natives *)
Lemma w_native ch n : within (hash_native ch n) (search compare_cost (c_types (ch_code ch)) (n_t n)).
Proof. unfold hash_native. cbv zeta. apply w_last; [apply w_write_type|intros; apply w_free]. Qed.
Lemma w_zero {A B} (m : R A) (k : A -> R B) : within m 0 -> (forall a, within (k a) 0) -> within (rbind m k) 0.
Proof. intros H K. now apply w_last. Qed.
Ltac zero := repeat first [ apply w_free | apply w_zero; [|intros] | match goal with |- within (match ?x with _ => _ end) _ => destruct x end ].
Lemma w_fun_sign ch f : within (hash_fun_sign ch f) (search compare_cost (c_types (ch_code ch)) (hf_t f)).
Proof. unfold hash_fun_sign. apply w_last; [apply w_write_type|]. intros h. zero. Qed.
Definition op_types (ts : list vtype) (o : opcode) : list vtype :=
  if o_op o =? OType then match o_p2 o with Some p => match znth ts p with Some t => [t] | None => [] end | None => [] end else [].
Lemma w_hash_op ch o h : within (hash_op ch o h) (total (search compare_cost (c_types (ch_code ch))) (op_types (c_types (ch_code ch)) o)).
Proof.
  unfold hash_op, op_types. cbv zeta.
  assert (D : forall k, o_op o = k -> k <> OType -> (o_op o =? OType) = false) by (intros; lia).
  destruct (o_op o =? OInt) eqn:K1; [rewrite (D OInt) by (lia || discriminate); zero|].
  destruct (o_op o =? OFloat) eqn:K2; [rewrite (D OFloat) by (lia || discriminate); zero|].
  destruct (o_op o =? OString) eqn:K3; [rewrite (D OString) by (lia || discriminate); zero|].
  destruct (o_op o =? OType) eqn:K4; [|zero].
  apply w_then; [apply sn|]. intros h1 _. destruct (o_p2 o) as [p|]; [|apply w_then; [cbn; lia|discriminate]]. apply w_then; [apply sn|]. intros p' E. injection E as <-.
  apply w_then; [apply sn|]. intros i E. unfold HashModel.try_usize in E. destruct (p <? 0); [discriminate|]. injection E as <-.
  destruct (znth (c_types (ch_code ch)) p) as [t|]; [|apply w_then; [cbn; lia|discriminate]]. apply w_then; [apply sn|]. intros t' E. injection E as <-.
  change (total (search compare_cost (c_types (ch_code ch))) [t]) with (search compare_cost (c_types (ch_code ch)) t + 0). rewrite Z.add_0_r. apply w_write_type.
Qed.
Lemma w_hash_fun ch f : hf_nregs f = zlen (hf_regs f) -> hf_nops f = zlen (hf_ops f) ->
  within (hash_fun ch f) (total (search compare_cost (c_types (ch_code ch))) (hf_regs f ++ named_types (ch_code ch) f)).
Proof.
  intros E1 E2. unfold hash_fun. rewrite total_app. apply w_bind; [|apply sn|].
  - apply w_rfor; [exact E1| |intros; apply search_nonneg]. intros j x Zx b. rewrite Zx. apply w_then; [apply search_nonneg|]. intros a E. injection E as <-. apply w_write_type.
  - intros h _. apply w_last; [|intros; apply w_free]. unfold named_types. rewrite total_flat. apply (w_rfor (fun o => total (search compare_cost (c_types (ch_code ch))) (op_types (c_types (ch_code ch)) o))); [exact E2| |intros; apply sn].
    intros j x Zx b. rewrite Zx. apply w_then; [apply sn|]. intros a E. injection E as <-. apply w_hash_op.
Qed.
