(** Theorem C89: how deep the recursive functions on types go.  Models: TypeDepthModel.v (clone, drop, [==]), CodeModel.v (reading).
    Vocabulary: DepthSpec.v; [values] of PropsSize.v. *)
From Verif Require Import Prelude StdModel BrassTypes DecoderModel CodeModel FormatSpec ReaderSpec AcceptSpec ErrSpec GrammarSpec DepthSpec.
From Verif Require Import CodeGenericProofs FormatProofs StringsProofs ReaderSizes TypesProofs PropsReader PropsModule PropsGrammar PropsSize HashProofs.
From Verif Require HashModel.
From Verif Require Import TypeDepthModel DepthProofs.
From Coq Require Import Lia ZifyBool.
Ltac Zify.zify_post_hook ::= Z.div_mod_to_equations.

(** * C89 *)
(** Cloning or dropping a type nests as many calls as its longest chain of types inside types. *)
Theorem C89_clone t : fst (vt_clone t) = t /\ deepest (snd (vt_clone t)) t.
Proof. split; [apply clone_same|apply deepest_depth]. Qed.
Theorem C89_drop t : deepest (vt_drop t) t.
Proof. rewrite drop_depth. apply deepest_depth. Qed.
(** Comparing two types nests no more calls than either has types inside types, and as many if they are equal. *)
Theorem C89_compare a b : (fst (vt_eqd a b) = true <-> a = b) /\ nested (snd (vt_eqd a b)) a /\ nested (snd (vt_eqd a b)) b /\
  (a = b -> deepest (snd (vt_eqd a b)) a).
Proof.
  pose proof (eqd_pos a b) as P. destruct (g_vt a b) as (E & _ & A & B & S). split; [rewrite E; apply vt_eqb_eq|].
  split; [eapply nested_shorter; [apply nested_reach|lia]|]. split; [eapply nested_shorter; [apply nested_reach|lia]|].
  intros <-. destruct S as [S _]; [now apply vt_eqb_eq|]. rewrite S. apply deepest_depth.
Qed.

(** Each type entry adds at most one level. *)
Lemma depth_ty ts k M : 1 <= M -> (forall t, In t ts -> depth t <= M) -> depth (ty ts k) <= M.
Proof. intros HM H. unfold ty. destruct (nth_in_or_default (Z.to_nat k) ts vt_default) as [I| ->]; [auto|exact HM]. Qed.
Lemma type_depth xs ts a M : 1 <= M -> (forall t, In t ts -> depth t <= M) -> depth (mean_type xs ts a) <= 1 + M.
Proof.
  intros HM H. pose proof (fun k => depth_ty ts k M HM H) as V.
  assert (L : forall l, maxv depth (map (ty ts) l) <= M) by (intros l; apply maxv_le; [lia|]; intros t I; apply in_map_iff in I as (k & <- & _); apply V).
  assert (F : forall l, maxv (fun f => depth (fd_t f)) (map (mean_field ts) l) <= M).
  { intros l. apply maxv_le; [lia|]. intros f I. apply in_map_iff in I as ([x k] & <- & _). apply V. }
  destruct a as [k|m args r|st name sup g fs ps ds|fs|n|n g cs|k t]; cbn [mean_type]; rewrite depth_unfold; cbn [parts_depth]; try lia.
  - specialize (L args). specialize (V r). lia.
  - specialize (F (combine (skipn 1 xs) (map snd fs))). destruct sup as [s|]; [specialize (V s)|change (depth vt_default) with 1]; lia.
  - specialize (F (combine xs (map snd fs))). lia.
  - match goal with |- 1 + Z.max (maxv ?V ?l) 0 <= _ => assert (maxv V l <= M); [|lia] end. apply maxv_le; [lia|]. intros c I. apply in_map_iff in I as ([x l] & <- & _). apply L.
  - specialize (V t). lia.
Qed.
Lemma types_depth ss ats : forall ins ts, (forall i t, nth_error ts i = Some t -> depth t <= Z.of_nat i + 2) ->
  forall i t, nth_error (fst (mean_types ss ins ts ats)) i = Some t -> depth t <= Z.of_nat i + 2.
Proof.
  induction ats as [|a ats IH]; intros ins ts H i t E; [now apply (H i)|]. cbn [mean_types] in E. destruct (resolve (zlen ss) ins (names_of a)) as [ms ins'].
  refine (IH _ _ _ i t E). clear i t E. intros i t E. destruct (Nat.ltb_spec i (length ts)) as [L|L]; [rewrite nth_error_app1 in E by lia; now apply H|].
  rewrite nth_error_app2 in E by lia. destruct (i - length ts)%nat as [|j] eqn:Ei; [|destruct j; discriminate]. cbn [nth_error] in E. injection E as <-.
  etransitivity; [apply (type_depth _ _ _ (Z.of_nat i + 1)); [lia|]|lia]. intros u I. apply In_nth_error in I as [j Ej]. assert (j < length ts)%nat by (apply nth_error_Some; congruence). specialize (H j u Ej). lia.
Qed.
Lemma types_count ss ats : forall ins ts, zlen (fst (mean_types ss ins ts ats)) = zlen ts + zlen ats.
Proof.
  induction ats as [|a ats IH]; intros ins ts; [cbn; lia|]. cbn [mean_types]. destruct (resolve (zlen ss) ins (names_of a)) as [ms ins']. rewrite IH, zlen_app, !zlen_cons. change (zlen (@nil vtype)) with 0. lia.
Qed.
Theorem C89_bound file c : bytes file -> zlen file < 2 ^ 63 -> accepted None file c -> c_ntypes c <= zlen file /\
  (forall i t n, znth (c_types c) i = Some t -> nested n t -> n <= i + 2) /\
  (forall t n, In t (stored_types c) -> nested n t -> n <= c_ntypes c + 1).
Proof.
  intros B L A. apply C66_exact in A; auto. destruct A as (used & rest & m & ss & fs & -> & S & G & ->). rewrite zlen_app. pose proof (zlen_nonneg rest).
  destruct S as (h & s1 & s2 & s3 & s4 & s5 & -> & _ & _ & _ & _ & _ & _ & M & _).
  assert (NT : zlen (rm_types m) <= zlen s4).
  { clear - M. induction M as [|b bs a ats Ha M IH]; [cbn; lia|]. rewrite zlen_cons, zlen_app. apply type_refs in Ha. pose proof (zlen_nonneg (refs_of a)). lia. }
  pose proof (types_depth ss (rm_types m) [] [] ltac:(intros [|?] ? ?; discriminate)) as V. pose proof (types_count ss (rm_types m) [] []) as LT. unfold mean_module. destruct (mean_types ss [] [] (rm_types m)) as [ts ins]. cbn [fst] in V, LT.
  change (zlen (@nil vtype)) with 0 in LT. pose proof (zlen_nonneg (rm_types m)).
  destruct (negb (rm_debug m) && (zlen (rm_types m) =? 0) && (zlen (rm_constants m) =? 0)).
  { split; [change (c_ntypes code_new) with 0; match goal with |- 0 <= zlen ?x + _ => pose proof (zlen_nonneg x) end; lia|]. split; [intros i t n E; change (c_types code_new) with (@nil vtype) in E; apply znth_In in E; destruct E|intros t n []]. }
  cbn [c_ntypes]. split; [rewrite !zlen_app; repeat match goal with |- context [zlen ?x] => lazymatch goal with H : 0 <= zlen x |- _ => fail | _ => pose proof (zlen_nonneg x) end end; lia|].
  assert (I1 : forall t, In t ts -> depth t <= zlen (rm_types m) + 1).
  { intros t I. apply In_nth_error in I as [i E]. assert (i < length ts)%nat by (apply nth_error_Some; congruence). apply V in E. unfold zlen in LT |- *. lia. }
  assert (I2 : forall k, depth (ty ts k) <= zlen (rm_types m) + 1) by (intros; apply depth_ty; [lia|exact I1]).
  assert (I3 : forall t k, In t (zrepeat vt_default k) -> depth t = 1) by (intros t k I; apply repeat_spec in I; now subst).
  split.
  - intros i t n E N. apply nested_depth in N. cbn [c_types] in E. pose proof (znth_some_range _ _ _ E) as R. rewrite znth_nth_error in E by lia.
    destruct (Nat.ltb_spec (Z.to_nat i) (length ts)) as [Lt|Lt]; [rewrite nth_error_app1 in E by lia; apply V in E; lia|]. rewrite nth_error_app2 in E by lia. apply nth_error_In in E. apply I3 in E. lia.
  - intros t n I N. apply nested_depth in N. enough (depth t <= zlen (rm_types m) + 1) by lia. unfold stored_types in I. cbn [c_types c_globals c_natives c_functions] in I. rewrite !in_app_iff in I.
    destruct I as [[I|I]|[[I|I]|[I|I]]].
    + auto.
    + apply I3 in I. lia.
    + apply in_map_iff in I as (k & <- & _). apply I2.
    + apply I3 in I. lia.
    + apply in_map_iff in I as (nv & <- & I). apply in_map_iff in I as ([[[lib name] k] fi] & <- & _). cbn [n_t]. apply I2.
    + apply in_flat_map in I as (f & If & I). apply in_map_iff in If as (rf & <- & _). destruct I as [<-|I].
      * unfold mean_fun. cbn [hf_t]. apply I2.
      * unfold mean_fun in I. cbn [hf_regs] in I. apply in_map_iff in I as (k & <- & _). apply I2.
Qed.

(** ** Reached *)
(** A module of reference types: the first refers to itself (and so to the placeholder, C35), each other one to the one before. *)
Definition refs_chain (n : nat) : amod :=
  {| am_version := 2; am_debug := false; am_ints := []; am_floats := []; am_strings := []; am_bytes := []; am_bytes_pos := []; am_debugfiles := [];
     am_types := map (fun k => AParam HREF (Z.of_nat (Nat.pred k))) (seq 0 n);
     am_globals := []; am_natives := []; am_functions := []; am_constants := []; am_entrypoint := 0 |}.
Fixpoint ref_to (k : nat) : vtype := match k with O => vt_default | S k => VT UNull None (Some (ref_to k)) HREF end.
Lemma ref_to_depth k : depth (ref_to k) = Z.of_nat k + 1.
Proof. induction k as [|k IH]; [reflexivity|]. cbn [ref_to]. rewrite depth_unfold. cbn [parts_depth]. lia. Qed.
Lemma ref_to_values k : values (ref_to k) = Z.of_nat k + 1.
Proof. induction k as [|k IH]; [reflexivity|]. cbn [ref_to values]. lia. Qed.
Lemma chain_types n : zlen (am_types (refs_chain n)) = Z.of_nat n.
Proof. cbn [am_types refs_chain]. unfold zlen. now rewrite map_length, seq_length. Qed.
Lemma chain_names n : flat_map names_of (am_types (refs_chain n)) = [].
Proof. cbn [am_types refs_chain]. induction (seq 0 n) as [|k l IH]; [reflexivity|exact IH]. Qed.
Lemma chain_wf n : (0 < n)%nat -> Z.of_nat n < 8192 -> wf_module (refs_chain n).
Proof.
  intros P L. split; [|right; left; cbn [am_types refs_chain]; destruct n; [lia|discriminate]]. unfold encodable. rewrite chain_types, chain_names.
  cbn [am_version am_debug am_ints am_floats am_strings am_bytes am_bytes_pos am_debugfiles am_globals am_natives am_functions am_constants am_entrypoint refs_chain].
  unfold wf_strings, usmall. change (zlen (@nil Z)) with 0. change (zlen (@nil str)) with 0. change (zlen (@nil afun)) with 0. change (zlen (@nil (Z * Z * Z * Z))) with 0. change (zlen (@nil (Z * list Z))) with 0.
  repeat match goal with |- _ /\ _ => split end; try lia; try solve [constructor]; auto.
  cbn [am_types refs_chain]. apply Forall_forall. intros a Ha. apply in_map_iff in Ha as (k & <- & Hk). apply in_seq in Hk. repeat split; cbn [names_of refs_of]; auto; [repeat constructor; lia|left; reflexivity].
Qed.
Lemma chain_len n : Z.of_nat n < 8192 -> zlen (enc_module (refs_chain n)) <= 3 * Z.of_nat n + 18.
Proof.
  intros L. unfold enc_module, enc_header. rewrite chain_types. cbn [am_version am_debug am_ints am_floats am_strings am_bytes am_bytes_pos am_debugfiles am_globals am_natives am_functions am_constants am_entrypoint refs_chain flat_map app].
  change (5 <=? 2) with false. change (4 <=? 2) with false. cbv iota. rewrite !app_nil_r. rewrite !zlen_cons, !zlen_app. change (zlen (@nil Z)) with 0. change (zlen (@nil str)) with 0. change (zlen (@nil afun)) with 0. change (zlen (@nil (Z * Z * Z * Z))) with 0. change (zlen (@nil (Z * list Z))) with 0.
  change (zlen (enc_index 0)) with 1. change (zlen (enc_strings [])) with 4. pose proof (index_len (Z.of_nat n) ltac:(unfold small; lia)).
  cbn [am_types refs_chain].
  assert (zlen (flat_map enc_atype (map (fun k => AParam HREF (Z.of_nat (Nat.pred k))) (seq 0 n))) <= 3 * Z.of_nat n).
  { replace (Z.of_nat n) with (zlen (map (fun k => AParam HREF (Z.of_nat (Nat.pred k))) (seq 0 n))) by (unfold zlen; rewrite map_length, seq_length; reflexivity).
    apply flat_len_le. intros a Ha. apply in_map_iff in Ha as (k & <- & Hk). apply in_seq in Hk. cbn [enc_atype]. rewrite zlen_cons.
    pose proof (index_len (Z.of_nat (Nat.pred k)) ltac:(unfold small; lia)). lia. }
  lia.
Qed.
Lemma chain_view n : view_types [] (am_types (refs_chain n)) = map (fun k => ref_to (S k)) (seq 0 n).
Proof.
  cbn [am_types refs_chain]. induction n as [|n IH]; [reflexivity|]. rewrite seq_S, !map_app. unfold view_types in *. rewrite fold_left_app, IH. cbn [fold_left map Nat.add]. f_equal. f_equal.
  cbn [view_type ref_to]. f_equal. f_equal. unfold ty. rewrite Nat2Z.id. destruct n as [|n]; [reflexivity|]. cbn [Nat.pred].
  rewrite (nth_indep _ vt_default (ref_to 1)) by (rewrite map_length, seq_length; lia). change (ref_to 1) with ((fun k => ref_to (S k)) 0%nat). rewrite map_nth. now rewrite seq_nth by lia.
Qed.
(** The bound is reached, so nothing but the size of the file limits the depth: at most [3 n + 18] bytes make a valid file whose last type is nested
    [n + 1] deep, owning no more than [n + 1] types, for all [n] up to 8191. *)
Theorem C89_reached n : (0 < n)%nat -> Z.of_nat n < 8192 -> wf_module (refs_chain n) /\ zlen (enc_module (refs_chain n)) <= 3 * Z.of_nat n + 18 /\
  exists c t, accepted None (enc_module (refs_chain n)) c /\ c_ntypes c = Z.of_nat n /\ znth (c_types c) (Z.of_nat n - 1) = Some t /\
    deepest (Z.of_nat n + 1) t /\ values t = Z.of_nat n + 1 /\ snd (vt_clone t) = Z.of_nat n + 1 /\ vt_drop t = Z.of_nat n + 1 /\ vt_eqd t t = (true, Z.of_nat n + 1).
Proof.
  intros P L. split; [now apply chain_wf|]. split; [now apply chain_len|]. destruct (C37_roundtrip (refs_chain n) [] (chain_wf n P L)) as [u E]. rewrite app_nil_r in E.
  exists (view_module (refs_chain n) u), (ref_to n). split; [unfold accepted; now rewrite E|]. split; [exact (chain_types n)|]. split.
  { cbn [view_module c_types]. change (am_strings (refs_chain n)) with (@nil str). rewrite chain_view. rewrite znth_nth_error by lia. rewrite nth_error_app1 by (rewrite map_length, seq_length; lia).
    replace (Z.to_nat (Z.of_nat n - 1)) with (Nat.pred n) by lia. rewrite nth_error_map, (nth_error_nth' _ 0%nat) by (rewrite seq_length; lia). rewrite seq_nth by lia. cbn [option_map]. do 2 f_equal. lia. }
  pose proof (ref_to_depth n) as Dn. split; [rewrite <- Dn; apply deepest_depth|]. split; [apply ref_to_values|]. split; [exact Dn|]. split; [now rewrite drop_depth|].
  destruct (g_vt (ref_to n) (ref_to n)) as (G1 & _ & _ & _ & G2). assert (R : HashModel.vt_eqb (ref_to n) (ref_to n) = true) by now apply vt_eqb_eq.
  destruct (G2 R) as [G _]. rewrite (surjective_pairing (vt_eqd _ _)). rewrite G1, R, G, Dn. reflexivity.
Qed.
(** So 15018 bytes are enough for 5001 nested calls; and some concrete types. *)
Example C89_ex : zlen (enc_module (refs_chain 5000)) <= 15018 /\ (exists c t, accepted None (enc_module (refs_chain 5000)) c /\ In t (c_types c) /\ nested 5001 t) /\
  (let t := VT (FuncType [ref_to 2; vt_default] 2 (ref_to 0)) None None HFUN in
   vt_clone t = (t, 4) /\ vt_drop t = 4 /\ vt_eqd t t = (true, 4) /\ vt_eqd t (VT (FuncType [ref_to 1; vt_default] 2 (ref_to 0)) None None HFUN) = (false, 3)).
Proof.
  split; [apply (chain_len 5000); lia|]. split; [|vm_compute; repeat split].
  destruct (C89_reached 5000 ltac:(lia) ltac:(lia)) as (_ & _ & c & t & A & _ & Z & [N _] & _). exists c, t. split; [exact A|]. split; [eapply znth_In; exact Z|exact N].
Qed.
