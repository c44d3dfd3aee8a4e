(** Theorems C37-C45 and C54-C56: whole module files.
    Model: CodeModel.v ([read_module]).  Vocabulary: FormatSpec.v, ReaderSpec.v, AcceptSpec.v. *)
From Verif Require Import Prelude StdModel BrassTypes DecoderModel CodeModel FormatSpec ReaderSpec AcceptSpec.
From Verif Require Import CodeGenericProofs FormatProofs StringsProofs TypesProofs OpsProofs ModuleProofs ReaderPost
  ReaderTables AcceptProofs PropsReader.
From Coq Require Import Lia ZifyBool.

(** [buf], read in a process whose error cell holds [e0], is accepted as [c]. *)
Definition accepted (e0 : option derr) (buf : list Z) (c : code) : Prop := fst (read_module e0 buf) = Ok c.

Lemma accepted_run e0 buf c : accepted e0 buf c <-> exists s', code_read (start e0 buf) = (Ok c, s').
Proof.
  unfold accepted, read_module. destruct (code_read (start e0 buf)) as [r s'] eqn:E. cbn. split.
  - intros ->. eauto.
  - intros [s1 H]. congruence.
Qed.

(** * A module used in the examples: version 5, debug information, every table non-empty *)
Definition ex_mod : amod := {|
  am_version := 5; am_debug := true; am_ints := [42; -7]; am_floats := [4614253070214989087];
  am_strings := [[109; 97; 105; 110]; [195; 169]; []];
  am_bytes := [1; 2; 3]; am_bytes_pos := [0; 2]; am_debugfiles := [[97; 46; 104; 120]];
  am_types := [APrim HVOID; APrim HI32; AFun false [1; 1] 0; AObj false 0 None 1 [(1, 1)] [(2, 0, -1)] [(0, 1)];
               AParam HREF 1];
  am_globals := [1; 3]; am_natives := [(0, 1, 2, 1)];
  am_functions := [{| af_type := 2; af_findex := 0; af_regs := [1; 1; 0];
                      af_ops := [IFixed 1 [0; 1]; ICall 29 2 1 [0; 1]; IFixed 67 [2]];
                      af_debug := [DFile 0; DDelta 3; DLine 200; DDelta 1]; af_assigns := [(0, -1)] |}];
  am_constants := [(0, [1; 1])]; am_entrypoint := 0 |}.
Lemma ex_utf8_main : utf8 [109; 97; 105; 110].
Proof. exists [109; 97; 105; 110]. split; [repeat constructor; unfold scalar; lia|reflexivity]. Qed.
Lemma ex_utf8_e : utf8 [195; 169].
Proof. exists [233]. split; [repeat constructor; unfold scalar; lia|reflexivity]. Qed.
Lemma ex_utf8_file : utf8 [97; 46; 104; 120].
Proof. exists [97; 46; 104; 120]. split; [repeat constructor; unfold scalar; lia|reflexivity]. Qed.
Lemma ex_utf8_nil : utf8 [].
Proof. exists []. split; [constructor|reflexivity]. Qed.
Ltac conc :=
  repeat match goal with
  | |- _ /\ _ => split
  | |- Forall _ [] => constructor
  | |- Forall _ (_ :: _) => constructor
  end.
Lemma ex_wf : wf_module ex_mod.
Proof.
  split; [|left; reflexivity].
  unfold encodable, ex_mod; cbn [am_version am_debug am_ints am_floats am_strings am_bytes am_bytes_pos am_debugfiles
    am_types am_globals am_natives am_functions am_constants am_entrypoint].
  conc; unfold wf_strings; conc; unfold wf_atype; conc; cbn [refs_of names_of];
    try (unfold usmall, small, i32_range, is_byte, zlen; cbn; lia);
    auto using ex_utf8_main, ex_utf8_e, ex_utf8_file, ex_utf8_nil.
  all: try (cbn; tauto).
  all: cbn [app map fst snd]; conc; try (unfold usmall, small, zlen; cbn; lia).
  - cbn. repeat split; auto; right; repeat constructor; lia.
  - unfold wf_fun; cbn [af_type af_findex af_regs af_ops af_debug af_assigns].
    conc; try (unfold usmall, small, zlen; cbn; lia); cbn [wf_aop]; conc; try (unfold small, zlen; cbn; lia);
      try reflexivity; try (cbn; tauto).
    intros _. conc; cbn [wf_drec no_repeat fst snd]; try (unfold usmall, small, zlen; cbn; lia); try reflexivity.
    right. exists [DFile 0; DDelta 3; DLine 200], (DDelta 1). split; reflexivity.
Qed.

(** * C37 *)
(** Reading the encoding of a module returns exactly its tables (as laid out by [view_module]: the only
    freedom is the internal name cache [u]), whatever follows in the file, and leaves no error behind. *)
Theorem C37_roundtrip m rest : wf_module m ->
  exists u, read_module None (enc_module m ++ rest) = (Ok (view_module m u), None).
Proof.
  intros W. exists (final_cache m). pose proof (eats_module m W 0 rest) as E.
  unfold read_module. change (start None (enc_module m ++ rest)) with (mk (enc_module m ++ rest) 0 code_new).
  rewrite E. reflexivity.
Qed.
(** What that says about the tables one by one. *)
Theorem C37_tables m rest : wf_module m -> exists c, accepted None (enc_module m ++ rest) c /\
  c_version c = am_version m /\ c_ints c = am_ints m /\ c_floats c = am_floats m /\ c_strings c = am_strings m /\
  c_strings_lens c = map zlen (am_strings m) /\ c_entrypoint c = am_entrypoint m /\
  (5 <= am_version m -> c_bytes c = am_bytes m /\ c_bytes_pos c = am_bytes_pos m) /\
  (am_debug m = true -> c_debugfiles c = am_debugfiles m) /\
  firstn (length (am_types m)) (c_types c) = view_types (am_strings m) (am_types m) /\
  firstn (length (am_globals m)) (c_globals c) = map (ty (view_types (am_strings m) (am_types m))) (am_globals m) /\
  length (c_natives c) = length (am_natives m) /\ map hf_findex (c_functions c) = map af_findex (am_functions m) /\
  map hf_ops (c_functions c) = map (fun f => map read_op (af_ops f)) (am_functions m) /\
  (am_debug m = true -> map hf_debug (c_functions c) = map (fun f => pairs (lines (af_debug f) (-1) 0)) (am_functions m)) /\
  map (fun k => (k_global k, k_fields k)) (c_constants c) = am_constants m.
Proof.
  intros W. destruct (C37_roundtrip m rest W) as [u E]. exists (view_module m u).
  split; [unfold accepted; now rewrite E|].
  unfold view_module. cbn [c_version c_ints c_floats c_strings c_strings_lens c_entrypoint c_bytes c_bytes_pos c_debugfiles
    c_types c_globals c_natives c_functions c_constants].
  repeat split; auto.
  - replace (5 <=? am_version m) with true by lia. reflexivity.
  - replace (5 <=? am_version m) with true by lia. reflexivity.
  - intros ->. reflexivity.
  - pose proof (view_types_len (am_strings m) (am_types m)) as L. unfold zlen in L.
    rewrite firstn_app. replace (length (am_types m)) with (length (view_types (am_strings m) (am_types m))) by lia.
    rewrite firstn_all, Nat.sub_diag, firstn_O. apply app_nil_r.
  - rewrite firstn_app. set (l := map _ _). assert (L : length l = length (am_globals m)) by apply map_length.
    rewrite <- L, firstn_all, Nat.sub_diag, firstn_O. apply app_nil_r.
  - apply map_length.
  - rewrite map_map. reflexivity.
  - rewrite map_map. reflexivity.
  - intros ->. rewrite map_map. reflexivity.
  - rewrite map_map. cbn. rewrite <- (map_id (am_constants m)) at 2. apply map_ext. now intros [].
Qed.
Example C37_ex : wf_module ex_mod /\
  exists c, accepted None (enc_module ex_mod) c /\ c_ints c = [42; -7] /\ c_natives c <> [] /\ c_functions c <> [].
Proof.
  split; [apply ex_wf|]. eexists. split; [vm_compute; reflexivity|]. repeat split; discriminate.
Qed.

(** * C35 and C36 in whole modules *)
(** In a module read back, entry [i] is the type its entry describes, its references to earlier
    entries denoting the types at those positions of the same table. *)
Theorem C35_module_partial m rest i a : wf_module m -> znth (am_types m) i = Some a ->
  Forall (fun k => 0 <= k < i) (refs_of a) ->
  exists c, accepted None (enc_module m ++ rest) c /\
    znth (c_types c) i = Some (view_type (c_strings c) (c_types c) a).
Proof.
  intros W Z F. destruct (C37_roundtrip m rest W) as [u E]. exists (view_module m u).
  split; [unfold accepted; now rewrite E|]. cbn [view_module c_types c_strings]. set (ts := view_types _ _).
  pose proof (znth_some_range _ _ _ Z) as R. pose proof (view_types_len (am_strings m) (am_types m)) as L. fold ts in L.
  rewrite znth_app_l by lia. unfold ts at 1. rewrite (C35_backward_partial _ _ _ _ Z F). f_equal. fold ts.
  apply view_type_ext. eapply Forall_impl; [|exact F]. intros k Hk. cbv beta in Hk. symmetry. apply ty_app. lia.
Qed.
(** Violated: a reference to the entry itself or a later one denotes a null type instead. *)
Theorem C35_module_refuted m rest i k : wf_module m -> znth (am_types m) i = Some (AParam HREF k) -> i <= k ->
  exists c t, accepted None (enc_module m ++ rest) c /\
    znth (c_types c) i = Some (VT UNull None (Some vt_default) HREF) /\
    znth (c_types c) k = Some t /\ t <> vt_default.
Proof.
  intros W Z Hk. destruct (C37_roundtrip m rest W) as [u E]. exists (view_module m u).
  pose proof (znth_some_range _ _ _ Z) as R. pose proof (view_types_len (am_strings m) (am_types m)) as L.
  assert (S : exists p q, am_types m = p ++ AParam HREF k :: q /\ zlen p = i).
  { rewrite znth_nth_error in Z by lia. apply nth_error_split in Z as (p & q & -> & Q). exists p, q. split; [auto|unfold zlen; lia]. }
  assert (Wt : Forall (wf_atype (zlen (am_strings m)) (zlen (am_types m))) (am_types m)) by (destruct W as [W _]; unfold encodable in W; tauto).
  assert (K : 0 <= k < zlen (am_types m)).
  { rewrite Forall_forall in Wt. assert (In (AParam HREF k) (am_types m)).
    { rewrite znth_nth_error in Z by lia. eapply nth_error_In; eauto. }
    destruct (Wt _ H) as (_ & F & _). cbn in F. apply Forall_cons_iff in F. apply F. }
  assert (X : exists a, znth (am_types m) k = Some a).
  { rewrite znth_nth_error by lia. destruct (nth_error (am_types m) (Z.to_nat k)) eqn:N; [eauto|].
    apply nth_error_None in N. unfold zlen in K. lia. }
  destruct X as [a Ha].
  assert (D : forall ss ts, view_type ss ts a <> vt_default).
  { intros ss ts. rewrite Forall_forall in Wt. assert (In a (am_types m)).
    { rewrite znth_nth_error in Ha by lia. eapply nth_error_In; eauto. }
    destruct (Wt _ H) as (_ & _ & P). destruct a as [kk|[]| [] | | | |]; cbn [view_type]; unfold vt_default; try discriminate.
    intros Q. inversion Q; subst. cbn in P. repeat (destruct P as [P|P]; [discriminate P|]). contradiction. }
  assert (Y : exists ts, znth (view_types (am_strings m) (am_types m)) k = Some (view_type (am_strings m) ts a)).
  { rewrite znth_nth_error in Ha by lia. apply nth_error_split in Ha as (p & q & Ha & Q).
    destruct (view_types_app (am_strings m) (p ++ [a]) q) as [tl E2]. rewrite <- app_assoc in E2. cbn [app] in E2.
    rewrite <- Ha, view_types_snoc, <- app_assoc in E2. pose proof (view_types_len (am_strings m) p) as Lp.
    eexists. rewrite E2. cbn [app]. apply znth_mid. unfold zlen in *. lia. }
  destruct Y as [ts Y]. exists (view_type (am_strings m) ts a).
  split; [unfold accepted; now rewrite E|]. cbn [view_module c_types]. rewrite !znth_app_l by lia.
  split; [|split; [exact Y|apply D]]. destruct S as (p & q & -> & Q). rewrite <- Q. apply C35_forward_refuted. lia.
Qed.

Definition ex_fwd : amod := {|
  am_version := 4; am_debug := false; am_ints := []; am_floats := []; am_strings := [];
  am_bytes := []; am_bytes_pos := []; am_debugfiles := []; am_types := [AParam HREF 1; APrim HI32; AParam HREF 1];
  am_globals := []; am_natives := []; am_functions := []; am_constants := []; am_entrypoint := 0 |}.
Example C35_module_ex : wf_module ex_fwd /\ exists c, accepted None (enc_module ex_fwd) c /\
  firstn 3 (c_types c) = [VT UNull None (Some vt_default) HREF; VT UNull None None HI32;
                          VT UNull None (Some (VT UNull None None HI32)) HREF].
Proof.
  split; [|eexists; split; vm_compute; reflexivity].
  split; [|right; left; discriminate].
  unfold encodable, ex_fwd; cbn [am_version am_debug am_ints am_floats am_strings am_bytes am_bytes_pos am_debugfiles
    am_types am_globals am_natives am_functions am_constants am_entrypoint].
  conc; unfold wf_strings; conc; unfold wf_atype; conc; cbn [refs_of names_of]; conc; try (unfold usmall, small, i32_range, is_byte, zlen; cbn; lia); try (cbn; tauto).
Qed.

(** * C38 *)
Theorem C38_suffix e0 buf ext c cell : bytes buf -> bytes ext ->
  read_module e0 buf = (Ok c, cell) -> read_module e0 (buf ++ ext) = (Ok c, cell).
Proof.
  intros B Be E. unfold read_module in *. destruct (code_read (start e0 buf)) as [r s'] eqn:R. inversion E; subst.
  pose proof (code_read_clean _ _ _ R) as N.
  destruct (g_local _ _ (good_code_read true) (start e0 buf) c s' B R N) as (used & U & L).
  assert (Bs : bytes (d_buf s')) by (unfold start in U; cbn in U; rewrite U in B; apply Forall_app in B; apply B).
  specialize (L (d_buf s' ++ ext) ltac:(apply Forall_app; auto)). rewrite app_assoc in L. cbn in U. rewrite <- U in L.
  unfold with_buf in L. cbn in L. unfold start. rewrite L. reflexivity.
Qed.
(** * C39 *)
(** An accepted file has a length [n] such that exactly its prefixes of at least [n] bytes are
    accepted, all with the same result. *)
Theorem C39_truncation buf c : bytes buf -> accepted None buf c ->
  exists n, 0 <= n <= zlen buf /\
    forall k, 0 <= k <= zlen buf ->
      let prefix := firstn (Z.to_nat k) buf in
      (n <= k -> accepted None prefix c) /\ (k < n -> forall c', ~ accepted None prefix c').
Proof.
  intros B A. apply accepted_run in A as [s' R]. pose proof (code_read_clean _ _ _ R) as N.
  destruct (g_local _ _ (good_code_read true) (start None buf) c s' B R N) as (used & U & L). cbn in U.
  assert (Bu : bytes used /\ bytes (d_buf s')) by (rewrite U in B; now apply Forall_app in B).
  exists (zlen used). pose proof (zlen_nonneg used). pose proof (zlen_nonneg (d_buf s')).
  split; [rewrite U, zlen_app; lia|]. intros k Hk. cbv zeta. split.
  - intros Hn. apply accepted_run. exists (with_buf s' (skipn (length used) (firstn (Z.to_nat k) buf))).
    assert (P : firstn (Z.to_nat k) buf = used ++ skipn (length used) (firstn (Z.to_nat k) buf)).
    { rewrite <- (firstn_skipn (length used) (firstn (Z.to_nat k) buf)) at 1. f_equal.
      rewrite firstn_firstn. replace (Nat.min (length used) (Z.to_nat k)) with (length used) by (unfold zlen in *; lia).
      rewrite U, firstn_app, firstn_all, Nat.sub_diag, firstn_O. apply app_nil_r. }
    rewrite P at 1. apply L. apply bytes_skipn, bytes_firstn, B.
  - intros Hn c' A'. apply accepted_run in A' as [s2 R2].
    assert (Bp : bytes (firstn (Z.to_nat k) buf)) by now apply bytes_firstn.
    pose proof (code_read_clean _ _ _ R2) as N2.
    destruct (g_local _ _ (good_code_read true) (start None (firstn (Z.to_nat k) buf)) c' s2 Bp R2 N2) as (used2 & U2 & L2).
    cbn in U2.
    assert (B2 : bytes (d_buf s2)) by (rewrite U2 in Bp; now apply Forall_app in Bp).
    specialize (L2 (d_buf s2 ++ skipn (Z.to_nat k) buf) ltac:(apply Forall_app; split; [auto|now apply bytes_skipn])).
    rewrite app_assoc, <- U2, firstn_skipn in L2.
    change (with_buf (start None (firstn (Z.to_nat k) buf)) buf) with (start None buf) in L2. rewrite R in L2.
    assert (Es : d_buf s' = d_buf s2 ++ skipn (Z.to_nat k) buf).
    { transitivity (d_buf (with_buf s2 (d_buf s2 ++ skipn (Z.to_nat k) buf))); [congruence|reflexivity]. }
    assert (Q : zlen used = zlen used2).
    { pose proof (f_equal zlen U) as Q1. pose proof (f_equal zlen U2) as Q2. pose proof (f_equal zlen Es) as Q3.
      pose proof (f_equal zlen (firstn_skipn (Z.to_nat k) buf)) as Q4. rewrite !zlen_app in *. lia. }
    assert (zlen used2 <= k).
    { assert (X : zlen (firstn (Z.to_nat k) buf) <= k) by (unfold zlen; rewrite firstn_length; lia).
      rewrite U2, zlen_app in X. pose proof (zlen_nonneg (d_buf s2)). lia. }
    lia.
Qed.
(** Encodings consist of bytes. *)
Lemma bytes_index v : Z.abs v < 2 ^ 29 -> bytes (enc_index v).
Proof.
  intros H. change (2 ^ 29) with 536870912 in H. unfold enc_index. cbv zeta.
  change (2 ^ 24) with 16777216. change (2 ^ 16) with 65536. unfold bytes, is_byte.
  set (a := Z.abs v) in *. assert (A : 0 <= a) by (unfold a; lia).
  assert (S : 0 <= (if v <? 0 then 32 else 0) <= 32) by (destruct (v <? 0); lia).
  set (sg := if v <? 0 then 32 else 0) in *. clearbody sg.
  assert (D1 : 0 <= a / 16777216 < 32) by (split; [apply Z.div_pos|apply Z.div_lt_upper_bound]; lia).
  pose proof (Z.mod_pos_bound a 256 ltac:(lia)). pose proof (Z.mod_pos_bound (a / 256) 256 ltac:(lia)).
  pose proof (Z.mod_pos_bound (a / 65536) 256 ltac:(lia)).
  destruct (_ && _) eqn:E1; [repeat constructor; lia|].
  destruct (Z.ltb_spec a 8192).
  - assert (0 <= a / 256 < 32) by (split; [apply Z.div_pos|apply Z.div_lt_upper_bound]; lia).
    repeat apply Forall_cons; try apply Forall_nil; lia.
  - repeat apply Forall_cons; try apply Forall_nil; lia.
Qed.
Lemma bytes_small v : small v -> bytes (enc_index v).
Proof. unfold small. intros. apply bytes_index. lia. Qed.
Lemma bytes_usmall v : usmall v -> bytes (enc_index v).
Proof. unfold usmall. intros. apply bytes_index. lia. Qed.
Lemma bytes_in n v : 0 <= v < n -> usmall n -> bytes (enc_index v).
Proof. unfold usmall. intros. apply bytes_index. lia. Qed.
Lemma bytes_app a b : bytes a -> bytes b -> bytes (a ++ b).
Proof. intros. now apply Forall_app. Qed.
Lemma bytes_cons a b : 0 <= a < 256 -> bytes b -> bytes (a :: b).
Proof. intros. now constructor. Qed.
Lemma bytes_flat {A} (f : A -> list Z) (P : A -> Prop) l : Forall P l -> (forall x, P x -> bytes (f x)) -> bytes (flat_map f l).
Proof. intros F H. apply Forall_flat_map. eapply Forall_impl; eauto. Qed.
Lemma bytes_le n v : bytes (enc_le n v).
Proof. apply le_bytes_bytes. Qed.
Lemma bytes_strings ss : wf_strings ss -> bytes (enc_strings ss).
Proof.
  intros [L F]. unfold enc_strings. cbv zeta. apply bytes_app; [apply bytes_le|]. apply bytes_app.
  - eapply bytes_flat; [exact F|]. intros s [U _]. apply bytes_app; [now apply Utf8Proofs.utf8_bytes|apply bytes_cons; [lia|constructor]].
  - eapply bytes_flat; [exact F|]. intros s [_ U]. apply bytes_usmall. pose proof (zlen_nonneg s). unfold usmall. lia.
Qed.
Lemma Forall_map_iff {A B} (f : A -> B) P l : Forall P (map f l) <-> Forall (fun x => P (f x)) l.
Proof. rewrite Forall_map. reflexivity. Qed.
Lemma bytes_fields ns nt (fs : list (Z * Z)) : usmall ns -> usmall nt ->
  Forall (fun n => 0 <= n < ns) (map fst fs) -> Forall (fun n => 0 <= n < nt) (map snd fs) ->
  bytes (flat_map (fun f => enc_index (fst f) ++ enc_index (snd f)) fs).
Proof.
  intros Ns Nt F1 F2. rewrite Forall_map_iff in F1, F2. apply Forall_flat_map. rewrite Forall_forall in *.
  intros f Hf. apply bytes_app; eapply bytes_in; eauto.
Qed.
Ltac byt := split; [apply Z.leb_le|apply Z.ltb_lt]; reflexivity.
Lemma bytes_atype ns nt t : usmall ns -> usmall nt -> wf_atype ns nt t -> bytes (enc_atype t).
Proof.
  intros Ns Nt (F1 & F2 & W). destruct t as [k|m args r|st n sup g fs ps bs|fs|n|n g cs|k t]; cbn [enc_atype names_of refs_of] in *.
  - apply bytes_cons; [|constructor]. cbn in W. repeat (destruct W as [<-|W]; [byt|]). contradiction.
  - apply Forall_app in F2. destruct F2 as [F2 F3]. apply Forall_cons_iff in F3. destruct F3 as [F3 _].
    apply bytes_cons; [destruct m; byt|]. apply bytes_cons; [pose proof (zlen_nonneg args); lia|].
    apply bytes_app; [|eapply bytes_in; eauto]. eapply bytes_flat; [exact F2|]. intros x Hx. cbv beta in Hx. eapply bytes_in; eauto.
  - destruct W as (W1 & W2 & W3 & W4 & W5 & W6). apply Forall_app in F2. destruct F2 as [F2 F3].
    apply Forall_cons_iff in F1. destruct F1 as [Fn F1]. apply Forall_app in F1. destruct F1 as [Ff Fp].
    apply bytes_cons; [destruct st; byt|]. apply bytes_app; [eapply bytes_in; eauto|].
    apply bytes_app. { destruct sup; [|apply bytes_small; unfold small; lia]. apply Forall_cons_iff in F2. eapply bytes_in; [apply F2|auto]. }
    repeat (apply bytes_app; [apply bytes_usmall; assumption|]).
    apply bytes_app; [eapply bytes_fields; [exact Ns|exact Nt|auto|auto]|]. apply bytes_app.
    + apply Forall_map_iff in Fp. apply Forall_flat_map. rewrite Forall_forall in *. intros p Hp.
      destruct (W5 p Hp). apply bytes_app; [eapply bytes_in; eauto|]. apply bytes_app; [now apply bytes_usmall|now apply bytes_small].
    + eapply bytes_flat; [exact W6|]. intros b [H1 H2]. apply bytes_app; now apply bytes_usmall.
  - apply bytes_cons; [byt|]. apply bytes_app; [now apply bytes_usmall|]. eapply bytes_fields; [exact Ns|exact Nt|auto|auto].
  - apply Forall_cons_iff in F1. apply bytes_cons; [byt|]. eapply bytes_in; [apply F1|auto].
  - destruct W as (W1 & W2 & W3). apply Forall_cons_iff in F1. destruct F1 as [Fn F1]. rewrite Forall_map_iff in F1.
    apply bytes_cons; [byt|]. apply bytes_app; [eapply bytes_in; eauto|]. do 2 (apply bytes_app; [now apply bytes_usmall|]).
    apply Forall_flat_map. rewrite Forall_flat_map in F2. rewrite Forall_forall in *. intros c Hc.
    apply bytes_app; [eapply bytes_in; eauto|]. apply bytes_app; [apply bytes_usmall; auto|].
    eapply bytes_flat; [exact (F2 c Hc)|]. intros x Hx. cbv beta in Hx. eapply bytes_in; eauto.
  - apply Forall_cons_iff in F2. apply bytes_cons; [cbn in W; repeat (destruct W as [<-|W]; [byt|]); contradiction|].
    eapply bytes_in; [apply F2|auto].
Qed.
Lemma bytes_aop i : wf_aop i -> bytes (enc_aop i).
Proof.
  destruct i as [op args|op p1 p2 xs|r offs e]; cbn [wf_aop enc_aop].
  - intros [A F]. destruct (arity_table _ _ A) as (R & _). apply bytes_cons; [lia|]. eapply bytes_flat; [exact F|]. apply bytes_small.
  - intros (V & H1 & H2 & L & F). pose proof (zlen_nonneg xs).
    apply bytes_cons; [cbn in V; repeat (destruct V as [<-|V]; [lia|]); contradiction|].
    do 2 (apply bytes_app; [now apply bytes_small|]). apply bytes_cons; [lia|]. eapply bytes_flat; [exact F|]. apply bytes_small.
  - intros (H1 & H2 & F & H3). apply bytes_cons; [lia|]. do 2 (apply bytes_app; [now apply bytes_usmall|]).
    apply bytes_app; [|now apply bytes_usmall]. eapply bytes_flat; [exact F|]. apply bytes_usmall.
Qed.
Lemma bytes_drec nf r : wf_drec nf r -> bytes (enc_drec r).
Proof.
  destruct r as [f|d n|d|l]; cbn [wf_drec enc_drec]; intros H.
  - assert (0 <= f / 128 < 256) by (split; [apply Z.div_pos|apply Z.div_lt_upper_bound]; lia).
    pose proof (Z.mod_pos_bound f 256 ltac:(lia)).
    apply bytes_cons; [apply lor_byte; lia|apply bytes_cons; [lia|constructor]].
  - apply bytes_cons; [lia|constructor].
  - apply bytes_cons; [lia|constructor].
  - pose proof (Z.mod_pos_bound (l * 8) 256 ltac:(lia)). pose proof (Z.mod_pos_bound (l / 32) 256 ltac:(lia)).
    assert (0 <= l / 8192 < 256) by (split; [apply Z.div_pos|apply Z.div_lt_upper_bound]; lia).
    repeat (apply bytes_cons; [lia|]). constructor.
Qed.
Lemma bytes_fun v debug nt nf f : usmall nt -> wf_fun debug nt nf f -> bytes (enc_fun v debug f).
Proof.
  intros Nt (H1 & H2 & H3 & H4 & H5 & H6 & H7). unfold enc_fun.
  apply bytes_app; [eapply bytes_in; eauto|]. repeat (apply bytes_app; [now apply bytes_usmall|]).
  apply bytes_app; [eapply bytes_flat; [exact H5|]; intros x Hx; cbv beta in Hx; eapply bytes_in; eauto|].
  apply bytes_app; [eapply bytes_flat; [exact H6|]; apply bytes_aop|].
  destruct debug; [|constructor]. destruct (H7 eq_refl) as (D1 & D2 & D3 & D4 & D5 & D6 & D7).
  apply bytes_app; [eapply bytes_flat; [exact D1|]; apply bytes_drec|].
  destruct (3 <=? v); [|constructor]. apply bytes_app; [now apply bytes_usmall|].
  eapply bytes_flat; [exact D7|]. intros a [A1 A2]. apply bytes_app; [now apply bytes_usmall|now apply bytes_small].
Qed.
Lemma bytes_module m : encodable m -> bytes (enc_module m).
Proof.
  intros (Wv & Wi & Wi2 & Wf & Wf2 & Ws & Wb & Wb2 & Wb3 & Wb4 & Wd & Wt & Wt2 & Wt3 & Wg & Wg2 & Wn & Wn2 & Wfn & Wfn2 & Wk & Wk2 & Wk4 & We).
  assert (Wsn : usmall (zlen (am_strings m))) by apply Ws. assert (Wdn : usmall (zlen (am_debugfiles m))) by apply Wd.
  pose proof (bytes_strings _ Ws) as Bs. unfold enc_module, enc_header. cbv zeta.
  generalize dependent (enc_strings (am_strings m)). intros strs Bs. repeat apply bytes_app; try (now apply bytes_usmall).
  - repeat (apply bytes_cons; [lia|]). constructor.
  - destruct (am_debug m); apply bytes_usmall; unfold usmall; lia.
  - destruct (5 <=? am_version m); [now apply bytes_usmall|constructor].
  - destruct (4 <=? am_version m); [now apply bytes_usmall|constructor].
  - eapply bytes_flat; [exact Wi2|]. intros; apply bytes_le.
  - eapply bytes_flat; [exact Wf2|]. intros; apply bytes_le.
  - exact Bs.
  - destruct (5 <=? am_version m); [|constructor]. apply bytes_app; [apply bytes_le|]. apply bytes_app; [exact Wb3|].
    eapply bytes_flat; [exact Wb4|]. apply bytes_usmall.
  - destruct (am_debug m); [|constructor]. apply bytes_app; [now apply bytes_usmall|now apply bytes_strings].
  - eapply bytes_flat; [exact Wt2|]. intros t. now apply bytes_atype.
  - eapply bytes_flat; [exact Wg2|]. intros t Ht. cbv beta in Ht. eapply bytes_in; eauto.
  - eapply bytes_flat; [exact Wn2|]. intros [[[lib name] t] fi] (N1 & N2 & N3 & N4).
    repeat apply bytes_app; try (eapply bytes_in; eauto; fail). now apply bytes_usmall.
  - eapply bytes_flat; [exact Wfn2|]. intros f. now apply bytes_fun.
  - eapply bytes_flat; [exact Wk2|]. intros k (K1 & K2 & K3). apply bytes_app; [now apply bytes_usmall|].
    apply bytes_app; [now apply bytes_usmall|]. eapply bytes_flat; [exact K3|]. apply bytes_usmall.
Qed.

(** The encoding of a module has no accepted proper prefix. *)
Theorem C39_encoding m k c : wf_module m -> 0 <= k < zlen (enc_module m) ->
  ~ accepted None (firstn (Z.to_nat k) (enc_module m)) c.
Proof.
  intros W Hk A. assert (B : bytes (enc_module m)) by (apply bytes_module, W).
  apply accepted_run in A as [s R]. pose proof (code_read_clean _ _ _ R) as N.
  set (p := firstn (Z.to_nat k) (enc_module m)) in *. assert (Bp : bytes p) by now apply bytes_firstn.
  destruct (g_local _ _ (good_code_read true) (start None p) c s Bp R N) as (used & U & L). cbn in U.
  assert (Bs : bytes (d_buf s)) by (rewrite U in Bp; now apply Forall_app in Bp).
  specialize (L (d_buf s ++ skipn (Z.to_nat k) (enc_module m)) ltac:(apply Forall_app; split; [auto|now apply bytes_skipn])).
  rewrite app_assoc, <- U in L. unfold p in L. rewrite firstn_skipn in L. fold p in L.
  pose proof (eats_module m W 0 []) as E. rewrite app_nil_r in E.
  change (with_buf (start None p) (enc_module m)) with (mk (enc_module m) 0 code_new) in L. rewrite E in L.
  inversion L as [[H1 H2]]. symmetry in H2. apply app_eq_nil in H2 as [_ H2]. apply (f_equal (@length Z)) in H2.
  rewrite skipn_length in H2. unfold zlen in Hk. cbn [length] in H2. lia.
Qed.
Example C38_C39_ex :
  fst (read_module None (enc_module ex_mod ++ [1; 2; 3])) = fst (read_module None (enc_module ex_mod)) /\
  (forall c, ~ accepted None (firstn 60 (enc_module ex_mod)) c).
Proof. split; [vm_compute; reflexivity|]. intros c. unfold accepted. vm_compute. discriminate. Qed.

(** * C40 *)
Theorem C40_sizes e0 buf c : bytes buf -> accepted e0 buf c ->
  zlen (c_ints c) = c_nints c /\ zlen (c_floats c) = c_nfloats c /\ zlen (c_bytes_pos c) = c_nbytes c /\
  zlen (c_natives c) = c_nnatives c /\ zlen (c_functions c) = c_nfunctions c /\
  zlen (c_constants c) = c_nconstants c /\
  c_ntypes c <= zlen (c_types c) /\ c_nglobals c <= zlen (c_globals c) /\
  zlen (c_strings c) <= c_nstrings c /\ zlen (c_strings_lens c) = zlen (c_strings c) /\
  zlen (c_debugfiles c) <= c_ndebugfiles c /\
  Forall (fun f => zlen (hf_regs f) = hf_nregs f /\ zlen (hf_ops f) = hf_nops f /\
                   (c_hasdebug c <> 0 -> zlen (hf_debug f) = 2 * hf_nops f)) (c_functions c) /\
  Forall (fun k => zlen (k_fields k) = k_nfields k) (c_constants c).
Proof.
  intros B A. apply accepted_run in A as [s' R]. destruct (accepted_ok e0 buf c s' B R) as (H & S & _).
  unfold sizes_ok in S. unfold contents_ok in H.
  destruct S as (_ & S1 & S2 & S3 & S4 & S5 & S6 & S7 & S8 & S9 & S10 & S11).
  pose proof (zlen_nonneg (c_types c)). pose proof (zlen_nonneg (c_globals c)).
  do 11 (split; [lia|]).
  destruct H as (_ & _ & _ & _ & _ & _ & _ & _ & _ & _ & Hf & Hk & _). split.
  - eapply Forall_impl; [|exact Hf]. intros f (_ & _ & F1 & _ & F2 & _ & F3 & _). repeat split; auto.
    intros Hd. destruct (Z.eqb_spec (c_hasdebug c) 0); [contradiction|]. cbn [negb] in F3.
    destruct F3 as (ps & -> & L & _). rewrite pairs_len. lia.
  - eapply Forall_impl; [|exact Hk]. intros k (_ & K & _). exact K.
Qed.
(** Type and global tables in fact hold twice the declared number of entries. *)
Theorem C40_doubled e0 buf c : bytes buf -> accepted e0 buf c ->
  zlen (c_types c) = 2 * c_ntypes c /\ zlen (c_globals c) = 2 * c_nglobals c.
Proof.
  intros B A. apply accepted_run in A as [s' R]. destruct (accepted_ok e0 buf c s' B R) as (_ & S & _).
  unfold sizes_ok in S. tauto.
Qed.
Example C40_ex : exists c, accepted None (enc_module ex_mod) c /\ c_nfunctions c = 1 /\ c_ntypes c = 5 /\ zlen (c_types c) = 10.
Proof. eexists. split; [vm_compute; reflexivity|]. repeat split. Qed.

(** * C41 *)
Lemma u8_step s b r : d_buf s = b :: r ->
  unwrap decode_u8 s = (Ok b, with_buf {| d_buf := r; d_pos := d_pos s + 1; d_code := d_code s; errs := errs s; d_log := d_log s |} r).
Proof.
  intros E. unfold unwrap, decode_u8, decode_unsigned, bind, read_bytes. rewrite E.
  replace (zlen (b :: r) <? 1) with false by (unfold zlen; cbn [length]; lia). cbn. change (Pos.to_nat 1) with 1%nat. cbn [firstn skipn from_le]. rewrite Z.mul_0_r, Z.add_0_r. reflexivity.
Qed.
Lemma magic_steps s h l b v r : d_buf s = h :: l :: b :: v :: r ->
  exists s', errs s' = errs s /\
  d_pos s' = (if negb (h =? 72) then d_pos s + 1 else if negb (l =? 76) then d_pos s + 1 + 1
              else if negb (b =? 66) then d_pos s + 1 + 1 + 1 else d_pos s + 1 + 1 + 1 + 1) /\
  ((h =? 72) && (l =? 76) && (b =? 66) = true -> d_buf s' = r) /\
  read_magic code_new s =
    (if negb ((h =? 72) && (l =? 76) && (b =? 66)) then Err (with_info InvalidBytecodeHeader (d_pos s'))
     else if (v <=? 1) || (5 <? v) then Err (with_info UnsupportedBytecodeVersion (d_pos s'))
     else Ok (set_version v code_new), s').
Proof.
  intros E. unfold read_magic. unfold bind at 1. rewrite (u8_step _ _ _ E).
  destruct (h =? 72); cbn [negb andb]; [|eexists; split; [|split; [|split; [|reflexivity]]]; try reflexivity; discriminate].
  unfold bind at 1. unfold bind at 1. rewrite (u8_step _ l (b :: v :: r)) by reflexivity.
  destruct (l =? 76); cbn [negb andb]; [|eexists; split; [|split; [|split; [|reflexivity]]]; try reflexivity; discriminate].
  unfold bind at 1. rewrite (u8_step _ b (v :: r)) by reflexivity. unfold ret at 1.
  destruct (b =? 66); cbn [negb andb]; [|eexists; split; [|split; [|split; [|reflexivity]]]; try reflexivity; discriminate].
  unfold bind at 1, unwrap_mapped.
  set (s3 := with_buf _ _).
  assert (X : decode_u8 s3 = (Ok v, {| d_buf := r; d_pos := d_pos s3 + 1; d_code := d_code s3; errs := errs s3; d_log := d_log s3 |})).
  { pose proof (u8_step s3 v r eq_refl) as X. unfold unwrap in X. destruct (decode_u8 s3) as [[] ?]; try discriminate. exact X. }
  rewrite X. destruct (_ || _); eexists; (split; [|split; [|split; [|reflexivity]]]; reflexivity).
Qed.
Lemma code_read_magic s r s' : read_magic code_new s = (r, s') -> (forall c, r <> Ok c) ->
  exists r', code_read s = (r', s') /\ (match r with Err e => r' = Err e | Panic p => r' = Panic p | Ok _ => True end).
Proof.
  intros E N. unfold code_read. cbv zeta. unfold bind at 1. rewrite E. destruct r; [exfalso; eapply N; reflexivity|eauto|eauto].
Qed.
(** Outcome on every file of at least four bytes, by its first four bytes.  [read_module] returns the
    outcome and the error cell afterwards. *)
Theorem C41_magic e0 h l b v r : (h, l, b) <> (72, 76, 66) ->
  exists pos, read_module e0 (h :: l :: b :: v :: r) = (Err (with_info InvalidBytecodeHeader pos), e0) /\ 1 <= pos <= 3.
Proof.
  intros N. destruct (magic_steps (start e0 (h :: l :: b :: v :: r)) h l b v r eq_refl) as (s' & He & Hp & _ & E).
  assert (X : (h =? 72) && (l =? 76) && (b =? 66) = false).
  { destruct (Z.eqb_spec h 72), (Z.eqb_spec l 76), (Z.eqb_spec b 66); cbn; auto. subst. now elim N. }
  rewrite X in E. cbn [negb] in E. destruct (code_read_magic _ _ _ E ltac:(discriminate)) as (r' & E' & ->).
  exists (d_pos s'). unfold read_module. rewrite E', He. split; [reflexivity|].
  rewrite Hp. change (d_pos (start _ _)) with 0.
  destruct (h =? 72), (l =? 76), (b =? 66); cbn [negb andb] in *; try discriminate; lia.
Qed.
Theorem C41_version e0 v r : v <= 1 \/ 5 < v ->
  read_module e0 (72 :: 76 :: 66 :: v :: r) = (Err (with_info UnsupportedBytecodeVersion 4), e0).
Proof.
  intros N. destruct (magic_steps (start e0 (72 :: 76 :: 66 :: v :: r)) 72 76 66 v r eq_refl) as (s' & He & Hp & _ & E).
  assert (X : (v <=? 1) || (5 <? v) = true) by lia. rewrite X in E.
  destruct (code_read_magic _ _ _ E ltac:(discriminate)) as (r' & E' & ->).
  unfold read_module. rewrite E', He, Hp. reflexivity.
Qed.
(** Hence acceptance requires the magic and a supported version, and the version is kept. *)
Theorem C41_accepted e0 buf c : bytes buf -> accepted e0 buf c ->
  exists v r, buf = 72 :: 76 :: 66 :: v :: r /\ 2 <= v <= 5.
Proof.
  intros B A. destruct buf as [|h [|l [|b [|v r]]]].
  1-4: exfalso; apply accepted_run in A as [s A]; unfold code_read in A; cbv zeta in A;
    apply bind_ok in A as (c1 & s1 & A & _); revert A; unfold read_magic.
  - discriminate.
  - unfold bind at 1. rewrite (u8_step _ h []) by reflexivity. destruct (h =? 72); cbn [negb]; discriminate.
  - unfold bind at 1. rewrite (u8_step _ h [l]) by reflexivity. destruct (h =? 72); cbn [negb]; [|discriminate].
    unfold bind at 1. unfold bind at 1. rewrite (u8_step _ l []) by reflexivity. destruct (l =? 76); cbn [negb]; discriminate.
  - unfold bind at 1. rewrite (u8_step _ h [l; b]) by reflexivity. destruct (h =? 72); cbn [negb]; [|discriminate].
    unfold bind at 1. unfold bind at 1. rewrite (u8_step _ l [b]) by reflexivity. destruct (l =? 76); cbn [negb]; [|discriminate].
    unfold bind at 1. rewrite (u8_step _ b []) by reflexivity. unfold ret at 1. destruct (b =? 66); cbn [negb]; discriminate.
  - assert (M : (h, l, b) = (72, 76, 66)).
    { destruct (Z.eq_dec h 72), (Z.eq_dec l 76), (Z.eq_dec b 66); subst; auto; exfalso.
      all: match type of A with accepted ?e (?x :: ?y :: ?z :: ?w :: ?q) _ =>
             destruct (C41_magic e x y z w q) as (pos & E & _); [congruence|] end;
        unfold accepted in A; rewrite E in A; discriminate. }
    inversion M; subst. exists v, r. split; [reflexivity|].
    destruct (Z_le_gt_dec v 1), (Z_lt_le_dec 5 v); try lia; exfalso;
      unfold accepted in A; rewrite (C41_version e0 v r) in A by lia; discriminate.
Qed.
Example C41_ex : fst (read_module None [72; 76; 67; 5; 0; 0]) = Err (with_info InvalidBytecodeHeader 3) /\
  fst (read_module None [72; 76; 66; 6; 0; 0]) = Err (with_info UnsupportedBytecodeVersion 4) /\
  (exists c, accepted None [72; 76; 66; 2; 0; 0; 0; 0; 0; 0; 0; 0; 0; 0; 0; 0; 0] c).
Proof. repeat split; [vm_compute; reflexivity..|]. eexists. vm_compute. reflexivity. Qed.

(** * C42 *)
(** Reading files one after the other in one process: each read starts with the error cell left by
    the one before. *)
Fixpoint read_all (e : option derr) (files : list (list Z)) : list (res derr code) :=
  match files with
  | [] => []
  | f :: fs => let '(r, e') := read_module e f in r :: read_all e' fs
  end.
(** Violated: after any recorded error no file whatever is accepted again, including valid ones. *)
Theorem C42_refuted :
  (forall e buf c, bytes buf -> ~ accepted (Some e) buf c) /\
  exists bad good, (exists c, accepted None good c) /\
    (exists r1 e c, read_all None [good; bad; good] = [Ok c; r1; Err e] /\ accepted None good c).
Proof.
  split.
  - intros e buf c B A. apply accepted_run in A as [s A]. apply accepted_clean in A; [|auto]. now destruct A.
  - exists (72 :: 76 :: 66 :: 5 :: flat_map enc_index [0; -1; 0; 0; 0; 0; 0; 0; 0; 0; 0]), (enc_module ex_mod).
    split; [eexists; vm_compute; reflexivity|]. do 3 eexists. split; vm_compute; reflexivity.
Qed.
(** What does hold: as long as every file read so far was accepted, or rejected for its magic or
    version, each read gives the same result as in a fresh process. *)
Definition wrong_header (f : list Z) : Prop := exists h l b v r, f = h :: l :: b :: v :: r /\
  ((h, l, b) <> (72, 76, 66) \/ v <= 1 \/ 5 < v).
Theorem C42_sequence_partial files last : Forall bytes files ->
  Forall (fun f => (exists c, accepted None f c) \/ wrong_header f) files ->
  read_all None (files ++ [last]) = map (fun f => fst (read_module None f)) (files ++ [last]).
Proof.
  intros B A. induction files as [|f fs IH]; cbn [app read_all map].
  - destruct (read_module None last). reflexivity.
  - apply Forall_cons_iff in B as [Bf B]. apply Forall_cons_iff in A as [Af A].
    assert (N : snd (read_module None f) = None).
    { destruct Af as [[c Af]|(h & l & b & v & r & -> & W)].
      - apply accepted_run in Af as [s Af]. destruct (accepted_clean _ _ _ _ Bf Af) as (_ & N & _).
        unfold read_module. now rewrite Af.
      - destruct (Z.eq_dec h 72), (Z.eq_dec l 76), (Z.eq_dec b 66); subst.
        1: { rewrite C41_version; [reflexivity|]. destruct W as [W|W]; [now elim W|auto]. }
        all: match goal with |- context [read_module None (?x :: ?y :: ?z :: ?w :: ?q)] =>
             destruct (C41_magic None x y z w q) as (pos & E & _); [congruence|now rewrite E] end. }
    destruct (read_module None f) as [r e]. cbn [fst snd] in *. subst e. f_equal. now apply IH.
Qed.
Example C42_ex : exists c, accepted None (enc_module ex_mod) c /\ wrong_header [72; 76; 66; 6; 0] /\
  read_all None [enc_module ex_mod; [72; 76; 66; 6; 0]; [72; 76; 66; 5]] =
    [Ok c; Err (with_info UnsupportedBytecodeVersion 4); Panic PUnwrap].
Proof.
  eexists. split; [vm_compute; reflexivity|]. split; [|vm_compute; reflexivity].
  do 5 eexists. split; [reflexivity|]. right. right. lia.
Qed.

(** * C43 *)
(** [d_log] lists every error recorded so far (see DecoderModel.v), [errs] is the error cell: an
    accepted read started with an empty cell, ended with an empty cell and recorded nothing. *)
Theorem C43_accepted e0 buf c s' : bytes buf -> code_read (start e0 buf) = (Ok c, s') ->
  e0 = None /\ errs s' = None /\ d_log s' = [].
Proof. apply accepted_clean. Qed.
(** Recorded errors are never cleared or forgotten, whatever the outcome. *)
Theorem C43_kept s r s' : bytes (d_buf s) -> code_read s = (r, s') ->
  (errs s <> None -> errs s' <> None) /\ (exists l, d_log s' = d_log s ++ l) /\
  (errs s' = None -> d_log s' = d_log s).
Proof.
  intros B E. destruct (g_fwd _ _ (good_code_read true) s r s' B E) as (_ & F & l & L & N).
  repeat split; [exact F|eauto|]. intros H. rewrite L, N by auto. apply app_nil_r.
Qed.
Example C43_ex : exists s', fst (code_read (start None (72 :: 76 :: 66 :: 5 :: flat_map enc_index [0; -1; 0; 0; 0; -2; 0; 0; 0; 0; 0]))) = Err (with_info NegativeIndex 12) /\
  snd (code_read (start None (72 :: 76 :: 66 :: 5 :: flat_map enc_index [0; -1; 0; 0; 0; -2; 0; 0; 0; 0; 0]))) = s' /\
  length (d_log s') = 2%nat.
Proof. eexists. split; [vm_compute; reflexivity|]. split; [reflexivity|]. vm_compute. reflexivity. Qed.

(** * C44 *)
(** Violated: every proper prefix of a correct four-byte header crashes the reader. *)
Theorem C44_refuted e0 v k : 2 <= v <= 5 -> (k < 4)%nat ->
  fst (read_module e0 (firstn k [72; 76; 66; v])) = Panic PUnwrap.
Proof.
  intros Hv Hk. do 4 (destruct k as [|k]; [reflexivity|]). lia.
Qed.
(** Violated: so does a file that ends inside the table of counts, whatever counts precede the end. *)
Definition crashes (o : res derr code * st) : Prop := fst o = Panic PUnwrap.
Lemma uindex_empty s : d_buf s = [] -> fst (UINDEX s) = Panic PUnwrap.
Proof.
  intros E. unfold UINDEX, bind at 1, unwrap_mapped, INDEX, unwrap, read_index, bind, decode_u8, decode_unsigned, bind, read_bytes.
  rewrite E. reflexivity.
Qed.
Lemma peel_crash ks set c (K : code -> M code) s : Forall (fun k => -8192 < k < 8192) ks ->
  d_buf s = flat_map enc_index ks ->
  (forall k ks' n s1, ks = k :: ks' -> Forall (fun k => -8192 < k < 8192) ks' -> d_buf s1 = flat_map enc_index ks' ->
     crashes (K (set n c) s1)) ->
  crashes (bind (read_count set c) K s).
Proof.
  intros F E H. destruct ks as [|k ks].
  - pose proof (uindex_empty s E) as P. unfold crashes, read_count, bind, ok. destruct (UINDEX s) as [[]]; try discriminate.
    cbn in *; congruence.
  - cbn [flat_map] in E. apply Forall_cons_iff in F as [Fk F]. destruct (uindex_step k s _ Fk E) as (n & s1 & E1 & E2 & E3).
    unfold read_count, ok. unfold bind at 1 2. rewrite E1. cbn. eapply H; eauto.
Qed.
Theorem C44_counts_refuted e0 v ks : 2 <= v <= 5 -> Forall (fun k => -8192 < k < 8192) ks ->
  zlen ks < 9 + (if 4 <=? v then 1 else 0) + (if 5 <=? v then 1 else 0) ->
  fst (read_module e0 (72 :: 76 :: 66 :: v :: flat_map enc_index ks)) = Panic PUnwrap.
Proof.
  intros Hv F L. unfold read_module.
  destruct (magic_steps (start e0 (72 :: 76 :: 66 :: v :: flat_map enc_index ks)) 72 76 66 v _ eq_refl) as (s0 & _ & _ & Hb & E).
  assert (X : (v <=? 1) || (5 <? v) = false) by lia. rewrite X in E. cbn [negb andb Z.eqb Pos.eqb] in E. specialize (Hb eq_refl).
  assert (C : crashes (read_counts (set_version v code_new) s0)).
  2:{ unfold code_read. cbv zeta. rewrite (bind_step _ _ _ _ _ E). unfold bind at 1. unfold crashes in C.
      destruct (read_counts _ s0) as [[]]; try discriminate. exact C. }
  clear E X. unfold read_counts. destruct ks as [|k1 ks].
  { pose proof (uindex_empty s0 Hb) as P. unfold crashes, bind at 1, ok. destruct (UINDEX s0) as [[]]; try discriminate. cbn in *; congruence. }
  cbn [flat_map] in Hb. apply Forall_cons_iff in F as [F1 F].
  destruct (uindex_step k1 s0 _ F1 Hb) as (n & s1 & E1 & E2 & _). unfold bind at 1, ok at 1. rewrite E1. cbv zeta. clear E1 Hb.
  rewrite zlen_cons in L.
  Ltac pk := eapply peel_crash; [eassumption|eassumption|]; let k := fresh in let l := fresh "ks" in
     intros k l ? ? -> ? ?; rewrite zlen_cons in *; cbv beta.
  assert (V : v = 2 \/ v = 3 \/ v = 4 \/ v = 5) by lia.
  pk. pk. pk.
  destruct V as [V|[V|[V|V] ] ]; subst v; cbn [Z.leb Z.compare Pos.compare Pos.compare_cont] in L.
  all: repeat first [ pk
    | match goal with |- context [(if ?k <=? c_version ?c then _ else _)] =>
        let t := eval vm_compute in (k <=? c_version c) in replace (k <=? c_version c) with t by reflexivity end; cbv iota
    | match goal with |- crashes (bind (ret ?c) ?K ?s) => change (crashes (K c s)); cbv beta zeta end ].
  all: match goal with H : context [zlen ?l] |- _ => pose proof (zlen_nonneg l) end; lia.
Qed.
(** What does hold: the reader terminates on every input (the model's recursion bound is never hit). *)
Theorem C44_terminates e0 buf : bytes buf -> fst (read_module e0 buf) <> Panic PFuel.
Proof.
  intros B. unfold read_module. pose proof (g_nofuel _ _ (good_code_read false) eq_refl (start e0 buf) B) as H.
  destruct (code_read (start e0 buf)). exact H.
Qed.
(** ... and does not crash on any encoded module, with anything after it. *)
Theorem C44_encoded m rest : wf_module m -> exists c, accepted None (enc_module m ++ rest) c.
Proof. intros W. destruct (C37_roundtrip m rest W) as [u E]. eexists. unfold accepted. rewrite E. reflexivity. Qed.

(** * C45 *)
(** Violated: the lengths of the debug file names never reach the result... *)
Theorem C45_lens_refuted e0 buf c : bytes buf -> accepted e0 buf c -> c_debugfiles_lens c = [].
Proof. intros B A. apply accepted_run in A as [s A]. now apply (accepted_ok e0 buf c s). Qed.
(** ... and a module without debug information, types and constants (hence without globals, natives
    and functions) comes back as the empty module, whatever ints, floats, strings and bytes it holds. *)
Theorem C45_empty_refuted m rest : encodable m -> am_debug m = false -> am_types m = [] -> am_constants m = [] ->
  read_module None (enc_module m ++ rest) = (Ok code_new, None) /\
  c_ints code_new = [] /\ c_floats code_new = [] /\ c_strings code_new = [] /\ c_bytes code_new = [] /\
  c_version code_new = 0.
Proof.
  intros W D T K. pose proof (eats_module_gen m W 0 rest) as E. unfold read_module.
  change (start None (enc_module m ++ rest)) with (mk (enc_module m ++ rest) 0 code_new). rewrite E.
  unfold result_of, nothing_set. rewrite D, T, K. cbn. repeat split.
Qed.
Definition ex_lost : amod := {|
  am_version := 4; am_debug := false; am_ints := [1; 2; 3]; am_floats := []; am_strings := [[104; 105]];
  am_bytes := []; am_bytes_pos := []; am_debugfiles := []; am_types := []; am_globals := []; am_natives := [];
  am_functions := []; am_constants := []; am_entrypoint := 0 |}.
Example C45_ex : encodable ex_lost /\ am_ints ex_lost = [1; 2; 3] /\
  (exists c, accepted None (enc_module ex_lost) c /\ c_ints c = []) /\
  (exists c, accepted None (enc_module ex_mod) c /\ c_debugfiles c = [[97; 46; 104; 120]] /\ c_debugfiles_lens c = []).
Proof.
  split; [|split; [reflexivity|split; eexists; (split; [vm_compute; reflexivity|repeat split])]].
  unfold encodable, ex_lost; cbn [am_version am_debug am_ints am_floats am_strings am_bytes am_bytes_pos am_debugfiles
    am_types am_globals am_natives am_functions am_constants am_entrypoint].
  conc; unfold wf_strings; conc; try (unfold usmall, small, i32_range, is_byte, zlen; cbn; lia); try (cbn; tauto).
  exists [104; 105]. split; [repeat constructor; unfold scalar; lia|reflexivity].
Qed.
(** Every other encoded module keeps its tables: C37. *)

(** * C54-C56: the shape of every accepted module (not only of encodings) *)
(** The type table: [ntypes] declared types, each of them real and built from names of the string table
    and from types declared before it (or the null placeholder, for forward references); then as
    many placeholders. *)
Theorem C54_types e0 buf c : bytes buf -> accepted e0 buf c ->
  c_types c = declared c ++ zrepeat vt_default (c_ntypes c) /\ zlen (declared c) = c_ntypes c /\
  (forall i t, znth (declared c) i = Some t ->
     t <> vt_default /\ type_ok (c_strings c) (vt_default :: firstn (Z.to_nat i) (declared c)) t).
Proof.
  intros B A. apply accepted_run in A as [s A]. destruct (accepted_ok e0 buf c s B A) as (H & _).
  unfold contents_ok in H. destruct H as (_ & _ & _ & _ & _ & _ & _ & (D & L & E & H) & _).
  assert (declared c = D) as ->; [|auto].
  unfold declared. rewrite E, <- L. replace (Z.to_nat (zlen D)) with (length D) by (unfold zlen; lia).
  rewrite firstn_app, Nat.sub_diag, firstn_all. cbn [firstn]. apply app_nil_r.
Qed.
Lemma nth_error_firstn_lt {A} (l : list A) : forall n m, (m < n)%nat -> nth_error (firstn n l) m = nth_error l m.
Proof. induction l as [|x l IH]; intros [|n] [|m] H; try lia; cbn; auto; apply IH; lia. Qed.
(** Hence no type contains itself: every type an entry mentions directly is the placeholder or has a
    smaller index. *)
Theorem C54_acyclic e0 buf c i t u : bytes buf -> accepted e0 buf c -> znth (declared c) i = Some t ->
  (match vt_union t with
   | FuncType args _ r => In u (r :: args)
   | ObjType _ super fields _ _ _ _ _ _ _ => In u (super :: map (@fd_t vtype) fields)
   | VirtualType _ fields => In u (map (@fd_t vtype) fields)
   | EnumType _ _ cs _ => In u (flat_map (@ec_params vtype) cs)
   | _ => vt_tparam t = Some u
   end) ->
  u = vt_default \/ exists j, 0 <= j < i /\ znth (declared c) j = Some u.
Proof.
  intros B A Z M. destruct (C54_types e0 buf c B A) as (_ & _ & H). destruct (H i t Z) as [_ T].
  assert (I : In u (vt_default :: firstn (Z.to_nat i) (declared c))).
  { destruct t as [un a p k]. destruct un, a, p; cbn in T, M; try contradiction; try discriminate;
      try (destruct rt; [contradiction|]); try contradiction.
    - destruct T as (_ & _ & _ & F & R). rewrite Forall_forall in F. destruct M as [<-|M]; [exact R|exact (F _ M)].
    - destruct T as (_ & _ & S & _ & _ & _ & _ & F & _). destruct M as [<-|M].
      + destruct S as [->|S]; [now left|exact S].
      + apply in_map_iff in M as (f & <- & M). rewrite Forall_forall in F. apply (F _ M).
    - destruct T as (_ & _ & F). apply in_map_iff in M as (f & <- & M). rewrite Forall_forall in F. apply (F _ M).
    - destruct T as (_ & _ & _ & F & _). apply in_flat_map in M as (k' & Hk & M). rewrite Forall_forall in F.
      destruct (F _ Hk) as (_ & _ & F2). rewrite Forall_forall in F2. exact (F2 _ M).
    - injection M as <-. apply T. }
  destruct I as [I|I]; [auto|right]. apply In_nth_error in I as [n E].
  assert (L : (n < length (firstn (Z.to_nat i) (declared c)))%nat) by (apply nth_error_Some; congruence).
  rewrite firstn_length in L. pose proof (znth_some_range _ _ _ Z).
  exists (Z.of_nat n). split; [lia|]. rewrite znth_nth_error by lia. rewrite Nat2Z.id.
  rewrite nth_error_firstn_lt in E by lia. exact E.
Qed.
(** Globals, natives and functions refer to declared types only. *)
Theorem C54_globals e0 buf c : bytes buf -> accepted e0 buf c ->
  exists G, c_globals c = G ++ zrepeat vt_default (c_nglobals c) /\ zlen G = c_nglobals c /\ Forall (fun t => In t (declared c)) G.
Proof.
  intros B A. apply accepted_run in A as [s A]. destruct (accepted_ok e0 buf c s B A) as (H & _).
  unfold contents_ok in H. destruct H as (_ & _ & _ & _ & _ & _ & _ & _ & (G & L & E & H) & _). eauto.
Qed.
Theorem C55_functions e0 buf c : bytes buf -> accepted e0 buf c ->
  Forall (fun f => In (hf_t f) (declared c) /\ Forall (fun t => In t (declared c)) (hf_regs f) /\
                   Forall opcode_ok (hf_ops f) /\ 0 <= hf_findex f) (c_functions c) /\
  Forall (native_ok (c_strings c) (declared c)) (c_natives c) /\
  Forall constant_ok (c_constants c) /\ 0 <= c_entrypoint c.
Proof.
  intros B A. apply accepted_run in A as [s A]. destruct (accepted_ok e0 buf c s B A) as (H & _).
  unfold contents_ok in H. destruct H as (_ & _ & _ & _ & _ & _ & _ & _ & _ & Hn & Hf & Hk & He). repeat split; auto.
  eapply Forall_impl; [|exact Hf]. unfold function_ok. tauto.
Qed.
Theorem C56_debug e0 buf c : bytes buf -> accepted e0 buf c ->
  (c_hasdebug c <> 0 -> Forall (fun f => debug_ok (c_ndebugfiles c) (hf_nops f) (hf_debug f)) (c_functions c)) /\
  (c_hasdebug c = 0 -> Forall (fun f => hf_debug f = []) (c_functions c)).
Proof.
  intros B A. apply accepted_run in A as [s A]. destruct (accepted_ok e0 buf c s B A) as (H & _).
  unfold contents_ok in H. destruct H as (_ & _ & _ & _ & _ & _ & _ & _ & _ & Hn & Hf & Hk & He). split; intros D.
  - eapply Forall_impl; [|exact Hf]. intros f. unfold function_ok. destruct (Z.eqb_spec (c_hasdebug c) 0); [contradiction|].
    cbn [negb]. tauto.
  - eapply Forall_impl; [|exact Hf]. intros f. unfold function_ok. rewrite D. cbn. tauto.
Qed.
Example C54_C56_ex : exists c, accepted None (enc_module ex_mod) c /\ c_hasdebug c = 1 /\
  map hf_debug (c_functions c) = [[0; 3; 0; 200; 0; 201]] /\ (length (c_types c) = 10)%nat.
Proof. eexists. split; [vm_compute; reflexivity|]. repeat split. Qed.
