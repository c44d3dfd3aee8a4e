(** Whole modules. *)
From Verif Require Import Prelude StdModel BrassTypes DecoderModel CodeModel FormatSpec CodeGenericProofs
  Utf8Proofs FormatProofs StringsProofs TypesProofs OpsProofs.
From Coq Require Import Lia.

Lemma zrepeat_0 {A} (x : A) : zrepeat x 0 = []. Proof. reflexivity. Qed.
Lemma zlen_0 {A} (l : list A) : zlen l = 0 -> l = [].
Proof. destruct l; [auto|]. rewrite zlen_cons. pose proof (zlen_nonneg l). lia. Qed.
Lemma zlen_snoc_n0 {A} (l : list A) x : (zlen (l ++ [x]) =? 0) = false.
Proof. apply Z.eqb_neq. rewrite zlen_app. pose proof (zlen_nonneg l). change (zlen [x]) with 1. lia. Qed.

Lemma eats_read_magic d v : 2 <= v <= 5 -> eats d (read_magic code_new) [72; 76; 66; v] (set_version v code_new) d.
Proof.
  intros H. unfold read_magic. change [72; 76; 66; v] with ([72] ++ ([76] ++ [66] ++ []) ++ [v]).
  eapply eats_bind; [apply eats_unwrap, eats_u8|].
  eapply eats_bind.
  { change (negb (72 =? 72)) with false. cbv iota.
    eapply eats_bind; [apply eats_unwrap, eats_u8|].
    change (negb (76 =? 76)) with false. cbv iota.
    eapply eats_bind; [apply eats_unwrap, eats_u8|]. apply eats_ret. }
  change (negb (66 =? 66)) with false. cbv iota.
  eapply eats_bind_last; [apply eats_unwrap_mapped, eats_u8|].
  destruct (Z.leb_spec v 1), (Z.ltb_spec 5 v); try lia. cbn [orb]. apply eats_ret.
Qed.

Lemma eats_read_count d f c n : usmall n -> eats d (read_count f c) (enc_index n) (f n c) d.
Proof.
  intros H. unfold read_count. eapply eats_bind_last; [apply eats_ok, eats_UINDEX; exact H|]. apply eats_ret.
Qed.

Definition header_code (m : amod) : code :=
  let v := am_version m in
  set_hasdebug (if am_debug m then 1 else 0)
  (set_entrypoint (am_entrypoint m)
  (set_nconstants (zlen (am_constants m))
  (set_nfunctions (zlen (am_functions m))
  (set_nnatives (zlen (am_natives m))
  (set_nglobals (zlen (am_globals m))
  (set_ntypes (zlen (am_types m))
  (set_nbytes (if 5 <=? v then zlen (am_bytes_pos m) else 0)
  (set_nstrings (zlen (am_strings m))
  (set_nfloats (zlen (am_floats m))
  (set_nints (zlen (am_ints m)) (set_version v code_new))))))))))).

Lemma code_ext (c d : code) :
  c_types c = c_types d ->
  c_ntypes c = c_ntypes d ->
  c_strings c = c_strings d ->
  c_strings_lens c = c_strings_lens d ->
  c_ustrings c = c_ustrings d ->
  c_nstrings c = c_nstrings d ->
  c_nints c = c_nints d ->
  c_ints c = c_ints d ->
  c_nfloats c = c_nfloats d ->
  c_floats c = c_floats d ->
  c_nbytes c = c_nbytes d ->
  c_nfunctions c = c_nfunctions d ->
  c_functions c = c_functions d ->
  c_nconstants c = c_nconstants d ->
  c_constants c = c_constants d ->
  c_entrypoint c = c_entrypoint d ->
  c_nglobals c = c_nglobals d ->
  c_globals c = c_globals d ->
  c_nnatives c = c_nnatives d ->
  c_natives c = c_natives d ->
  c_hasdebug c = c_hasdebug d ->
  c_version c = c_version d ->
  c_bytes c = c_bytes d ->
  c_bytes_pos c = c_bytes_pos d ->
  c_ndebugfiles c = c_ndebugfiles d ->
  c_debugfiles c = c_debugfiles d ->
  c_debugfiles_lens c = c_debugfiles_lens d -> c = d.
Proof. destruct c, d. cbn. intros. subst. reflexivity. Qed.

Lemma eats_read_counts d m : encodable m ->
  eats d (read_counts (set_version (am_version m) code_new))
    (enc_index (if am_debug m then 1 else 0)
     ++ enc_index (zlen (am_ints m)) ++ enc_index (zlen (am_floats m)) ++ enc_index (zlen (am_strings m))
     ++ (if 5 <=? am_version m then enc_index (zlen (am_bytes_pos m)) else [])
     ++ enc_index (zlen (am_types m)) ++ enc_index (zlen (am_globals m))
     ++ enc_index (zlen (am_natives m)) ++ enc_index (zlen (am_functions m))
     ++ (if 4 <=? am_version m then enc_index (zlen (am_constants m)) else [])
     ++ enc_index (am_entrypoint m)) (header_code m) d.
Proof.
  intros (Wv & Wi & _ & Wf & _ & [Ws _] & Wb & _ & _ & _ & _ & Wt & _ & _ & Wg & _ & Wn & _ & Wfn & _ & Wk & _ & Wk4 & We).
  unfold read_counts.
  eapply eats_bind. { apply eats_ok, eats_UINDEX. unfold usmall. destruct (am_debug m); lia. }
  cbv zeta.
  eapply eats_bind; [apply eats_read_count; exact Wi|].
  eapply eats_bind; [apply eats_read_count; exact Wf|].
  eapply eats_bind; [apply eats_read_count; exact Ws|].
  cbn [c_version set_nstrings set_nfloats set_nints set_version].
  eapply eats_bind with (a := set_nbytes (if 5 <=? am_version m then zlen (am_bytes_pos m) else 0) _).
  { destruct (5 <=? am_version m); [apply eats_read_count; exact Wb|].
    match goal with |- eats _ (ret ?x) _ (set_nbytes 0 ?y) _ => change (set_nbytes 0 y) with x end. apply eats_ret. }
  eapply eats_bind; [apply eats_read_count; exact Wt|].
  eapply eats_bind; [apply eats_read_count; exact Wg|].
  eapply eats_bind; [apply eats_read_count; exact Wn|].
  eapply eats_bind; [apply eats_read_count; exact Wfn|].
  cbn [c_version set_nstrings set_nfloats set_nints set_version set_nbytes set_ntypes set_nglobals set_nnatives set_nfunctions set_nconstants].
  eapply eats_bind with (a := set_nconstants (zlen (am_constants m)) _).
  { destruct (Z.leb_spec 4 (am_version m)); [apply eats_read_count; exact Wk|].
    rewrite Wk4 by lia. apply eats_ret. }
  eapply eats_bind_last; [apply eats_read_count; exact We|].
  eapply eats_bind_nil; [apply eats_check_error|].
  replace (Z.land (if am_debug m then 1 else 0) 1) with (if am_debug m then 1 else 0) by (destruct (am_debug m); reflexivity).
  match goal with |- eats _ (ret ?x) _ ?y _ => assert (Q : y = x) end.
  { apply code_ext; reflexivity. }
  rewrite Q. apply eats_ret.
Qed.

Lemma eats_read_table d (P : Z -> Prop) enc m xs n : (forall x, P x -> eats d m (enc x) x d) ->
  n = zlen xs -> Forall P xs -> eats d (read_table m n) (flat_map enc xs) xs d.
Proof.
  intros Hm -> F. unfold read_table.
  apply (eats_for_range enc (fun p => p) (fun _ => d)); [reflexivity|].
  intros p x q ->. apply Forall_app in F. destruct F as [_ F]. apply Forall_cons_iff in F. destruct F as [Hx _].
  eapply eats_bind_last; [apply eats_ok_mapped, Hm; exact Hx|]. now apply eats_insert_end.
Qed.

Definition str_code (ss : list str) (c : code) : code :=
  set_ustrings (zrepeat None (zlen ss)) (set_strings_lens (map zlen ss) (set_strings ss c)).
Lemma eats_string_table d c ss : wf_strings ss -> c_nstrings c = zlen ss -> c_strings_lens c = [] ->
  eats d (read_string_table c) (enc_strings ss) (str_code ss c) d.
Proof.
  intros W E L. unfold read_string_table. eapply eats_bind_last.
  { apply eats_ok_mapped, eats_read_strings; [exact E|exact W]. }
  rewrite L. cbn [app]. eapply eats_bind_nil; [apply eats_check_error|].
  cbn [c_nstrings set_strings_lens set_strings]. rewrite E. apply eats_ret.
Qed.

Lemma eats_bytes_section d c bs ps : c_version c >= 5 -> zlen bs < 2 ^ 31 -> zlen ps = c_nbytes c ->
  Forall usmall ps -> c_bytes_pos c = [] ->
  eats d (read_bytes_section c) (enc_le 4 (zlen bs) ++ bs ++ flat_map enc_index ps)
    (set_bytes_pos ps (set_bytes bs c)) d.
Proof.
  intros V B N F E. unfold read_bytes_section. destruct (Z.leb_spec 5 (c_version c)); [|lia].
  pose proof (zlen_nonneg bs).
  eapply eats_bind. { apply eats_i32. unfold i32_range. lia. }
  eapply eats_bind_nil. { destruct (Z.ltb_spec (zlen bs) 0); [lia|]. apply eats_ret. }
  eapply eats_bind; [apply eats_unwrap_mapped, eats_read_bytes; reflexivity|].
  rewrite E, <- N.
  eapply eats_bind_last.
  { apply (eats_for_range enc_index (fun p => p) (fun _ => d)); [reflexivity|].
    intros p x q ->. apply Forall_app in F. destruct F as [_ F]. apply Forall_cons_iff in F. destruct F as [Hx _].
    eapply eats_bind_last; [apply eats_ok_mapped, eats_UINDEX; exact Hx|]. now apply eats_insert_end. }
  eapply eats_bind_nil; [apply eats_check_error|]. apply eats_ret.
Qed.

Lemma eats_debugfiles d c fs : c_hasdebug c <> 0 -> wf_strings fs ->
  let c' := set_debugfiles fs (set_ndebugfiles (zlen fs) c) in
  eats d (read_debugfiles c) (enc_index (zlen fs) ++ enc_strings fs) c' c'.
Proof.
  intros H W c'. unfold read_debugfiles. destruct (Z.eqb_spec (c_hasdebug c) 0); [contradiction|]. cbn [negb].
  eapply eats_bind; [apply eats_read_count; apply W|].
  eapply eats_bind_nil; [apply eats_put_code|].
  eapply eats_bind_last; [apply eats_ok_mapped, eats_read_strings; [reflexivity|exact W]|].
  eapply eats_bind_nil; [apply eats_get_code|].
  eapply eats_bind_nil; [apply eats_put_code|].
  eapply eats_bind_nil; [apply eats_get_code|].
  eapply eats_bind_nil; [apply eats_check_error|]. apply eats_ret.
Qed.

(** After the type table: strings and types are in place in [c]. *)
Definition tctx (ss : list str) (ts : list vtype) (c : code) : Prop := ctx ss ts (zlen ts) c.
Lemma tctx_type ss ts c k : tctx ss ts c -> 0 <= k < zlen ts -> eats c get_type (enc_index k) (ty ts k) c.
Proof.
  intros X H. pose proof (eats_type ss ts (zlen ts) c X (c_ustrings c) k H) as E.
  now rewrite set_ustrings_id in E.
Qed.
Lemma tctx_string ss ts c n : tctx ss ts c -> 0 <= n < zlen ss -> eats c read_string (enc_index n) (nm ss n) c.
Proof.
  intros [E1 E2 E3 _ _ _ _] H. unfold read_string, usmall in *.
  eapply eats_bind_last. { apply eats_unwrap_mapped, eats_INDEX. unfold small. lia. }
  eapply eats_bind_nil; [apply eats_get_code|].
  eapply eats_bind_nil. { apply eats_to_i32. rewrite E2. unfold I32_MAX. lia. }
  rewrite E1, E2. destruct (Z.ltb_spec n 0), (Z.leb_spec (zlen ss) n); try lia. cbn [orb].
  apply eats_expect. unfold nm. now apply znth_nth.
Qed.

Lemma eats_globals ss ts d c gs : tctx ss ts c -> c_nglobals c = zlen gs ->
  Forall (fun k => 0 <= k < zlen ts) gs ->
  let c' := set_globals (map (ty ts) gs ++ zrepeat vt_default (zlen gs)) c in
  eats d (read_globals c) (flat_map enc_index gs) c' (if zlen gs =? 0 then d else c').
Proof.
  intros X E F c'. unfold read_globals. rewrite E.
  set (af := fun p => set_globals (map (ty ts) p ++ zrepeat vt_default (zlen gs)) c).
  set (cf := fun p : list Z => if zlen p =? 0 then d else af p).
  change c' with (af gs). change (if zlen gs =? 0 then d else af gs) with (cf gs).
  change (set_globals (zrepeat vt_default (zlen gs)) c) with (af []).
  eapply eats_bind_last; [|eapply eats_bind_nil; [apply eats_check_error|apply eats_ret]].
  apply (eats_for_range enc_index af cf); [reflexivity|].
  intros p k q E2. pose proof F as F0. rewrite E2 in F0. apply Forall_app in F0. destruct F0 as [_ F0].
  apply Forall_cons_iff in F0. destruct F0 as [Hk _].
  eapply eats_bind_nil; [apply eats_put_code|].
  eapply eats_bind_last.
  { apply eats_ok_mapped. apply (tctx_type ss ts); [|exact Hk]. destruct X. split; auto. }
  replace (cf (p ++ [k])) with (af (p ++ [k])) by (unfold cf; now rewrite zlen_snoc_n0).
  eapply eats_bind_nil with (c1 := af (p ++ [k])) (a := tt); [|apply eats_get_code].
  eapply eats_bind_nil; [apply eats_get_code|].
  eapply eats_bind_nil. { apply eats_expect. cbn [af c_globals set_globals]. apply zinsert_mid. now rewrite zlen_map. }
  replace (af (p ++ [k])) with (set_globals (map (ty ts) p ++ ty ts k :: zrepeat vt_default (zlen gs)) (af p)).
  - apply eats_put_code.
  - unfold af. rewrite map_app, <- app_assoc. reflexivity.
Qed.

Definition view_native (ss : list str) (ts : list vtype) (n : Z * Z * Z * Z) : native :=
  let '(lib, name, t, fi) := n in
  {| n_lib := nm ss lib; n_name := nm ss name; n_t := ty ts t; n_findex := fi |}.
Lemma eats_natives ss ts d c ns :
  tctx ss ts c -> (ns <> [] -> tctx ss ts d) -> c_nnatives c = zlen ns ->
  Forall (fun n => let '(lib, name, t, fi) := n in
            0 <= lib < zlen ss /\ 0 <= name < zlen ss /\ 0 <= t < zlen ts /\ usmall fi) ns ->
  let c' := set_natives (map (view_native ss ts) ns) c in
  eats d (read_natives c)
    (flat_map (fun n => let '(lib, name, t, fi) := n in
                 enc_index lib ++ enc_index name ++ enc_index t ++ enc_index fi) ns)
    c' (if zlen ns =? 0 then d else c').
Proof.
  intros X Xd E F c'. unfold read_natives. rewrite E.
  set (af := fun p => set_natives (map (view_native ss ts) p) c).
  set (cf := fun p : list (Z * Z * Z * Z) => if zlen p =? 0 then d else af p).
  change c' with (af ns). change (if zlen ns =? 0 then d else af ns) with (cf ns).
  change (set_natives [] c) with (af []).
  eapply eats_bind_last; [|eapply eats_bind_nil; [apply eats_check_error|apply eats_ret]].
  apply (eats_for_range (fun n : Z * Z * Z * Z => let '(lib, name, t, fi) := n in
                 enc_index lib ++ enc_index name ++ enc_index t ++ enc_index fi) af cf); [reflexivity|].
  intros p n q E2. pose proof F as F0. rewrite E2 in F0. apply Forall_app in F0. destruct F0 as [_ F0].
  apply Forall_cons_iff in F0. destruct n as [[[lib name] t] fi]. destruct F0 as [(H1 & H2 & H3 & H4) _].
  assert (Xc : tctx ss ts (cf p)).
  { unfold cf. destruct (zlen p =? 0); [apply Xd; rewrite E2; destruct p; discriminate|].
    unfold af. destruct X. split; auto. }
  eapply eats_bind; [apply eats_unwrap_mapped; eapply tctx_string; [exact Xc|exact H1]|].
  eapply eats_bind; [apply eats_unwrap_mapped; eapply tctx_string; [exact Xc|exact H2]|].
  eapply eats_bind; [apply eats_unwrap_mapped; eapply tctx_type; [exact Xc|exact H3]|].
  eapply eats_bind_last; [apply eats_unwrap_mapped, eats_UINDEX; exact H4|]. cbv zeta.
  replace (cf (p ++ [(lib, name, t, fi)])) with (af (p ++ [(lib, name, t, fi)])) by (unfold cf; now rewrite zlen_snoc_n0).
  replace (af (p ++ [(lib, name, t, fi)])) with (set_natives (c_natives (af p) ++
     [{| n_lib := nm ss lib; n_name := nm ss name; n_t := ty ts t; n_findex := fi |}]) (af p))
    by (unfold af; rewrite map_app; reflexivity).
  eapply eats_bind_nil; [apply eats_put_code|]. apply eats_ret.
Qed.

Lemma eats_read_function ss ts c f debug nf : tctx ss ts c -> wf_fun debug (zlen ts) nf f ->
  eats c read_function
    (enc_index (af_type f) ++ enc_index (af_findex f) ++ enc_index (zlen (af_regs f))
     ++ enc_index (zlen (af_ops f)) ++ flat_map enc_index (af_regs f) ++ flat_map enc_aop (af_ops f))
    (hf_set_debug (view_fun debug ts f) []) c.
Proof.
  intros X (W1 & W2 & W3 & W4 & W5 & W6 & _). unfold read_function.
  eapply eats_bind; [apply eats_unwrap; eapply tctx_type; [exact X|exact W1]|].
  eapply eats_bind; [apply eats_unwrap, eats_UINDEX; exact W2|].
  eapply eats_bind; [apply eats_unwrap, eats_UINDEX; exact W3|].
  eapply eats_bind; [apply eats_unwrap, eats_UINDEX; exact W4|].
  eapply eats_bind.
  { apply (eats_for_range enc_index (map (ty ts)) (fun _ => c)); [reflexivity|].
    intros p k q E2. rewrite E2 in W5. apply Forall_app in W5. destruct W5 as [_ W5].
    apply Forall_cons_iff in W5. destruct W5 as [Hk _].
    eapply eats_bind_last; [apply eats_unwrap_mapped; eapply tctx_type; [exact X|exact Hk]|].
    rewrite map_app. apply eats_insert_end. now rewrite zlen_map. }
  eapply eats_bind_nil; [apply eats_ok, eats_check_error|].
  eapply eats_bind_last.
  { apply (eats_for_range enc_aop (map read_op) (fun _ => c)); [reflexivity|].
    intros p k q E2. rewrite E2 in W6. apply Forall_app in W6. destruct W6 as [_ W6].
    apply Forall_cons_iff in W6. destruct W6 as [Hk _].
    eapply eats_bind_last; [apply eats_unwrap, eats_read_opcode; exact Hk|].
    rewrite map_app. apply eats_insert_end. now rewrite zlen_map. }
  apply eats_ret.
Qed.

Lemma eats_skip_assigns c l : usmall (zlen l) -> Forall (fun a => usmall (fst a) /\ small (snd a)) l ->
  eats c skip_assigns (enc_index (zlen l) ++ flat_map (fun a => enc_index (fst a) ++ enc_index (snd a)) l) tt c.
Proof.
  intros W F. unfold skip_assigns. eapply eats_bind; [apply eats_unwrap_mapped, eats_UINDEX; exact W|].
  apply (eats_for_range (fun a : Z * Z => enc_index (fst a) ++ enc_index (snd a)) (fun _ => tt) (fun _ => c)); [reflexivity|].
  intros p k q E2. rewrite E2 in F. apply Forall_app in F. destruct F as [_ F].
  apply Forall_cons_iff in F. destruct F as [[H1 H2] _].
  eapply eats_bind; [apply eats_ok, eats_UINDEX; exact H1|].
  eapply eats_bind_last; [apply eats_ok, eats_INDEX; exact H2|]. apply eats_ret.
Qed.

Lemma znth_mid {A} (l r : list A) x i : i = zlen l -> znth (l ++ x :: r) i = Some x.
Proof. intros ->. rewrite znth_app_r by lia. rewrite Z.sub_diag. reflexivity. Qed.

Lemma eats_function_entry ss ts d c i f (debug : bool) fs :
  tctx ss ts c -> wf_fun debug (zlen ts) (c_ndebugfiles c) f -> c_ndebugfiles c <= I32_MAX ->
  c_hasdebug c = (if debug then 1 else 0) -> c_functions c = fs -> i = zlen fs ->
  let c' := set_functions (fs ++ [view_fun debug ts f]) c in
  eats d (read_function_entry i c) (enc_fun (c_version c) debug f) c' c'.
Proof.
  intros X W Nf Hd Ef Ei c'. unfold read_function_entry, enc_fun.
  eapply eats_bind_nil; [apply eats_put_code|].
  pose proof (eats_read_function ss ts c f debug _ X W) as R.
  match type of R with eats _ _ ?bs _ _ => match goal with |- context[if debug then ?x else []] =>
    match goal with |- eats _ _ ?all _ _ =>
      replace all with (bs ++ (if debug then x else [])) by (rewrite <- !app_assoc; reflexivity) end end end.
  eapply eats_bind; [apply eats_unwrap_mapped; exact R|]. clear R.
  eapply eats_bind_nil; [apply eats_get_code|].
  eapply eats_bind_nil; [apply eats_put_code|].
  eapply eats_bind_nil; [apply eats_get_code|]. rewrite Ef.
  set (f0 := hf_set_debug (view_fun debug ts f) []).
  set (c1 := set_functions (fs ++ [f0]) c).
  change (c_hasdebug c1) with (c_hasdebug c). rewrite Hd.
  change (c_functions c1) with (fs ++ [f0]). change (c_version c1) with (c_version c).
  destruct debug.
  - destruct W as (_ & _ & _ & _ & _ & _ & W). destruct (W eq_refl) as (D1 & D2 & D3 & D4 & D5 & D6 & D7). clear W.
    change (negb (1 =? 0)) with true. cbv iota.
    eapply eats_bind_last with (c1 := c') (a := tt); [|apply eats_get_code].
    eapply eats_bind_nil; [apply eats_expect, znth_mid; exact Ei|].
    eapply eats_bind.
    { apply eats_ok_mapped. apply (eats_debug_infos c1 (af_debug f)); auto.
      change (hf_nops f0) with (zlen (af_ops f)). unfold zlen. now rewrite D5. }
    eapply eats_bind_nil.
    { eapply eats_bind_nil; [apply eats_get_code|].
      eapply eats_bind_nil; [apply eats_expect, znth_mid; exact Ei|].
      eapply eats_bind_nil; [apply eats_expect, zset_mid; exact Ei|].
      apply eats_put_code. }
    change (set_functions (fs ++ [hf_set_debug f0 (pairs (lines (af_debug f) (-1) 0))]) c1) with c'.
    destruct (3 <=? c_version c); [now apply eats_skip_assigns|apply eats_ret].
  - change (negb (0 =? 0)) with false. cbv iota.
    eapply eats_bind_nil; [apply eats_ret|].
    change c1 with c'. apply eats_get_code.
Qed.

Lemma set_functions_id c : set_functions (c_functions c) c = c.
Proof. destruct c; reflexivity. Qed.

Lemma eats_functions ss ts d c fs (debug : bool) :
  tctx ss ts c -> c_nfunctions c = zlen fs -> c_functions c = [] ->
  c_hasdebug c = (if debug then 1 else 0) -> c_ndebugfiles c <= I32_MAX ->
  Forall (wf_fun debug (zlen ts) (c_ndebugfiles c)) fs ->
  let c' := set_functions (map (view_fun debug ts) fs) c in
  eats d (read_functions c) (flat_map (enc_fun (c_version c) debug) fs) c' (if zlen fs =? 0 then d else c').
Proof.
  intros X E E0 Hd Nf F c'. unfold read_functions. rewrite E.
  set (af := fun p => set_functions (map (view_fun debug ts) p) c).
  set (cf := fun p : list afun => if zlen p =? 0 then d else af p).
  change c' with (af fs). change (if zlen fs =? 0 then d else af fs) with (cf fs).
  replace c with (af []) at 1 by (unfold af; cbn [map]; rewrite <- E0; apply set_functions_id).
  eapply eats_bind_last; [|eapply eats_bind_nil; [apply eats_check_error|apply eats_ret]].
  apply (eats_for_range (enc_fun (c_version c) debug) af cf); [reflexivity|].
  intros p f q E2. rewrite E2 in F. apply Forall_app in F. destruct F as [_ F].
  apply Forall_cons_iff in F. destruct F as [Hf _].
  replace (cf (p ++ [f])) with (af (p ++ [f])) by (unfold cf; now rewrite zlen_snoc_n0).
  assert (Q : af (p ++ [f]) = set_functions (map (view_fun debug ts) p ++ [view_fun debug ts f]) (af p))
    by (unfold af; rewrite map_app; reflexivity).
  rewrite Q.
  apply (eats_function_entry ss ts (cf p) (af p) (zlen p) f debug (map (view_fun debug ts) p)); auto.
  - destruct X. split; auto.
  - now rewrite zlen_map.
Qed.

Definition view_constant (k : Z * list Z) : constant :=
  {| k_global := fst k; k_nfields := zlen (snd k); k_fields := snd k |}.
Lemma set_constants_id c : set_constants (c_constants c) c = c.
Proof. destruct c; reflexivity. Qed.
Lemma eats_constants d c ks : c_nconstants c = zlen ks -> c_constants c = [] ->
  Forall (fun k => usmall (fst k) /\ usmall (zlen (snd k)) /\ Forall usmall (snd k)) ks ->
  let c' := set_constants (map view_constant ks) c in
  eats d (read_constants c)
    (flat_map (fun k => enc_index (fst k) ++ enc_index (zlen (snd k)) ++ flat_map enc_index (snd k)) ks)
    c' (if zlen ks =? 0 then d else c').
Proof.
  intros E E0 F c'. unfold read_constants. rewrite E.
  set (af := fun p => set_constants (map view_constant p) c).
  set (cf := fun p : list (Z * list Z) => if zlen p =? 0 then d else af p).
  change c' with (af ks). change (if zlen ks =? 0 then d else af ks) with (cf ks).
  replace c with (af []) at 1 by (unfold af; cbn [map]; rewrite <- E0; apply set_constants_id).
  apply (eats_for_range (fun k : Z * list Z => enc_index (fst k) ++ enc_index (zlen (snd k)) ++ flat_map enc_index (snd k)) af cf); [reflexivity|].
  intros p k q E2. rewrite E2 in F. apply Forall_app in F. destruct F as [_ F].
  apply Forall_cons_iff in F. destruct F as [(H1 & H2 & H3) _].
  eapply eats_bind; [apply eats_unwrap_mapped, eats_UINDEX; exact H1|].
  eapply eats_bind; [apply eats_unwrap_mapped, eats_UINDEX; exact H2|].
  eapply eats_bind_last.
  { apply (eats_for_range enc_index (fun p => p) (fun _ => cf p)); [reflexivity|].
    intros p' x q' E3. rewrite E3 in H3. apply Forall_app in H3. destruct H3 as [_ H3].
    apply Forall_cons_iff in H3. destruct H3 as [Hx _].
    eapply eats_bind_last; [apply eats_unwrap_mapped, eats_UINDEX; exact Hx|]. now apply eats_insert_end. }
  eapply eats_bind_nil; [apply eats_check_error|].
  replace (cf (p ++ [k])) with (af (p ++ [k])) by (unfold cf; now rewrite zlen_snoc_n0).
  eapply eats_bind_nil. { apply eats_insert_end. unfold af. cbn. now rewrite zlen_map. }
  cbv zeta.
  replace (af (p ++ [k])) with (set_constants (c_constants (af p) ++ [view_constant k]) (af p))
    by (unfold af; rewrite map_app; reflexivity).
  eapply eats_bind_nil; [apply eats_put_code|]. apply eats_ret.
Qed.

(** The state of the name cache after reading module [m]. *)
Definition final_cache (m : amod) : list (option str) :=
  cache (am_strings m) (flat_map names_of (am_types m)) (zrepeat None (zlen (am_strings m))).

Lemma if_same {A} (b : bool) (x : A) : (if b then x else x) = x.
Proof. destruct b; reflexivity. Qed.

(** [decoder.code] is never set when there is nothing after the string and byte tables. *)
Definition nothing_set (m : amod) : bool :=
  negb (am_debug m) && (zlen (am_types m) =? 0) && (zlen (am_constants m) =? 0).
Definition result_of (m : amod) : code :=
  if nothing_set m then code_new else view_module m (final_cache m).

Lemma eats_module_gen m : encodable m ->
  eats code_new code_read (enc_module m) (result_of m) (result_of m).
Proof.
  intros W. pose proof W as (Wv & Wi & Wi2 & Wf & Wf2 & Ws & Wb & Wb2 & Wb3 & Wb4 & Wd & Wt & Wt2 & Wt3 & Wg & Wg2 & Wn & Wn2 & Wfn & Wfn2 & Wk & Wk2 & Wk4 & We).
  unfold code_read, enc_module, enc_header. cbv zeta.
  rewrite <- !app_assoc.
  eapply eats_bind; [apply eats_read_magic; exact Wv|].
  assert (HR := eats_read_counts code_new m W).
  match type of HR with eats _ _ ?bs _ _ =>
    match goal with |- eats _ _ ?all _ _ =>
      let tl := constr:(flat_map (enc_le 4) (am_ints m) ++ flat_map (enc_le 8) (am_floats m)
         ++ enc_strings (am_strings m)
         ++ (if 5 <=? am_version m then enc_le 4 (zlen (am_bytes m)) ++ am_bytes m ++ flat_map enc_index (am_bytes_pos m) else [])
         ++ (if am_debug m then enc_index (zlen (am_debugfiles m)) ++ enc_strings (am_debugfiles m) else [])
         ++ flat_map enc_atype (am_types m) ++ flat_map enc_index (am_globals m)
         ++ flat_map (fun n => let '(lib, name, t, fi) := n in
                 enc_index lib ++ enc_index name ++ enc_index t ++ enc_index fi) (am_natives m)
         ++ flat_map (enc_fun (am_version m) (am_debug m)) (am_functions m)
         ++ flat_map (fun k => enc_index (fst k) ++ enc_index (zlen (snd k)) ++ flat_map enc_index (snd k)) (am_constants m)) in
      replace all with (bs ++ tl) by (rewrite <- !app_assoc; reflexivity)
    end end.
  eapply eats_bind; [exact HR|]. clear HR.
  set (c0 := header_code m).
  eapply eats_bind.
  { eapply eats_bind_last; [eapply (eats_read_table code_new i32_range (enc_le 4)); [apply eats_i32|reflexivity|exact Wi2]|].
    eapply eats_bind_nil; [apply eats_check_error|apply eats_ret]. }
  set (c1 := set_ints (am_ints m) c0).
  eapply eats_bind.
  { eapply eats_bind_last; [eapply (eats_read_table code_new (fun x => 0 <= x < 2 ^ 64) (enc_le 8)); [apply eats_f64|reflexivity|exact Wf2]|].
    eapply eats_bind_nil; [apply eats_check_error|apply eats_ret]. }
  set (c2 := set_floats (am_floats m) c1).
  eapply eats_bind; [apply eats_string_table; [exact Ws|reflexivity|reflexivity]|].
  set (c3 := str_code (am_strings m) c2).
  set (c4 := if 5 <=? am_version m then set_bytes_pos (am_bytes_pos m) (set_bytes (am_bytes m) c3) else c3).
  eapply eats_bind with (a := c4) (c1 := code_new).
  { unfold c4. destruct (Z.leb_spec 5 (am_version m)).
    - apply eats_bytes_section; auto.
      + cbn. lia.
      + cbn. destruct (Z.leb_spec 5 (am_version m)); [reflexivity|lia].
    - unfold read_bytes_section. change (c_version c3) with (am_version m).
      destruct (Z.leb_spec 5 (am_version m)); [lia|]. apply eats_ret. }
  assert (V4 : c_hasdebug c4 = (if am_debug m then 1 else 0)) by (unfold c4; destruct (5 <=? am_version m); reflexivity).
  set (c5 := if am_debug m then set_debugfiles (am_debugfiles m) (set_ndebugfiles (zlen (am_debugfiles m)) c4) else c4).
  eapply eats_bind with (a := c5) (c1 := if am_debug m then c5 else code_new).
  { unfold c5. destruct (am_debug m) eqn:Dbg.
    - apply eats_debugfiles; [rewrite V4; discriminate|exact Wd].
    - unfold read_debugfiles. rewrite V4. apply eats_ret. }
  set (d5 := if am_debug m then c5 else code_new).
  assert (P5 : c_strings c5 = am_strings m /\ c_nstrings c5 = zlen (am_strings m) /\ c_ntypes c5 = zlen (am_types m)
    /\ c_ustrings c5 = zrepeat None (zlen (am_strings m)) /\ c_nglobals c5 = zlen (am_globals m)
    /\ c_nnatives c5 = zlen (am_natives m) /\ c_nfunctions c5 = zlen (am_functions m)
    /\ c_nconstants c5 = zlen (am_constants m) /\ c_functions c5 = [] /\ c_constants c5 = [] /\
    c_globals c5 = [] /\ c_natives c5 = [] /\ c_types c5 = [] /\
    c_hasdebug c5 = (if am_debug m then 1 else 0) /\ c_version c5 = am_version m /\
    c_ndebugfiles c5 = (if am_debug m then zlen (am_debugfiles m) else 0)).
  { unfold c5, c4. destruct (am_debug m) eqn:E1, (5 <=? am_version m) eqn:E2; repeat split;
      try reflexivity; cbn; rewrite ?E1; reflexivity. }
  destruct P5 as (P1 & P2 & P3 & P4 & P5 & P6 & P7 & P8 & P9 & P10 & P11 & P12 & P13 & P14 & P15 & P16).
  assert (K : cache_ok (am_strings m) (c_ustrings c5) (flat_map names_of (am_types m))).
  { rewrite P4. apply cache_ok_init; [|exact Wt3].
    apply Forall_flat_map. eapply Forall_impl; [|exact Wt2]. intros t Ht. apply Ht. }
  eapply eats_bind.
  { apply (eats_read_types (am_strings m) (am_types m) d5 c5); auto. apply Ws. }
  set (ts := view_types (am_strings m) (am_types m)).
  set (c6 := set_types _ _).
  assert (E6 : c_ustrings c6 = final_cache m).
  { unfold c6, final_cache. cbn. now rewrite P4. }
  assert (Lts : zlen ts = zlen (am_types m)) by apply view_types_len.
  set (d6 := if zlen (am_types m) =? 0 then d5 else c6).
  assert (X6 : tctx (am_strings m) ts c6).
  { unfold tctx. rewrite Lts. split; auto; try apply Ws. lia. }
  assert (D6 : am_debug m = true \/ am_types m <> [] -> d6 = c6).
  { unfold d6. intros [H|H].
    - destruct (Z.eqb_spec (zlen (am_types m)) 0) as [Z0|]; [|reflexivity].
      apply zlen_0 in Z0. unfold d5. rewrite H. unfold c6, ts. rewrite Z0. cbn [flat_map cache fold_left view_types app map]. change (zrepeat vt_default (zlen [])) with (@nil vtype). cbn [app]. rewrite set_ustrings_id.
      rewrite <- P13. destruct c5; reflexivity.
    - destruct (Z.eqb_spec (zlen (am_types m)) 0) as [Z0|]; [|reflexivity]. apply zlen_0 in Z0. contradiction. }
  eapply eats_bind; [apply (eats_globals (am_strings m) ts d6 c6 (am_globals m) X6); [exact P5|rewrite Lts; exact Wg2]|].
  set (c7 := set_globals _ _). set (d7 := if zlen (am_globals m) =? 0 then d6 else c7).
  assert (D7 : am_debug m = true \/ am_types m <> [] -> d7 = c7).
  { intros H. unfold d7. rewrite D6 by auto. destruct (Z.eqb_spec (zlen (am_globals m)) 0) as [Z0|]; [|reflexivity].
    apply zlen_0 in Z0. unfold c7. rewrite Z0. cbn [map app]. change (zrepeat vt_default (zlen [])) with (@nil vtype).
    assert (G : c_globals c6 = []) by exact P11. rewrite <- G. destruct c6; reflexivity. }
  assert (X7 : tctx (am_strings m) ts c7) by (destruct X6; split; auto).
  eapply eats_bind.
  { apply (eats_natives (am_strings m) ts d7 c7 (am_natives m) X7); [|exact P6|rewrite Lts; exact Wn2].
    intros Ne. rewrite D7; [exact X7|]. right. intros T0. rewrite T0 in Wn2.
    destruct (am_natives m) as [|[[[lib name] t] fi] r]; [congruence|].
    apply Forall_cons_iff in Wn2. destruct Wn2 as [(_ & _ & H & _) _]. change (zlen []) with 0 in H. lia. }
  set (c8 := set_natives _ _). set (d8 := if zlen (am_natives m) =? 0 then d7 else c8).
  assert (D8 : am_debug m = true \/ am_types m <> [] -> d8 = c8).
  { intros H. unfold d8. rewrite D7 by auto. destruct (Z.eqb_spec (zlen (am_natives m)) 0) as [Z0|]; [|reflexivity].
    apply zlen_0 in Z0. unfold c8. rewrite Z0. cbn [map].
    assert (G : c_natives c7 = []) by exact P12. rewrite <- G. destruct c7; reflexivity. }
  assert (X8 : tctx (am_strings m) ts c8) by (destruct X7; split; auto).
  eapply eats_bind.
  { assert (V8 : c_version c8 = am_version m) by exact P15. rewrite <- V8.
    assert (Q8 : c_ndebugfiles c8 = if am_debug m then zlen (am_debugfiles m) else 0) by exact P16.
    apply (eats_functions (am_strings m) ts d8 c8 (am_functions m) (am_debug m) X8); auto.
    - rewrite Q8. destruct Wd as [Wd _]. unfold usmall in Wd. unfold I32_MAX. destruct (am_debug m); lia.
    - rewrite Q8, Lts. destruct (am_debug m) eqn:Dbg; [exact Wfn2|].
      eapply Forall_impl; [|exact Wfn2]. intros f (A1 & A2 & A3 & A4 & A5 & A6 & A7).
      unfold wf_fun. repeat (split; [assumption|]). discriminate. }
  set (c9 := set_functions _ _). set (d9 := if zlen (am_functions m) =? 0 then d8 else c9).
  assert (D9 : am_debug m = true \/ am_types m <> [] -> d9 = c9).
  { intros H. unfold d9. rewrite D8 by auto. destruct (Z.eqb_spec (zlen (am_functions m)) 0) as [Z0|]; [|reflexivity].
    apply zlen_0 in Z0. unfold c9. rewrite Z0. cbn [map].
    assert (G : c_functions c8 = []) by exact P9. rewrite <- G. destruct c8; reflexivity. }
  eapply eats_bind_last; [apply (eats_constants d9 c9 (am_constants m)); [exact P8|exact P10|exact Wk2]|].
  set (c10 := set_constants _ _).
  assert (D10 : (if zlen (am_constants m) =? 0 then d9 else c10) = if nothing_set m then code_new else c10).
  { unfold nothing_set. destruct (Z.eqb_spec (zlen (am_constants m)) 0) as [Z0|].
    2:{ now rewrite andb_false_r. }
    apply zlen_0 in Z0.
    assert (E10 : c10 = c9).
    { unfold c10. rewrite Z0. cbn [map].
      assert (G : c_constants c9 = []) by exact P10. rewrite <- G. destruct c9; reflexivity. }
    destruct (am_debug m) eqn:Dbg; [cbn; rewrite D9 by auto; now rewrite E10|].
    destruct (Z.eqb_spec (zlen (am_types m)) 0) as [T0|Tn].
    2:{ cbn. rewrite E10. apply D9. right. intros T. apply Tn. now rewrite T. }
    cbn. apply zlen_0 in T0.
    assert (G0 : am_globals m = []).
    { destruct (am_globals m) as [|g r]; [auto|]. apply Forall_cons_iff in Wg2. destruct Wg2 as [H _].
      rewrite T0 in H. change (zlen []) with 0 in H. lia. }
    assert (N0 : am_natives m = []).
    { destruct (am_natives m) as [|[[[lib name] t] fi] r]; [auto|]. apply Forall_cons_iff in Wn2.
      destruct Wn2 as [(_ & _ & H & _) _]. rewrite T0 in H. change (zlen []) with 0 in H. lia. }
    assert (F0 : am_functions m = []).
    { destruct (am_functions m) as [|f r]; [auto|]. apply Forall_cons_iff in Wfn2.
      destruct Wfn2 as [(H & _) _]. rewrite T0 in H. change (zlen []) with 0 in H. lia. }
    unfold d9, d8, d7, d6, d5. rewrite F0, N0, G0. reflexivity. }
  unfold result_of. rewrite D10.
  destruct (nothing_set m); [apply eats_get_code|].
  replace (view_module m (final_cache m)) with c10; [apply eats_get_code|].
  rewrite <- E6. 
  assert (B5 : c_bytes c5 = (if 5 <=? am_version m then am_bytes m else [])
    /\ c_bytes_pos c5 = (if 5 <=? am_version m then am_bytes_pos m else [])
    /\ c_debugfiles c5 = (if am_debug m then am_debugfiles m else [])
    /\ c_strings_lens c5 = map zlen (am_strings m) /\ c_nints c5 = zlen (am_ints m)
    /\ c_ints c5 = am_ints m /\ c_nfloats c5 = zlen (am_floats m) /\ c_floats c5 = am_floats m
    /\ c_nbytes c5 = (if 5 <=? am_version m then zlen (am_bytes_pos m) else 0)
    /\ c_entrypoint c5 = am_entrypoint m /\ c_debugfiles_lens c5 = []).
  { unfold c5, c4. destruct (am_debug m) eqn:E1, (5 <=? am_version m) eqn:E2; repeat split;
      try reflexivity; cbn; rewrite ?E1, ?E2; reflexivity. }
  destruct B5 as (B1 & B2 & B3 & B4 & B6 & B7 & B8 & B9 & B10 & B11 & B12).
  apply code_ext; first [reflexivity | assumption].
Qed.

Lemma eats_module m : wf_module m ->
  eats code_new code_read (enc_module m) (view_module m (final_cache m)) (view_module m (final_cache m)).
Proof.
  intros [W N]. pose proof (eats_module_gen m W) as E. unfold result_of in E.
  replace (nothing_set m) with false in E; [exact E|]. unfold nothing_set. symmetry.
  destruct N as [->|[N|N]]; [reflexivity| |].
  - destruct (Z.eqb_spec (zlen (am_types m)) 0) as [T0|]; [apply zlen_0 in T0; contradiction|].
    now rewrite andb_false_r.
  - destruct (Z.eqb_spec (zlen (am_constants m)) 0) as [T0|]; [apply zlen_0 in T0; contradiction|].
    now rewrite andb_false_r.
Qed.
