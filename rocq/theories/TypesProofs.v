(** The type table. *)
From Verif Require Import Prelude StdModel BrassTypes DecoderModel CodeModel FormatSpec CodeGenericProofs
  Utf8Proofs FormatProofs StringsProofs.
From Coq Require Import Lia.

(** [decoder.code] while a type entry is read: strings [ss], types [ts] decoded out of [nt]. *)
Record ctx (ss : list str) (ts : list vtype) (nt : Z) (c : code) : Prop := {
  x_strings : c_strings c = ss; x_nstrings : c_nstrings c = zlen ss; x_sn : usmall (zlen ss);
  x_ntypes : c_ntypes c = nt; x_tn : usmall nt; x_types : c_types c = ts ++ zrepeat vt_default nt;
  x_le : zlen ts <= nt }.

Section Types.
Variables (ss : list str) (ts : list vtype) (nt : Z) (c : code).
Hypothesis X : ctx ss ts nt c.
Notation U u := (set_ustrings u c).

Lemma ctx_U u : ctx ss ts nt (U u).
Proof. destruct X. split; cbn; auto. Qed.

Lemma eats_name u n : cache_ok ss u [n] ->
  eats (U u) read_ustring (enc_index n) (nm ss n) (U (cache1 ss u n)).
Proof.
  intros H. pose proof (eats_read_ustring (U u) n) as E. destruct X as [E1 E2 E3 _ _ _].
  cbn in E. rewrite E1, E2 in E. apply E; auto.
Qed.

Lemma table_nth k : 0 <= k < nt -> znth (ts ++ zrepeat vt_default nt) k = Some (ty ts k).
Proof.
  intros H. destruct X as [_ _ _ _ _ _ L]. unfold ty.
  destruct (Z.ltb_spec k (zlen ts)).
  - rewrite znth_app_l by lia. apply znth_nth. lia.
  - rewrite znth_app_r by lia. pose proof (zlen_nonneg ts). rewrite znth_repeat by lia.
    rewrite nth_overflow; [reflexivity|]. unfold zlen in *. lia.
Qed.
Lemma eats_type u k : 0 <= k < nt -> eats (U u) get_type (enc_index k) (ty ts k) (U u).
Proof.
  intros H. destruct X as [_ _ _ E4 E5 E6 _]. unfold get_type, usmall in *.
  eapply eats_bind_last. { apply eats_unwrap, eats_INDEX. unfold small. lia. }
  eapply eats_bind_nil; [apply eats_get_code|].
  eapply eats_bind_nil. { apply eats_to_i32. cbn. unfold I32_MAX. lia. }
  change (c_ntypes (U u)) with (c_ntypes c). change (c_types (U u)) with (c_types c).
  rewrite E4, E6.
  destruct (Z.ltb_spec k 0), (Z.leb_spec nt k); try lia. cbn [orb].
  apply eats_expect. now apply table_nth.
Qed.

Lemma eats_type_refs u ks n : n = zlen ks -> Forall (fun k => 0 <= k < nt) ks ->
  eats (U u) (read_type_refs n) (flat_map enc_index ks) (map (ty ts) ks) (U u).
Proof.
  intros -> F. unfold read_type_refs.
  apply (eats_for_range enc_index (map (ty ts)) (fun _ => U u)); [reflexivity|].
  intros p k q ->. apply Forall_app in F. destruct F as [_ F]. apply Forall_cons_iff in F. destruct F as [Hk _].
  eapply eats_bind_last. { apply eats_unwrap. now apply eats_type. }
  rewrite map_app. apply eats_insert_end. now rewrite zlen_map.
Qed.

Lemma eats_fields u fs n : n = zlen fs -> cache_ok ss u (map fst fs) ->
  Forall (fun k => 0 <= k < nt) (map snd fs) ->
  eats (U u) (read_fields n) (flat_map (fun f => enc_index (fst f) ++ enc_index (snd f)) fs)
    (map (view_field ss ts) fs) (U (cache ss (map fst fs) u)).
Proof.
  intros -> K F. unfold read_fields.
  apply (eats_for_range (fun f : Z * Z => enc_index (fst f) ++ enc_index (snd f)) (map (view_field ss ts))
           (fun p => U (cache ss (map fst p) u))); [reflexivity|].
  intros p f q ->. rewrite map_app in F, K. apply Forall_app in F. destruct F as [_ F].
  cbn [map] in F, K. apply Forall_cons_iff in F. destruct F as [Hk _].
  apply cache_ok_app in K. destruct K as [_ K].
  eapply eats_bind. { apply eats_unwrap, eats_name. cbn in *. tauto. }
  eapply eats_bind_last. { apply eats_unwrap. apply eats_type. exact Hk. }
  rewrite !map_app, cache_app. apply eats_insert_end. now rewrite zlen_map.
Qed.

Lemma eats_protos u ps n : n = zlen ps -> cache_ok ss u (map (fun p => fst (fst p)) ps) ->
  Forall (fun p => usmall (snd (fst p)) /\ small (snd p)) ps ->
  eats (U u) (read_protos n)
    (flat_map (fun p => enc_index (fst (fst p)) ++ enc_index (snd (fst p)) ++ enc_index (snd p)) ps)
    (map (fun p => mkProto (nm ss (fst (fst p))) (crc32 (nm ss (fst (fst p)))) (snd (fst p)) (snd p)) ps)
    (U (cache ss (map (fun p => fst (fst p)) ps) u)).
Proof.
  intros -> K F. unfold read_protos.
  apply (eats_for_range (fun p : Z * Z * Z => enc_index (fst (fst p)) ++ enc_index (snd (fst p)) ++ enc_index (snd p))
     (map (fun p => mkProto (nm ss (fst (fst p))) (crc32 (nm ss (fst (fst p)))) (snd (fst p)) (snd p)))
     (fun ps => U (cache ss (map (fun p => fst (fst p)) ps) u))); [reflexivity|].
  intros p f q ->. rewrite map_app in K. apply Forall_app in F. destruct F as [_ F].
  cbn [map] in K. apply Forall_cons_iff in F. destruct F as [[H1 H2] _].
  apply cache_ok_app in K. destruct K as [_ K].
  eapply eats_bind. { apply eats_unwrap, eats_name. cbn in *. tauto. }
  eapply eats_bind. { apply eats_unwrap, eats_UINDEX. exact H1. }
  eapply eats_bind_last. { apply eats_unwrap, eats_INDEX. exact H2. }
  rewrite !map_app, cache_app. apply eats_insert_end. now rewrite zlen_map.
Qed.

Lemma zlen_pairs (l : list (Z * Z)) : zlen (flat_map (fun b => [fst b; snd b]) l) = 2 * zlen l.
Proof. induction l; [reflexivity|]. cbn [flat_map]. rewrite zlen_app, !zlen_cons. change (zlen []) with 0. lia. Qed.

Lemma eats_bindings u bs n : n = zlen bs -> Forall (fun b => usmall (fst b) /\ usmall (snd b)) bs ->
  eats (U u) (read_bindings n) (flat_map (fun b => enc_index (fst b) ++ enc_index (snd b)) bs)
    (flat_map (fun b => [fst b; snd b]) bs) (U u).
Proof.
  intros -> F. unfold read_bindings.
  apply (eats_for_range (fun b : Z * Z => enc_index (fst b) ++ enc_index (snd b))
     (flat_map (fun b => [fst b; snd b])) (fun _ => U u)); [reflexivity|].
  intros p b q ->. apply Forall_app in F. destruct F as [_ F].
  apply Forall_cons_iff in F. destruct F as [[H1 H2] _].
  eapply eats_bind. { apply eats_unwrap, eats_UINDEX. exact H1. }
  eapply eats_bind_nil. { apply eats_insert_end. now rewrite zlen_pairs. }
  eapply eats_bind_last. { apply eats_unwrap, eats_UINDEX. exact H2. }
  rewrite flat_map_app. cbn [flat_map]. rewrite app_nil_r.
  replace (flat_map (fun b => [fst b; snd b]) p ++ [fst b; snd b])
    with ((flat_map (fun b => [fst b; snd b]) p ++ [fst b]) ++ [snd b]) by now rewrite <- app_assoc.
  apply eats_insert_end. rewrite zlen_app, zlen_pairs, zlen_cons. change (zlen []) with 0. lia.
Qed.

Lemma eats_constructs u cs n : n = zlen cs -> cache_ok ss u (map fst cs) ->
  Forall (fun k => 0 <= k < nt) (flat_map snd cs) -> Forall (fun c => usmall (zlen (snd c))) cs ->
  eats (U u) (read_constructs n)
    (flat_map (fun c => enc_index (fst c) ++ enc_index (zlen (snd c)) ++ flat_map enc_index (snd c)) cs)
    (map (fun c => mkCon (nm ss (fst c)) (zlen (snd c)) (map (ty ts) (snd c)) 0 false []) cs)
    (U (cache ss (map fst cs) u)).
Proof.
  intros -> K F G. unfold read_constructs.
  apply (eats_for_range (fun c : Z * list Z => enc_index (fst c) ++ enc_index (zlen (snd c)) ++ flat_map enc_index (snd c))
     (map (fun c : Z * list Z => mkCon (nm ss (fst c)) (zlen (snd c)) (map (ty ts) (snd c)) 0 false []))
     (fun p => U (cache ss (map fst p) u))); [reflexivity|].
  intros p f q ->. rewrite map_app in K. rewrite flat_map_app in F. cbn [flat_map map] in F, K.
  apply Forall_app in F. destruct F as [_ F]. apply Forall_app in F. destruct F as [F _].
  apply Forall_app in G. destruct G as [_ G]. apply Forall_cons_iff in G. destruct G as [G _].
  apply cache_ok_app in K. destruct K as [_ K].
  eapply eats_bind. { apply eats_unwrap, eats_name. cbn in *. tauto. }
  eapply eats_bind. { apply eats_unwrap, eats_UINDEX. exact G. }
  eapply eats_bind_last. { apply eats_type_refs; [reflexivity|exact F]. }
  rewrite !map_app, cache_app. apply eats_insert_end. now rewrite zlen_map.
Qed.

Ltac kinds := lazy beta iota zeta delta [HLAST HFUN HMETHOD HOBJ HSTRUCT HREF HVIRTUAL HABSTRACT HENUM
  HNULL HPACKED HVOID HUI8 HUI16 HI32 HI64 HF32 HF64 HBOOL HBYTES HDYN HARRAY HTYPE HDYNOBJ
  Z.leb Z.eqb Z.compare Pos.compare Pos.compare_cont Pos.eqb orb].

Lemma eats_read_type u t : wf_atype (zlen ss) nt t -> cache_ok ss u (names_of t) ->
  eats (U u) read_type (enc_atype t) (view_type ss ts t) (U (cache ss (names_of t) u)).
Proof.
  intros (Wn & Wr & W) K. unfold read_type.
  destruct t as [k|m args r|st n sup g fs ps bs|fs|n|n g cs|k t]; cbn [enc_atype view_type names_of refs_of] in *.
  - rewrite <- (app_nil_r [k]). eapply eats_bind; [apply eats_unwrap, eats_u8|].
    cbn [prim_kinds In] in W.
    repeat (destruct W as [<-|W]; [kinds; apply eats_ret|]). contradiction.
  - change (?a :: ?b) with ([a] ++ b). eapply eats_bind; [apply eats_unwrap, eats_u8|].
    assert (eats (U u)
      (nargs <- unwrap decode_u8;; args0 <- read_type_refs nargs;; r0 <- unwrap get_type;;
        ret (VT (FuncType args0 nargs r0) None None (if m then HMETHOD else HFUN)))
      ([zlen args] ++ flat_map enc_index args ++ enc_index r)
      (VT (FuncType (map (ty ts) args) (zlen args) (ty ts r)) None None (if m then HMETHOD else HFUN)) (U u)).
    { apply Forall_app in Wr. destruct Wr as [Wa Wr]. apply Forall_cons_iff in Wr. destruct Wr as [Wr _].
      eapply eats_bind; [apply eats_unwrap, eats_u8|].
      eapply eats_bind; [apply eats_type_refs; [reflexivity|exact Wa]|].
      eapply eats_bind_last; [apply eats_unwrap, eats_type; exact Wr|]. apply eats_ret. }
    destruct m; exact H.
  - change (?a :: ?b) with ([a] ++ b). eapply eats_bind; [apply eats_unwrap, eats_u8|].
    destruct W as (Wg & Wf & Wp & Wb & Wps & Wbs).
    cbn [cache_ok] in K. destruct K as (K1 & K2 & K).
    apply cache_ok_app in K. destruct K as [K3 K4].
    apply Forall_app in Wr. destruct Wr as [Ws Wr].
    assert (eats (U u)
      (name <- unwrap read_ustring;; super_index <- unwrap INDEX;; c0 <- get_code;;
       super <- (if super_index <? 0 then ret vt_default else expect PUnwrap (znth (c_types c0) super_index));;
       g0 <- unwrap UINDEX;; nfields <- unwrap UINDEX;; nproto <- unwrap UINDEX;; nbindings <- unwrap UINDEX;;
       fields <- read_fields nfields;; proto <- read_protos nproto;; bindings <- read_bindings nbindings;;
       ret (VT (ObjType name super fields nfields nproto nbindings proto bindings [g0] None) None None
              (if st then HSTRUCT else HOBJ)))
      (enc_index n ++ enc_index match sup with Some k => k | None => -1 end ++ enc_index g ++
       enc_index (zlen fs) ++ enc_index (zlen ps) ++ enc_index (zlen bs) ++
       flat_map (fun f => enc_index (fst f) ++ enc_index (snd f)) fs ++
       flat_map (fun p => enc_index (fst (fst p)) ++ enc_index (snd (fst p)) ++ enc_index (snd p)) ps ++
       flat_map (fun b => enc_index (fst b) ++ enc_index (snd b)) bs)
      (VT (ObjType (nm ss n) match sup with Some k => ty ts k | None => vt_default end
         (map (view_field ss ts) fs) (zlen fs) (zlen ps) (zlen bs)
         (map (fun p => mkProto (nm ss (fst (fst p))) (crc32 (nm ss (fst (fst p)))) (snd (fst p)) (snd p)) ps)
         (flat_map (fun b => [fst b; snd b]) bs) [g] None) None None (if st then HSTRUCT else HOBJ))
      (U (cache ss (n :: map fst fs ++ map (fun p => fst (fst p)) ps) u))).
    { eapply eats_bind. { apply eats_unwrap, eats_name. cbn. auto. }
      eapply eats_bind. { apply eats_unwrap, eats_INDEX.
        destruct sup as [k|]; [|unfold small; lia]. apply Forall_cons_iff in Ws. destruct Ws as [Ws _].
        destruct X as [_ _ _ _ E5 _ _]. unfold small, usmall in *. lia. }
      eapply eats_bind_nil; [apply eats_get_code|].
      eapply eats_bind_nil with (a := match sup with Some k => ty ts k | None => vt_default end).
      { destruct sup as [k|]; [|apply eats_ret]. apply Forall_cons_iff in Ws. destruct Ws as [Ws _].
        destruct (Z.ltb_spec k 0); [lia|]. apply eats_expect.
        change (c_types (U (cache1 ss u n))) with (c_types c). destruct X as [_ _ _ _ _ E6 _].
        rewrite E6. apply table_nth. exact Ws. }
      eapply eats_bind; [apply eats_unwrap, eats_UINDEX; exact Wg|].
      eapply eats_bind; [apply eats_unwrap, eats_UINDEX; exact Wf|].
      eapply eats_bind; [apply eats_unwrap, eats_UINDEX; exact Wp|].
      eapply eats_bind; [apply eats_unwrap, eats_UINDEX; exact Wb|].
      eapply eats_bind; [apply eats_fields; [reflexivity|exact K3|exact Wr]|].
      eapply eats_bind; [apply eats_protos; [reflexivity|exact K4|exact Wps]|].
      eapply eats_bind_last; [apply eats_bindings; [reflexivity|exact Wbs]|].
      change (n :: map fst fs ++ map (fun p => fst (fst p)) ps) with ([n] ++ map fst fs ++ map (fun p => fst (fst p)) ps).
      rewrite !cache_app. apply eats_ret. }
    destruct st; exact H.
  - change (?a :: ?b) with ([a] ++ b). eapply eats_bind; [apply eats_unwrap, eats_u8|]. kinds.
    eapply eats_bind; [apply eats_unwrap, eats_UINDEX; exact W|].
    eapply eats_bind_last; [apply eats_fields; [reflexivity|exact K|exact Wr]|]. apply eats_ret.
  - change (?a :: ?b) with ([a] ++ b). eapply eats_bind; [apply eats_unwrap, eats_u8|]. kinds.
    eapply eats_bind_last; [apply eats_unwrap, eats_name; exact K|]. apply eats_ret.
  - change (?a :: ?b) with ([a] ++ b). eapply eats_bind; [apply eats_unwrap, eats_u8|]. kinds.
    destruct W as (Wg & Wc & Wps). cbn [cache_ok] in K. destruct K as (K1 & K2 & K).
    eapply eats_bind. { apply eats_unwrap, eats_name. cbn. auto. }
    eapply eats_bind; [apply eats_unwrap, eats_UINDEX; exact Wg|].
    eapply eats_bind; [apply eats_unwrap, eats_UINDEX; exact Wc|].
    eapply eats_bind_last; [apply eats_constructs; [reflexivity|exact K|exact Wr|exact Wps]|]. apply eats_ret.
  - change (?a :: ?b) with ([a] ++ b). eapply eats_bind; [apply eats_unwrap, eats_u8|].
    apply Forall_cons_iff in Wr. destruct Wr as [Wr _]. cbn [param_kinds In] in W.
    repeat (destruct W as [<-|W]; [kinds; eapply eats_bind_last; [apply eats_unwrap, eats_type; exact Wr|];
      apply eats_ret|]). contradiction.
Qed.
End Types.

(** * The whole table *)
Lemma view_types_snoc ss ats t : view_types ss (ats ++ [t]) = view_types ss ats ++ [view_type ss (view_types ss ats) t].
Proof. unfold view_types. now rewrite fold_left_app. Qed.
Lemma view_types_len ss ats : zlen (view_types ss ats) = zlen ats.
Proof.
  induction ats as [|t ats IH] using rev_ind; [reflexivity|].
  rewrite view_types_snoc, !zlen_app, IH. reflexivity.
Qed.

Lemma set_types_set_types a b c : set_types a (set_types b c) = set_types a c.
Proof. reflexivity. Qed.

Lemma eats_read_types ss ats c0 c :
  c_strings c = ss -> c_nstrings c = zlen ss -> usmall (zlen ss) ->
  c_ntypes c = zlen ats -> usmall (zlen ats) ->
  Forall (wf_atype (zlen ss) (zlen ats)) ats -> cache_ok ss (c_ustrings c) (flat_map names_of ats) ->
  let c' := set_types (view_types ss ats ++ zrepeat vt_default (zlen ats))
              (set_ustrings (cache ss (flat_map names_of ats) (c_ustrings c)) c) in
  eats c0 (read_types c) (flat_map enc_atype ats) c' (if zlen ats =? 0 then c0 else c').
Proof.
  intros E1 E2 E3 E4 E5 F K c'. unfold read_types. rewrite E4.
  set (af := fun p => set_types (view_types ss p ++ zrepeat vt_default (zlen ats))
              (set_ustrings (cache ss (flat_map names_of p) (c_ustrings c)) c)).
  set (cf := fun p : list atype => if zlen p =? 0 then c0 else af p).
  change c' with (af ats).
  assert (A0 : set_types (zrepeat vt_default (zlen ats)) c = af []).
  { unfold af. cbn. rewrite set_ustrings_id. reflexivity. }
  rewrite A0.
  replace (if zlen ats =? 0 then c0 else af ats) with (cf ats) by reflexivity.
  change (eats (cf []) (for_range (zlen ats) (fun i c => put_code c ;;; t <- read_type ;; dc <- get_code ;;
    ts <- vec_insert (c_types dc) i t ;; put_code (set_types ts dc) ;;; get_code) (af []))
    (flat_map enc_atype ats) (af ats) (cf ats)).
  apply (eats_for_range enc_atype af cf); [reflexivity|].
  intros p t q ->. apply Forall_app in F. destruct F as [_ F]. apply Forall_cons_iff in F. destruct F as [Ft _].
  rewrite flat_map_app in K. cbn [flat_map] in K. apply cache_ok_app in K. destruct K as [_ K].
  apply cache_ok_app in K. destruct K as [K _].
  set (nt := zlen (p ++ t :: q)) in *.
  assert (X : ctx ss (view_types ss p) nt (af p)).
  { unfold af, nt. split; cbn; auto. rewrite view_types_len, zlen_app. pose proof (zlen_nonneg (t :: q)). lia. }
  eapply eats_bind_nil; [apply eats_put_code|].
  eapply eats_bind_last.
  { pose proof (eats_read_type ss (view_types ss p) nt (af p) X (c_ustrings (af p)) t Ft K) as H.
    rewrite set_ustrings_id in H. exact H. }
  eapply eats_bind_nil; [apply eats_get_code|].
  set (c1 := set_ustrings (cache ss (names_of t) (c_ustrings (af p))) (af p)).
  assert (T1 : c_types c1 = view_types ss p ++ zrepeat vt_default nt) by reflexivity.
  eapply eats_bind_nil.
  { apply eats_expect. rewrite T1. apply zinsert_mid. now rewrite view_types_len. }
  eapply eats_bind_nil; [apply eats_put_code|].
  assert (A1 : set_types (view_types ss p ++ view_type ss (view_types ss p) t :: zrepeat vt_default nt) c1 = af (p ++ [t])).
  { unfold af, c1. rewrite view_types_snoc, <- app_assoc. rewrite flat_map_app. cbn [flat_map].
    rewrite app_nil_r, cache_app. reflexivity. }
  rewrite A1.
  replace (cf (p ++ [t])) with (af (p ++ [t])).
  - apply eats_get_code.
  - unfold cf. rewrite zlen_app. pose proof (zlen_nonneg p). change (zlen [t]) with 1.
    destruct (Z.eqb_spec (zlen p + 1) 0); [lia|reflexivity].
Qed.
