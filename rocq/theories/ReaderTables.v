(** Globals, natives, functions and constants of accepted modules; the whole read. *)
From Verif Require Import Prelude StdModel BrassTypes DecoderModel CodeModel FormatSpec ReaderSpec AcceptSpec
  CodeGenericProofs Utf8Proofs FormatProofs StringsProofs TypesProofs OpsProofs ModuleProofs ReaderPost ReaderSizes.
From Coq Require Import Lia.
Ltac hb H := eapply h_bind_val; [first [apply h_unwrap, H | apply h_unwrap_mapped, H | apply H]|good|intros; good|]; cbv beta.

Lemma h_read_string ss (P : code -> Prop) : (forall d, P d -> forall x, In x (c_strings d) -> In x ss) ->
  hoare P read_string (fun n d => In n ss /\ P d).
Proof.
  intros HT. unfold read_string.
  eapply h_bind with (Q := fun _ => P); [apply h_keep, r_unwrap_mapped, r_INDEX, pre_eq|good|intros; good|].
  intros i s n s' B HP E N. unfold bind in E. cbn [get_code] in E.
  destruct (to_i32 (c_nstrings (d_code s)) s) as [[m|e|p] s1] eqn:E1; try discriminate.
  pose proof (r_to_i32 _ pre_eq _ _ _ _ E1) as D1. cbv beta in D1.
  destruct ((i <? 0) || (m <=? i)).
  - inversion E; subst. discriminate.
  - destruct (znth (c_strings (d_code s)) i) eqn:Z; inversion E; subst. rewrite <- D1. split; [|auto].
    apply znth_In in Z. eapply HT; eauto.
Qed.

Definition typed (D : list vtype) (d : code) : Prop := forall i x, 0 <= i < c_ntypes d -> znth (c_types d) i = Some x -> In x D.
Lemma typed_intro D r d : c_types d = D ++ r -> c_ntypes d = zlen D -> typed D d.
Proof. intros E N i x Hi Z. rewrite E, znth_app_l in Z by lia. eapply znth_In, Z. Qed.
Lemma typed_new D : typed D code_new. Proof. intros i x Hi. cbn in Hi. lia. Qed.

(** * Globals *)
Lemma h_read_globals D d0 c : 0 <= c_nglobals c -> typed D c ->
  hoare (fun d => d = d0) (read_globals c) (fun c' d =>
    (exists G, c' = set_globals (G ++ zrepeat vt_default (c_nglobals c)) c /\ zlen G = c_nglobals c /\ Forall (fun t => In t D) G) /\
    (d = c' \/ (c_nglobals c = 0 /\ d = d0))).
Proof.
  intros Hn HT. unfold read_globals.
  set (Inv := fun j c' (d : code) =>
    (exists G, c' = set_globals (G ++ zrepeat vt_default (c_nglobals c)) c /\ zlen G = j /\ Forall (fun t => In t D) G) /\
    (d = c' \/ (j = 0 /\ d = d0))).
  eapply h_bind with (Q := fun c' d => Inv (c_nglobals c) c' d); [|good|intros; good|].
  { eapply h_pre; [apply (h_for Inv); [intros; good|exact Hn|]|].
    - intros j c' Hj. unfold Inv. apply h_pure. intros (G & -> & L & F). apply h_put.
      eapply h_bind_val; [apply h_ok_mapped_val, (h_get_type D)|good|intros; good|].
      { intros d ->. exact HT. }
      intros o (t & -> & Ht). set (gs := G ++ _).
      eapply h_bind with (Q := fun _ d => exists gs', zinsert gs j t = Some gs' /\ d = set_globals gs' c); [|good|intros; good|].
      { apply h_get. unfold vec_insert. apply h_exp. cbn [c_globals set_globals]. intros gs' Z.
        intros s u s' B _ E _. inversion E; subst. cbn. exists gs'. auto. }
      intros _. intros s c2 s' B (gs' & Z & E0) E N. inversion E; subst. rewrite E0. split; [|auto].
      unfold gs in Z. rewrite zinsert_mid in Z by reflexivity. injection Z as <-.
      exists (G ++ [t]). split; [rewrite <- app_assoc; reflexivity|]. split; [rewrite zlen_app; reflexivity|].
      apply Forall_app; auto.
    - unfold Inv. cbv beta. intros d ->. split; [|auto]. exists []. repeat split; auto. }
  intros c'. apply h_check, h_ret. unfold Inv. intros d [(gs & -> & L & F) H]. split; [|exact H]. exists gs. repeat split; auto.
Qed.

(** * Natives *)
Lemma set_natives_id c : set_natives (c_natives c) c = c. Proof. destruct c; reflexivity. Qed.
Lemma h_read_natives ss T d0 c : d0 = c \/ d0 = code_new -> 0 <= c_nnatives c -> typed T c -> c_strings c = ss -> c_natives c = [] ->
  hoare (fun d => d = d0) (read_natives c) (fun c' d =>
    (exists ns, c' = set_natives ns c /\ zlen ns = c_nnatives c /\ Forall (native_ok ss T) ns) /\
    (d = c' \/ (c_nnatives c = 0 /\ d = d0))).
Proof.
  intros Hd0 Hn HT HS HN. unfold read_natives.
  set (Inv := fun j c' (d : code) =>
    (exists ns, c' = set_natives ns c /\ zlen ns = j /\ Forall (native_ok ss T) ns) /\
    (d = c' \/ (j = 0 /\ d = d0))).
  eapply h_bind with (Q := fun c' d => Inv (c_nnatives c) c' d); [|good|intros; good|].
  { eapply h_pre; [apply (h_for Inv); [intros; good|exact Hn|]|].
    - intros j c' Hj. unfold Inv. apply h_pure. intros (ns & -> & L & F).
      assert (HP1 : forall d, d = set_natives ns c \/ j = 0 /\ d = d0 -> forall x, In x (c_strings d) -> In x ss).
      { intros d [->|[_ ->]]; cbn; [now rewrite HS|]. destruct Hd0 as [-> | ->]; [now rewrite HS|cbn; tauto]. }
      assert (HP2 : forall d, d = set_natives ns c \/ j = 0 /\ d = d0 -> typed T d).
      { intros d [->|[_ ->]]; [exact HT|]. destruct Hd0 as [-> | ->]; [exact HT|apply typed_new]. }
      eapply h_bind_val; [apply h_unwrap_mapped, (h_read_string ss), HP1|good|intros; good|]. intros lib Hlib.
      eapply h_bind_val; [apply h_unwrap_mapped, (h_read_string ss), HP1|good|intros; good|]. intros name Hname.
      eapply h_bind_val; [apply h_unwrap_mapped, (h_get_type T), HP2|good|intros; good|]. intros t Ht.
      hb h_UINDEX. intros fi Hfi. apply h_put, h_ret. intros d ->. split; [|auto].
      eexists. split; [cbn; reflexivity|]. cbn [c_natives set_natives]. rewrite zlen_app. split; [rewrite L; reflexivity|].
      apply Forall_app. split; [exact F|]. constructor; [|constructor]. split; auto.
    - assert (SN : set_natives [] c = c) by (rewrite <- HN; apply set_natives_id).
      unfold Inv. cbv beta. rewrite SN. intros d H. split; [|tauto]. exists []. rewrite SN. repeat split; auto. }
  intros c'. apply h_check, h_ret. unfold Inv. intros d [(gs & -> & L & F) H]. split; [|exact H]. exists gs. auto.
Qed.

(** * Instructions *)
Lemma arity_nargs n a : 0 <= n < 99 -> znth OP_NARGS n = Some a ->
  arity n = Some (if a =? -1 then None else Some a) /\ (a = -1 \/ 0 <= a <= 6) /\
  (a = -1 -> n = 70 \/ In n variadic_calls).
Proof.
  intros Hn E.
  assert (H : forallb (fun n => negb (n <? 99) ||
     match znth OP_NARGS n, arity n with
     | Some a, Some (Some b) => (a =? b) && (0 <=? a) && (a <=? 6)
     | Some a, Some None => (a =? -1) && ((n =? 70) || existsb (Z.eqb n) variadic_calls)
     | _, _ => false end) all_bytes = true) by (vm_compute; reflexivity).
  pose proof (byte_case _ H n ltac:(lia)) as C. cbv beta in C. rewrite E in C.
  destruct (Z.ltb_spec n 99); [cbn [negb orb] in C|lia].
  destruct (arity n) as [[b|]|]; [| |discriminate].
  - apply andb_prop in C as [C C3]. apply andb_prop in C as [C1 C2].
    apply Z.eqb_eq in C1. apply Z.leb_le in C2, C3. subst b. destruct (Z.eqb_spec a (-1)); [lia|]. split; [auto|]. split; [lia|lia].
  - apply andb_prop in C as [C1 C2]. apply Z.eqb_eq in C1. subst a. split; [reflexivity|]. split; [auto|]. intros _.
    apply orb_prop in C2 as [C2|C2]; [left; now apply Z.eqb_eq|right]. apply existsb_exists in C2 as (x & Hx & Hn').
    apply Z.eqb_eq in Hn'. now subst x.
Qed.

Lemma h_read_extra P (V : Z -> Prop) m n : Good true m -> hoare P m (fun x d => V x /\ P d) -> 0 <= n ->
  V 0 -> hoare P (read_extra m n) (fun l d => (zlen l = 2 * n /\ Forall V l) /\ P d).
Proof.
  intros G H Hn V0. unfold read_extra.
  eapply h_conseq; [eapply (h_for (fun j l d => (zlen l = n + j /\ Forall V l) /\ P d)); auto| |].
  - intros; good.
  - intros j l Hj. apply h_pure. intros [L F]. eapply h_bind_val; [apply h_unwrap, H|good|intros; good|]. intros x Vx.
    eapply h_conseq; [apply h_insert|intros ? HH; exact HH|]. cbv beta. intros l' d [Z HP]. split; [|exact HP].
    split; [apply zinsert_len in Z; lia|]. apply Forall_forall. intros y Hy. rewrite (In_zinsert _ _ _ _ Z) in Hy.
    destruct Hy as [->|Hy]; [exact Vx|]. rewrite Forall_forall in F. auto.
  - cbv beta. intros d HP. split; [|exact HP]. rewrite zlen_repeat by lia. split; [lia|].
    apply Forall_forall. intros y Hy. apply In_zrepeat in Hy. now subst y.
  - cbv beta. intros l d [[L F] HP]. repeat split; auto. lia.
Qed.

Lemma h_read_opcode P : hoare P read_opcode (fun o d => opcode_ok o /\ P d).
Proof.
  unfold read_opcode. hb h_u8. intros n Hn. destruct (Z.leb_spec 99 n) as [|Hl].
  { intros s a s' B HP E N. inversion E; subst. discriminate. }
  eapply h_bind with (Q := fun a d => znth OP_NARGS n = Some a /\ P d); [apply h_expect|good|intros; good|].
  intros a. apply h_pure. intros Ea. destruct (arity_nargs n a ltac:(lia) Ea) as (Ar & Ra & Va).
  assert (N0 : forall x : Z, Some x <> None) by discriminate.
  assert (I0 : i32_range 0) by (unfold i32_range; lia).
  assert (U31 : forall x, 0 <= x < 2 ^ 31 -> i32_range x) by (unfold i32_range; lia).
  assert (U8 : forall x, 0 <= x < 256 -> i32_range x) by (unfold i32_range; lia).
  Ltac opnds := split; [let y := fresh in let Hy := fresh in intros y Hy; cbn [In] in Hy; repeat (destruct Hy as [Hy|Hy]);
      first [discriminate|contradiction|injection Hy as Hy; subst y; assumption]|split; [solve [assumption|repeat (constructor; auto)]|]].
  Ltac fin Ar := apply h_ret; intros d HP; split; [|exact HP]; unfold opcode_ok, mkop; cbn [o_op o_p1 o_p2 o_p3 o_extra];
    opnds;
    rewrite Ar; cbn [Z.eqb Z.leb Z.compare Pos.eqb Pos.compare Pos.compare_cont]; repeat split;
    try lia; try congruence; try reflexivity.
  destruct (Z.eqb_spec a 0) as [->|A0]; [fin Ar|].
  destruct (Z.eqb_spec a 1) as [->|A1]; [hb h_INDEX; intros p1 Ip1; fin Ar|].
  destruct (Z.eqb_spec a 2) as [->|A2]; [hb h_INDEX; intros p1 Ip1; hb h_INDEX; intros p2 Ip2; fin Ar|].
  destruct (Z.eqb_spec a 3) as [->|A3]; [hb h_INDEX; intros p1 Ip1; hb h_INDEX; intros p2 Ip2; hb h_INDEX; intros p3 Ip3; fin Ar|].
  destruct (Z.eqb_spec a 4) as [->|A4];
    [hb h_INDEX; intros p1 Ip1; hb h_INDEX; intros p2 Ip2; hb h_INDEX; intros p3 Ip3; hb h_INDEX; intros p4 Ip4; fin Ar|].
  destruct (Z.eqb_spec a (-1)) as [->|A5].
  - change (-1 =? -1) with true in Ar. cbv iota in Ar. destruct (_ || _) eqn:C.
    + hb h_INDEX; intros p1 Ip1; hb h_INDEX; intros p2 Ip2. hb h_u8. intros p3 Hp3.
      apply U8 in Hp3 as Ip3.
      hb (h_read_extra P i32_range); [good|apply h_INDEX|lia|exact I0|]. intros xs [Lx Fx]. apply h_ret. intros d HP. split; [|exact HP].
      unfold opcode_ok, mkop. cbn [o_op o_p1 o_p2 o_p3 o_extra]. opnds. rewrite Ar. exists p1, p2, p3. repeat split; auto.
      destruct (Z.eqb_spec n 70); [subst n; discriminate|exact Lx].
    + destruct (Z.eqb_spec n OSwitch) as [->|].
      * hb h_UINDEX_b; intros p1 Hp1; hb h_UINDEX_b; intros p2 Hp2.
        apply U31 in Hp1 as Ip1. apply U31 in Hp2 as Ip2.
        hb (h_read_extra P i32_range); [good| |lia|exact I0|].
        { eapply h_conseq; [apply h_UINDEX_b|intros ? HH; exact HH|]. cbv beta. intros a d [Ha HP]. auto. }
        intros xs [Lx Fx]. hb h_UINDEX_b. intros p3 Hp3. apply U31 in Hp3 as Ip3. apply h_ret.
        intros d HP. split; [|exact HP].
        unfold opcode_ok, mkop. cbn [o_op o_p1 o_p2 o_p3 o_extra]. opnds. rewrite Ar. exists p1, p2, p3. repeat split; auto.
      * intros s x s' B HP E N. discriminate.
  - assert (a = 5 \/ a = 6) as Ha by lia. cbv zeta.
    hb h_INDEX; intros p1 Ip1; hb h_INDEX; intros p2 Ip2; hb h_INDEX; intros p3 Ip3.
    destruct (Z.ltb_spec (a - 3) 0); [lia|].
    eapply h_bind with (Q := fun _ => P); [apply h_ret; auto|good|intros; good|]. intros _.
    hb (h_read_extra P i32_range); [good|apply h_INDEX|lia|exact I0|]. intros xs [Lx Fx]. apply h_ret. intros d HP. split; [|exact HP].
    unfold opcode_ok, mkop. cbn [o_op o_p1 o_p2 o_p3 o_extra]. opnds. rewrite Ar.
    destruct Ha; subst a; cbn; repeat split; try lia; try congruence.
Qed.

(** * Debug information *)
Lemma lor_byte a b : 0 <= a < 256 -> 0 <= b < 256 -> 0 <= Z.lor a b < 256.
Proof.
  intros Ha Hb. assert (0 <= Z.lor a b) by (apply Z.lor_nonneg; lia). split; [lia|].
  destruct (Z.eq_dec (Z.lor a b) 0) as [->|]; [lia|]. change 256 with (2 ^ 8). apply Z.log2_lt_pow2; [lia|].
  rewrite Z.log2_lor by lia.
  assert (L : forall x, 0 <= x < 256 -> Z.log2 x < 8).
  { intros x Hx. destruct (Z.eq_dec x 0) as [->|]; [reflexivity|]. apply Z.log2_lt_pow2; [lia|]. change (2 ^ 8) with 256. lia. }
  pose proof (L a Ha). pose proof (L b Hb). lia.
Qed.
Lemma shiftr_byte a k : 0 <= k -> 0 <= a < 256 -> 0 <= Z.shiftr a k < 256.
Proof.
  intros Hk Ha. rewrite Z.shiftr_div_pow2 by auto. assert (0 < 2 ^ k) by (apply Z.pow_pos_nonneg; lia).
  split; [apply Z.div_pos; lia|]. apply Z.div_lt_upper_bound; [lia|]. nia.
Qed.

Definition pair_ok (nf : Z) (p : Z * Z) : Prop := -1 <= fst p < nf /\ 0 <= snd p < 2 ^ 31.

Lemma debug_store_ok done nops f l s d s' : zlen done < nops ->
  debug_store (dtable done nops) (zlen done) f l s = (Ok d, s') -> d = dtable (done ++ [(f, l)]) nops /\ s' = s.
Proof.
  intros H E. unfold debug_store in E.
  apply bind_ok in E as (d1 & s1 & E1 & E). apply expect_ok in E1 as [E1 ->]. apply expect_ok in E as [E2 ->].
  split; [|reflexivity].
  pose proof (eats_debug_store code_new done nops f l H 0 []) as X. unfold debug_store in X.
  unfold bind in X. rewrite E1 in X. cbn [expect ret] in X. rewrite E2 in X. unfold expect, ret in X. inversion X. reflexivity.
Qed.
Lemma h_debug_store P done nops f l : zlen done < nops ->
  hoare P (debug_store (dtable done nops) (zlen done) f l) (fun d d' => d = dtable (done ++ [(f, l)]) nops /\ P d').
Proof. intros H s d s' B HP E N. apply debug_store_ok in E as [-> ->]; auto. Qed.
Lemma h_i32_add P x y : 0 <= x -> 0 <= y -> hoare P (i32_add x y) (fun z d => (0 <= z < 2 ^ 31 /\ z = x + y) /\ P d).
Proof.
  intros Hx Hy s z s' B HP E N. unfold i32_add in E. destruct (Z.ltb_spec I32_MAX (x + y)); inversion E; subst.
  unfold I32_MAX in *. split; [lia|auto].
Qed.

Lemma h_debug_loop nf nops (P : code -> Prop) : 0 <= nf -> (forall d, P d -> c_ndebugfiles d = nf) ->
  forall fuel done f l, zlen done <= nops -> Forall (pair_ok nf) done -> -1 <= f < nf -> 0 <= l < 2 ^ 31 ->
  hoare P (debug_loop fuel nops (zlen done) f l (dtable done nops)) (fun d c => debug_ok nf nops d /\ P c).
Proof.
  intros Hnf HP0. induction fuel as [|fuel IH]; intros done f l Hd Fd Hf Hl; cbn [debug_loop].
  - intros s a s' _ _ E. discriminate.
  - pose proof good_debug_loop_true as GL.
    destruct (Z.ltb_spec (zlen done) nops) as [H|H].
    2:{ apply h_ret. intros c HP. split; [|auto]. exists done. split; [|split; [lia|exact Fd]].
        unfold dtable. replace (2 * (nops - zlen done)) with 0 by lia. unfold zrepeat. cbn. apply app_nil_r. }
    hb h_u8. intros c Hc. destruct (negb (Z.land c 1 =? 0)).
    { hb h_u8. intros b Hb. cbv zeta. set (cf := Z.lor _ b).
      assert (Hcf : 0 <= cf) by (unfold cf; apply Z.lor_nonneg; split; [apply Z.shiftl_nonneg, Z.shiftr_nonneg; lia|lia]).
      eapply h_bind with (Q := fun cd d => c_ndebugfiles cd = nf /\ P d); [|good|intros; good|].
      { eapply h_conseq; [apply h_get_code|intros ? HH; exact HH|]. cbv beta. intros cd d [-> HP]. auto. }
      intros cd. apply h_pure. intros Ecd. rewrite Ecd.
      eapply h_bind_val with (V := fun n => n = nf); [|good|intros; good|].
      { apply h_value; [apply r_to_i32, pre_eq|]. intros s n s' _ E _. unfold to_i32 in E. destruct (_ <? _); inversion E; auto. }
      intros n ->. eapply h_bind; [apply h_get_pos|good|intros; good|]. intros p. cbv beta.
      destruct (Z.leb_spec nf cf).
      - eapply h_bind with (Q := fun _ _ => False); [apply h_record|good|intros; good|]. intros _ s a s' _ [].
      - eapply h_bind with (Q := fun _ => P); [apply h_ret; auto|good|intros; good|]. intros _. apply IH; auto. lia. }
    destruct (negb (Z.land c 2 =? 0)).
    { cbv zeta. eapply h_bind; [apply h_get_pos|good|intros; good|]. intros p. cbv beta.
      eapply h_bind with (Q := fun _ => P); [|good|intros; good|].
      { destruct (_ <? _); [apply h_record|apply h_ret; auto]. }
      intros _. pose proof (shiftr_byte c 6 ltac:(lia) Hc).
      hb h_i32_add; [lia|lia|]. intros z [Hz _]. apply IH; auto. }
    destruct (negb (Z.land c 4 =? 0)).
    { pose proof (shiftr_byte c 3 ltac:(lia) Hc). hb h_i32_add; [lia|lia|]. intros z [Hz _].
      hb h_debug_store; [exact H|]. intros d ->.
      replace (zlen done + 1) with (zlen (done ++ [(f, z)])) by (rewrite zlen_app; reflexivity).
      apply IH; auto.
      - rewrite zlen_app. change (zlen [(f, z)]) with 1. lia.
      - apply Forall_app; split; auto. constructor; [|constructor]. split; cbn; lia. }
    hb h_u8. intros b2 Hb2. hb h_u8. intros b3 Hb3. cbv zeta.
    pose proof (shiftr_byte c 3 ltac:(lia) Hc). pose proof (Z.mod_pos_bound (Z.shiftl b2 5) 256 ltac:(lia)).
    set (z := Z.lor _ b3).
    assert (Hz : 0 <= z < 256) by (unfold z; apply lor_byte; [apply lor_byte; lia|lia]). clearbody z.
    hb h_debug_store; [exact H|]. intros d ->.
    replace (zlen done + 1) with (zlen (done ++ [(f, z)])) by (rewrite zlen_app; reflexivity).
    apply IH; auto; try lia.
    + rewrite zlen_app. change (zlen [(f, z)]) with 1. lia.
    + apply Forall_app; split; auto. constructor; [|constructor]. split; cbn; lia.
Qed.
Lemma h_debug_infos nf nops (P : code -> Prop) : 0 <= nf -> 0 <= nops -> (forall d, P d -> c_ndebugfiles d = nf) ->
  hoare P (debug_infos nops) (fun d c => debug_ok nf nops d /\ P c).
Proof.
  intros Hnf Hn HP s d s' B HPs E N. unfold debug_infos in E.
  refine (h_debug_loop nf nops P Hnf HP _ [] (-1) 0 _ _ _ _ s d s' B HPs _ N); try (cbn; lia); auto.
  unfold dtable. cbn [pairs flat_map app]. change (zlen (@nil (Z * Z))) with 0. rewrite Z.sub_0_r. exact E.
Qed.

(** * Functions *)
Definition fun_raw (T : list vtype) (f : hl_function) : Prop := function_ok T false 0 f.
Lemma h_read_function T (P : code -> Prop) : (forall d, P d -> typed T d) ->
  hoare P read_function (fun f d => (fun_raw T f /\ 0 <= hf_nops f) /\ P d).
Proof.
  intros HT. unfold read_function. pose proof (h_get_type T P HT) as HG.
  hb HG. intros t Ht. hb h_UINDEX. intros fi Hfi. hb h_UINDEX. intros nr Hnr. hb h_UINDEX. intros no Hno.
  eapply h_bind_val; [apply h_append; [good|apply h_unwrap_mapped, HG|exact Hnr]|good|intros; good|]. intros regs [Lr Fr].
  eapply h_bind with (Q := fun o d => o = Some tt /\ P d); [|good|intros; good|].
  { intros s o s' B HP E N. unfold ok, check_error in E. destruct (errs s) eqn:Es; inversion E; subst; [congruence|auto]. }
  intros o. apply h_pure. intros ->.
  eapply h_bind_val; [apply h_append; [good|apply h_unwrap, h_read_opcode|exact Hno]|good|intros; good|]. intros ops [Lo Fo].
  apply h_ret. intros d HP. split; [|exact HP]. split; [|exact Hno]. unfold fun_raw, function_ok. cbn. repeat split; auto.
Qed.

Lemma zset_last {A} (l : list A) x y : zset (l ++ [x]) (zlen l) y = Some (l ++ [y]).
Proof. now apply zset_mid. Qed.
Lemma h_function_entry T c i fs : typed T c -> 0 <= c_ndebugfiles c -> c_functions c = fs -> zlen fs = i ->
  let dbg := negb (c_hasdebug c =? 0) in
  forall P, hoare P (read_function_entry i c) (fun c' d => d = c' /\ exists f, function_ok T dbg (c_ndebugfiles c) f /\
    c' = set_functions (fs ++ [f]) c).
Proof.
  intros HT Hnf Hfs Hi dbg P. unfold read_function_entry. apply h_put.
  eapply h_bind_val; [apply h_unwrap_mapped, (h_read_function T)|good|intros; good|].
  { intros d ->. exact HT. }
  intros f [Hf Hno]. apply h_get, h_put, h_get. cbn [c_functions set_functions c_hasdebug c_version]. rewrite Hfs.
  fold dbg. destruct dbg eqn:D.
  - eapply h_bind with (Q := fun _ d => exists d', debug_ok (c_ndebugfiles c) (hf_nops f) d' /\
       d = set_functions (fs ++ [hf_set_debug f d']) c); [|good|intros; good|].
    { apply h_exp. intros fi Efi. rewrite znth_app_r in Efi by lia. replace (i - zlen fs) with 0 in Efi by lia.
      cbn in Efi. injection Efi as <-.
      eapply h_bind_val; [apply h_ok_mapped_val, (h_debug_infos (c_ndebugfiles c)); auto|good|intros; good|].
      { intros d ->. reflexivity. }
      intros o (db & -> & Hdb).
      eapply h_bind with (Q := fun _ d => d = set_functions (fs ++ [hf_set_debug f db]) c); [|good|intros; good|].
      - apply h_get. cbn [c_functions set_functions]. apply h_exp. intros fi Efi. rewrite znth_app_r in Efi by lia.
        replace (i - zlen fs) with 0 in Efi by lia. cbn in Efi. injection Efi as <-.
        apply h_exp. intros fs' Efs. subst i. rewrite zset_last in Efs. injection Efs as <-.
        intros s u s' B _ E _. inversion E; subst. cbn. reflexivity.
      - intros _. destruct (3 <=? c_version c); [|apply h_ret; intros d ->; eauto].
        eapply h_conseq; [apply h_keep, r_skip_assigns, pre_eq|intros ? HH; exact HH|]. cbv beta. intros _ d ->. eauto. }
    intros _ s c' s' B (db & Hdb & E0) E N. inversion E; subst. split; [reflexivity|]. exists (hf_set_debug f db). split; [|exact E0].
    destruct f. unfold fun_raw, function_ok in *. cbn in *. intuition.
  - eapply h_bind with (Q := fun _ d => d = set_functions (fs ++ [f]) c); [apply h_ret; auto|good|intros; good|].
    intros _ s c' s' B E0 E N. inversion E; subst. split; [reflexivity|]. exists f. split; [exact Hf|exact E0].
Qed.

Lemma h_read_functions T d0 c : 0 <= c_nfunctions c -> typed T c -> 0 <= c_ndebugfiles c -> c_functions c = [] ->
  hoare (fun d => d = d0) (read_functions c) (fun c' d =>
    (exists fs, c' = set_functions fs c /\ zlen fs = c_nfunctions c /\
       Forall (function_ok T (negb (c_hasdebug c =? 0)) (c_ndebugfiles c)) fs) /\
    (d = c' \/ (c_nfunctions c = 0 /\ d = d0))).
Proof.
  intros Hn HT Hnf HF. unfold read_functions.
  set (Inv := fun j c' (d : code) =>
    (exists fs, c' = set_functions fs c /\ zlen fs = j /\ Forall (function_ok T (negb (c_hasdebug c =? 0)) (c_ndebugfiles c)) fs) /\
    (d = c' \/ (j = 0 /\ d = d0))).
  eapply h_bind with (Q := fun c' d => Inv (c_nfunctions c) c' d); [|good|intros; good|].
  { eapply h_pre; [apply (h_for Inv); [intros; good|exact Hn|]|].
    - intros j c' Hj. unfold Inv. apply h_pure. intros (fs & -> & L & F).
      eapply h_conseq; [apply (h_function_entry T (set_functions fs c) j fs); auto|intros ? HH; exact HH|].
      cbn [c_hasdebug c_ndebugfiles set_functions]. intros c' d [-> (f & Hf & ->)]. split; [|auto].
      exists (fs ++ [f]). split; [reflexivity|]. rewrite zlen_app. split; [rewrite L; reflexivity|]. apply Forall_app; auto.
    - unfold Inv. cbv beta. intros d ->. split; [|auto]. exists []. rewrite <- HF. rewrite set_functions_id, HF. repeat split; auto. }
  intros c'. apply h_check, h_ret. unfold Inv. intros d [(gs & -> & L & F) H]. split; [|exact H]. exists gs. auto.
Qed.

(** * Constants *)
Lemma h_read_constants d0 c : 0 <= c_nconstants c -> c_constants c = [] ->
  hoare (fun d => d = d0) (read_constants c) (fun c' d =>
    (exists ks, c' = set_constants ks c /\ zlen ks = c_nconstants c /\ Forall constant_ok ks) /\
    (d = c' \/ (c_nconstants c = 0 /\ d = d0))).
Proof.
  intros Hn HF. unfold read_constants.
  set (Inv := fun j c' (d : code) =>
    (exists ks, c' = set_constants ks c /\ zlen ks = j /\ Forall constant_ok ks) /\ (d = c' \/ (j = 0 /\ d = d0))).
  eapply h_pre; [apply (h_for Inv); [intros; good|exact Hn|]|].
  - intros j c' Hj. unfold Inv. apply h_pure. intros (ks & -> & L & F).
    hb h_UINDEX. intros g Hg. hb h_UINDEX. intros n Hnf.
    eapply h_bind_val; [apply h_append; [good|apply h_unwrap_mapped, h_UINDEX|exact Hnf]|good|intros; good|]. intros fs [Lf Ff].
    apply h_check.
    eapply h_bind_val; [apply h_insert_end; cbn [c_constants set_constants]; exact L|good|intros; cbv zeta; good|].
    intros ks' ->. cbv zeta. apply h_put, h_ret. intros d ->. split; [|auto].
    eexists. split; [cbn; reflexivity|]. rewrite zlen_app. split; [rewrite L; reflexivity|].
    apply Forall_app. split; [exact F|]. constructor; [|constructor]. split; auto.
  - unfold Inv. cbv beta. intros d ->. split; [|auto]. exists []. rewrite <- HF. rewrite set_constants_id, HF. repeat split; auto.
Qed.

(** * The whole read *)
(** What is known of the module [c] assembled by an accepted read. *)
Definition read_ok (c : code) : Prop :=
  counts_ok c /\ sizes_ok c /\ contents_ok c /\ c_debugfiles_lens c = [].

Lemma to_len0 {A} (l : list A) : zlen l = 2 * 0 -> l = []. Proof. intros H. apply zlen_0. lia. Qed.
Ltac get H := let E := fresh "E" in pose proof H as E.

Lemma h_code_read : hoare (fun d => d = code_new) code_read (fun r d =>
  exists c, read_ok c /\ (r = c \/ (r = code_new /\ c_ntypes c = 0 /\ c_nglobals c = 0 /\ c_nnatives c = 0 /\
    c_nfunctions c = 0 /\ c_nconstants c = 0 /\ c_hasdebug c = 0))).
Proof.
  unfold code_read. cbv zeta.
  eapply h_bind_val; [apply h_read_magic|good|intros; good|]. intros c0 (v & Hv & ->).
  eapply h_bind_val; [apply h_read_counts, Hv|good|intros; good|]. intros c1 (TE & CO & U0 & B0 & SM).
  destruct TE as (T1 & T2 & T3 & T4 & T5 & T6 & T7 & T8 & T9 & T10 & T11 & T12 & T13).
  destruct CO as (N1 & N2 & N3 & N4 & N5 & N6 & N7 & N8 & N9 & N10 & N11 & N12 & N13 & N14).
  eapply h_bind_val; [apply h_read_ints, N1|good|intros; good|]. intros c2 (li & Li & Fi & ->).
  eapply h_bind_val; [apply h_read_floats, N2|good|intros; good|]. intros c3 (lf & Lf & Ff & ->).
  eapply h_bind_val; [apply h_read_string_table, N3|good|intros; good|]. intros c4 (ss & Us & Ls & ->).
  eapply h_bind_val; [apply h_read_bytes_section; [exact N4|exact T5|exact B0|exact N12]|good|intros; good|].
  intros c5 (bs & ps & Bb & Lp & Fp & ->).
  set (c5 := set_bytes_pos _ _).
  eapply h_bind; [apply h_read_debugfiles|good|intros; good|]. intros c6. cbv beta.
  eapply h_pre with (P := fun d => (exists n fs, 0 <= n /\ Forall utf8 fs /\ zlen fs <= n /\ c6 = set_debugfiles fs (set_ndebugfiles n c5)) /\
     (d = c6 \/ (c_hasdebug c6 = 0 /\ d = code_new))).
  2:{ change (c_hasdebug c5) with (c_hasdebug c1). intros d Hd. destruct (Z.eqb_spec (c_hasdebug c1) 0) as [Hz|Hz].
      - destruct Hd as [-> ->]. split; [|right; split; [exact Hz|reflexivity]]. exists 0, [].
        split; [lia|]. split; [constructor|]. split; [apply Z.le_refl|]. unfold c5. apply code_ext; cbn; auto.
      - destruct Hd as [-> H]. auto. }
  apply h_pure. intros (nf & fs & Hnf & Ufs & Lfs & ->). set (c6 := set_debugfiles _ _).
  (* types *)
  intros s r s' B Hd E N. revert s r s' B Hd E N.
  change (hoare (fun d => d = c6 \/ (c_hasdebug c6 = 0 /\ d = code_new))
    (c <- read_types c6 ;; c <- read_globals c ;; c <- read_natives c ;; c <- read_functions c ;; c <- read_constants c ;; get_code)
    (fun r d => exists c, read_ok c /\ (r = c \/ (r = code_new /\ c_ntypes c = 0 /\ c_nglobals c = 0 /\ c_nnatives c = 0 /\
      c_nfunctions c = 0 /\ c_nconstants c = 0 /\ c_hasdebug c = 0)))).
  eapply h_bind with (Q := fun c7 d => (exists ts u, c7 = set_types (ts ++ zrepeat vt_default (c_ntypes c1)) (set_ustrings u c6) /\ zlen ts = c_ntypes c1 /\
       declared_ok ss ts) /\ (d = c7 \/ (c_ntypes c1 = 0 /\ c_hasdebug c1 = 0 /\ d = code_new))); [|good|intros; good|].
  { intros s c7 s' B Hd E N.
    assert (Hu : cache_in ss (c_ustrings c6)).
    { cbn. apply Forall_forall. intros o Ho. apply repeat_spec in Ho. now subst o. }
    destruct (h_read_types ss (d_code s) c6 N5 eq_refl Hu s c7 s' B eq_refl E N) as [(ts & u & -> & L & F & _ & Z0) Hd'].
    change (c_ntypes c6) with (c_ntypes c1) in *. split; [exists ts, u; auto|].
    destruct Hd' as [->|[Z1 ->]]; [auto|]. destruct Hd as [->|[Z2 ->]]; [|auto]. left.
    rewrite Z1 in *. apply zlen_0 in L. subst ts. rewrite (Z0 eq_refl). unfold c6, c5. apply code_ext; cbn; auto. }
  intros c7. apply h_pure. intros (ts & u & -> & Lt & Ft). set (c7 := set_types _ _).
  assert (TT : typed ts c7) by (eapply typed_intro; cbn; [reflexivity|lia]).
  eapply h_bind with (Q := fun c8 d => (exists gs, c8 = set_globals (gs ++ zrepeat vt_default (c_nglobals c1)) c7 /\ zlen gs = c_nglobals c1 /\
       Forall (fun t => In t ts) gs) /\ (d = c8 \/ (c_nglobals c1 = 0 /\ c_ntypes c1 = 0 /\ c_hasdebug c1 = 0 /\ d = code_new))); [|good|intros; good|].
  { intros s c8 s' B Hd E N. destruct (h_read_globals ts (d_code s) c7 N6 TT s c8 s' B eq_refl E N) as [(gs & -> & L & F) Hd'].
    change (c_nglobals c7) with (c_nglobals c1) in *. split; [exists gs; auto|].
    destruct Hd' as [->|[Z1 ->]]; [auto|]. destruct Hd as [->|(Z2 & Z3 & ->)]; [|auto 6]. left.
    rewrite Z1 in *. apply zlen_0 in L. subst gs. unfold c7, c6, c5. apply code_ext; cbn; auto. }
  intros c8. apply h_pure. intros (gs & -> & Lg & Fg). set (c8 := set_globals _ _).
  eapply h_bind with (Q := fun c9 d => (exists ns, c9 = set_natives ns c8 /\ zlen ns = c_nnatives c1 /\
       Forall (native_ok ss ts) ns) /\ (d = c9 \/ (c_nnatives c1 = 0 /\ c_nglobals c1 = 0 /\ c_ntypes c1 = 0 /\ c_hasdebug c1 = 0 /\ d = code_new))); [|good|intros; good|].
  { intros s c9 s' B Hd E N.
    assert (Hd0 : d_code s = c8 \/ d_code s = code_new) by tauto.
    destruct (h_read_natives ss ts (d_code s) c8 Hd0 N7 TT eq_refl T10 s c9 s' B eq_refl E N) as [(ns & -> & L & F) Hd'].
    change (c_nnatives c8) with (c_nnatives c1) in *. split; [exists ns; auto|].
    destruct Hd' as [->|[Z1 ->]]; [auto|]. destruct Hd as [->|Z4]; [|right; tauto]. left.
    rewrite Z1 in L. apply zlen_0 in L. subst ns. unfold c8, c7, c6, c5. apply code_ext; cbn; auto. }
  intros c9. apply h_pure. intros (ns & -> & Ln & Fn). set (c9 := set_natives _ _).
  eapply h_bind with (Q := fun c10 d => (exists fns, c10 = set_functions fns c9 /\ zlen fns = c_nfunctions c1 /\
       Forall (function_ok ts (negb (c_hasdebug c1 =? 0)) nf) fns) /\ (d = c10 \/ (c_nfunctions c1 = 0 /\ c_nnatives c1 = 0 /\ c_nglobals c1 = 0 /\ c_ntypes c1 = 0 /\ c_hasdebug c1 = 0 /\ d = code_new))); [|good|intros; good|].
  { intros s c10 s' B Hd E N.
    destruct (h_read_functions ts (d_code s) c9 N8 TT Hnf T11 s c10 s' B eq_refl E N) as [(fns & -> & L & F) Hd'].
    change (c_nfunctions c9) with (c_nfunctions c1) in *. split; [exists fns; auto|].
    destruct Hd' as [->|[Z1 ->]]; [auto|]. destruct Hd as [->|Z4]; [|right; tauto]. left.
    rewrite Z1 in L. apply zlen_0 in L. subst fns. unfold c9, c8, c7, c6, c5. apply code_ext; cbn; auto. }
  intros c10. apply h_pure. intros (fns & -> & Lfn & Ffn). set (c10 := set_functions _ _).
  eapply h_bind with (Q := fun c11 d => (exists ks, c11 = set_constants ks c10 /\ zlen ks = c_nconstants c1 /\ Forall constant_ok ks) /\
      (d = c11 \/ (c_nconstants c1 = 0 /\ c_nfunctions c1 = 0 /\ c_nnatives c1 = 0 /\ c_nglobals c1 = 0 /\ c_ntypes c1 = 0 /\ c_hasdebug c1 = 0 /\ d = code_new))); [|good|intros; good|].
  { intros s c11 s' B Hd E N.
    destruct (h_read_constants (d_code s) c10 N9 T12 s c11 s' B eq_refl E N) as [(ks & -> & L & F) Hd'].
    change (c_nconstants c10) with (c_nconstants c1) in *. split; [exists ks; auto|].
    destruct Hd' as [->|[Z1 ->]]; [auto|]. destruct Hd as [->|Z4]; [|right; tauto]. left.
    rewrite Z1 in L. apply zlen_0 in L. subst ks. unfold c10, c9, c8, c7, c6, c5. apply code_ext; cbn; auto. }
  intros c11. apply h_pure. intros (ks & -> & Lk & Fk). set (c11 := set_constants _ _).
  intros s r s' B Hd E N. inversion E; subst r s'. exists c11. split.
  - unfold read_ok. split; [|split; [|split]].
    + repeat split; try assumption; cbn; lia.
    + unfold sizes_ok. cbn - [Z.mul zrepeat]. rewrite T4. cbn [app]. rewrite zlen_map, !zlen_app, !zlen_repeat by assumption. repeat split; auto; lia.
    + assert (Dc : declared c11 = ts).
      { unfold declared. cbn - [zrepeat]. rewrite <- Lt. replace (Z.to_nat (zlen ts)) with (length ts) by (unfold zlen; lia).
        rewrite firstn_app, Nat.sub_diag, firstn_all. cbn [firstn]. apply app_nil_r. }
      unfold contents_ok. cbv zeta. rewrite Dc. cbn - [Z.mul zrepeat]. rewrite T4.
      assert (types_ok ss (c_ntypes c1) (ts ++ zrepeat vt_default (c_ntypes c1))) by (exists ts; auto).
      assert (globals_ok ts (c_nglobals c1) (gs ++ zrepeat vt_default (c_nglobals c1))) by (exists gs; auto). repeat (split; [auto; fail|]). exact N10.
    + cbn. exact T7.
  - destruct Hd as [Hd|Hd]; [left; exact Hd|right]. cbn. tauto.
Qed.
