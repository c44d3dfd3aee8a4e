(** Runs over a sequence of named pieces, and where they stop when the input is cut inside one of them.  Used by PropsCut.v. *)
From Verif Require Import Prelude StdModel BrassTypes DecoderModel CodeModel FormatSpec ReaderSpec ErrSpec GrammarSpec CutSpec.
From Verif Require Import CodeGenericProofs FormatProofs Utf8Proofs StringsProofs ReaderPost ReaderTables ErrProofs GrammarDen GrammarTypes GrammarFuns GrammarStrings GrammarModule GrammarCode CutProofs.
From Coq Require Import Lia ZifyBool.
Ltac Zify.zify_post_hook ::= Z.div_mod_to_equations.

Definition At (p : Z) (c : code) (l : list derr) (b : list Z) : st := {| d_buf := b; d_pos := p; d_code := c; errs := None; d_log := l |}.
Definition ends {A} (r : res derr A * st) (o : stop) : Prop :=
  match o with
  | StopErr e cell => fst r = Err e /\ errs (snd r) = cell
  | StopPanic q cell => fst r = Panic q /\ errs (snd r) = cell
  end.
Definition small_bytes (b : list Z) : Prop := bytes b /\ zlen b < 2 ^ 63.
(** [m], at position [p] with the module [c], reads the pieces [secs] and returns [a]; cut inside one of them, it ends as its place says. *)
Definition pieces {A} (m : M A) (p : Z) (c : code) (l : list derr) (secs : list piece) (a : A) (c' : code) : Prop :=
  (forall rest, small_bytes (whole_of secs ++ rest) -> m (At p c l (whole_of secs ++ rest)) = (Ok a, At (p + zlen (whole_of secs)) c' l rest)) /\
  (forall before pl x y after, small_bytes (whole_of secs) -> secs = before ++ (pl, x ++ y) :: after -> y <> [] ->
     ends (m (At p c l (whole_of before ++ x))) (outcome pl (p + zlen (whole_of before)) (zlen x))).

Lemma whole_app s1 s2 : whole_of (s1 ++ s2) = whole_of s1 ++ whole_of s2.
Proof. unfold whole_of. now rewrite map_app, concat_app. Qed.
Lemma whole_cons pl b s : whole_of ((pl, b) :: s) = b ++ whole_of s. Proof. reflexivity. Qed.
Lemma small_app a b : small_bytes (a ++ b) -> small_bytes a /\ small_bytes b.
Proof.
  intros (B & L). apply Forall_app in B as (B1 & B2). rewrite zlen_app in L. pose proof (zlen_nonneg a). pose proof (zlen_nonneg b). repeat split; auto; lia.
Qed.
Lemma split_list {A} (s1 s2 before after : list A) q : s1 ++ s2 = before ++ q :: after ->
  (exists a1, s1 = before ++ q :: a1) \/ exists b2, before = s1 ++ b2 /\ s2 = b2 ++ q :: after.
Proof.
  revert before. induction s1 as [|z s1 IH]; intros before E; cbn in E.
  - right. exists before. auto.
  - destruct before as [|z2 before]; cbn in E; injection E as -> E; [left; eexists; reflexivity|].
    destruct (IH before E) as [(a1 & ->)|(b2 & -> & ->)]; [left; exists a1; auto|right; exists b2; auto].
Qed.
Lemma ends_bind {A B} (m : M A) (k : A -> M B) s o : ends (m s) o -> ends (bind m k s) o.
Proof. unfold ends, bind. destruct (m s) as [[a|e|q] s1], o; cbn; intros (H & H2); try discriminate; split; auto; congruence. Qed.
Lemma pieces_bind {A B} (m : M A) (k : A -> M B) p c l s1 a c1 s2 b c2 : pieces m p c l s1 a c1 -> pieces (k a) (p + zlen (whole_of s1)) c1 l s2 b c2 ->
  pieces (bind m k) p c l (s1 ++ s2) b c2.
Proof.
  intros (F1 & C1) (F2 & C2). split.
  - intros rest S. rewrite whole_app, <- app_assoc in *. unfold bind. rewrite (F1 _ S). rewrite (F2 rest) by now apply small_app in S. f_equal. rewrite zlen_app. f_equal. lia.
  - intros before pl x y after S E Y. rewrite whole_app in S. destruct (split_list s1 s2 _ _ _ E) as [(a1 & E1)|(b2 & -> & E2)].
    + apply ends_bind. apply small_app in S as (S & _). exact (C1 _ _ _ _ _ S E1 Y).
    + rewrite whole_app, <- app_assoc. rewrite E2 in S. rewrite whole_app, whole_cons in S.
      assert (Sx : small_bytes (whole_of s1 ++ whole_of b2 ++ x)).
      { destruct S as (Bs & L). unfold bytes in Bs. rewrite !Forall_app in Bs. rewrite !zlen_app in L. pose proof (zlen_nonneg y). pose proof (zlen_nonneg (whole_of after)).
        split; [unfold bytes; rewrite !Forall_app; tauto|]. rewrite !zlen_app. lia. }
      unfold bind. rewrite (F1 _ Sx). rewrite zlen_app, Z.add_assoc. assert (S2 : small_bytes (whole_of s2)). { rewrite E2, whole_app, whole_cons. now apply small_app in S. }
      exact (C2 _ _ _ _ _ S2 E2 Y).
Qed.
Lemma pieces_none {A} (m : M A) p c l a c' : (forall b, m (At p c l b) = (Ok a, At p c' l b)) -> pieces m p c l [] a c'.
Proof.
  intros H. split.
  - intros rest _. cbn [whole_of map concat app]. rewrite H. change (zlen (whole_of [])) with 0. now rewrite Z.add_0_r.
  - intros before pl x y after _ E. destruct before; discriminate.
Qed.
Lemma pieces_ret {A} (a : A) p c l : pieces (ret a) p c l [] a c. Proof. now apply pieces_none. Qed.
Lemma pieces_check p c l : pieces check_error p c l [] tt c. Proof. now apply pieces_none. Qed.
Lemma pieces_get p c l : pieces get_code p c l [] c c. Proof. now apply pieces_none. Qed.
Lemma pieces_put c2 p c l : pieces (put_code c2) p c l [] tt c2. Proof. now apply pieces_none. Qed.
Lemma pieces_end {A B} (m : M A) (k : A -> M B) p c l s1 a c1 b c2 : pieces m p c l s1 a c1 -> pieces (k a) (p + zlen (whole_of s1)) c1 l [] b c2 -> pieces (bind m k) p c l s1 b c2.
Proof. intros H K. rewrite <- (app_nil_r s1). eapply pieces_bind; eauto. Qed.
Lemma pieces_start {A B} (m : M A) (k : A -> M B) p c l a c1 s2 b c2 : pieces m p c l [] a c1 -> pieces (k a) p c1 l s2 b c2 -> pieces (bind m k) p c l s2 b c2.
Proof. intros H K. change s2 with ([] ++ s2). eapply pieces_bind; eauto. change (zlen (whole_of [])) with 0. now rewrite Z.add_0_r. Qed.
Lemma pieces_ext {A} (m m' : M A) p c l s a c' : (forall st, m st = m' st) -> pieces m' p c l s a c' -> pieces m p c l s a c'.
Proof. intros E (F & C). split; [intros; rewrite E; auto|]. intros. rewrite E. eauto. Qed.
(** a piece read by a function that dies when cut *)
Lemma clean_At p c l b : small_bytes b -> clean (At p c l b). Proof. intros (B & L). repeat split; auto. Qed.
Lemma fin_At p c l b rest n c' : fin (At p c l b) rest n c' = At (p + n) c' l rest. Proof. reflexivity. Qed.
Lemma pieces_one {A} (m : M A) pl p c l u a c' :
  (forall rest, small_bytes (u ++ rest) -> m (At p c l (u ++ rest)) = (Ok a, At (p + zlen u) c' l rest)) ->
  (forall x y, small_bytes u -> u = x ++ y -> y <> [] -> ends (m (At p c l x)) (outcome pl p (zlen x))) -> pieces m p c l [(pl, u)] a c'.
Proof.
  intros F C. assert (W : whole_of [(pl, u)] = u) by (unfold whole_of; cbn; apply app_nil_r). split; rewrite W; auto.
  intros before q x y after S E Y. destruct before as [|b0 [|]]; cbn [app] in E; try discriminate.
  injection E as <- E <-. change (whole_of []) with (@nil Z). change (zlen (@nil Z)) with 0. rewrite Z.add_0_r. cbn [app]. eapply C; eauto.
Qed.
Lemma pieces_plain (I : code -> Prop) {A} (m : M A) G p c l u a c' : den I m G -> CutD m -> I c -> G c u a c' -> pieces m p c l [(Elsewhere, u)] a c'.
Proof.
  intros D C Ic H.
  assert (F : forall rest, small_bytes (u ++ rest) -> m (At p c l (u ++ rest)) = (Ok a, At (p + zlen u) c' l rest)).
  { intros rest S. rewrite (den_from D _ u rest a c' (clean_At _ _ _ _ S)); auto. }
  apply pieces_one; [exact F|]. intros x y S E Y. pose proof (F [] ltac:(now rewrite app_nil_r)) as R. rewrite app_nil_r in R.
  destruct (C (At p c l u) a _ x y (proj1 S) R eq_refl) as (r & s2 & R2 & -> & N2); auto.
  - cbn [d_buf At]. now rewrite app_nil_r.
  - change (with_buf (At p c l u) x) with (At p c l x) in R2. rewrite R2. cbn. auto.
Qed.
(** results put aside *)
Definition panics (pl : place) : Prop := match pl with Number _ | BytesSize => False | _ => True end.
Lemma pieces_map {A B} (m : M A) (m' : M B) p c l secs a b c' : pieces m p c l secs a c' -> Forall (fun q => panics (fst q)) secs ->
  (forall s s', m s = (Ok a, s') -> m' s = (Ok b, s')) -> (forall s q s', m s = (Panic q, s') -> m' s = (Panic q, s')) -> pieces m' p c l secs b c'.
Proof.
  intros (F & C) P O Q. split.
  - intros rest S. apply O. auto.
  - intros before pl x y after S E Y. specialize (C before pl x y after S E Y). rewrite E, Forall_app, Forall_cons_iff in P. destruct P as (_ & P & _). cbn [fst] in P.
    destruct (m (At p c l (whole_of before ++ x))) as [r s2] eqn:R. destruct pl; cbn [outcome ends panics fst snd] in *; try contradiction; destruct C as (-> & <-); rewrite (Q _ _ _ R); auto.
Qed.
Lemma pieces_ok_mapped {A} (m : M A) p c l secs a c' : pieces m p c l secs a c' -> Forall (fun q => panics (fst q)) secs -> pieces (ok_mapped m) p c l secs (Some a) c'.
Proof. intros H P. apply (pieces_map m _ p c l secs a _ c'); auto; intros; unfold ok_mapped; now rewrite H0. Qed.

(** * Tables of numbers *)
Definition num_body (m : M Z) (i : Z) (l : list Z) : M (list Z) := r <- ok_mapped m ;; match r with Some x => vec_insert l i x | None => ret l end.
Lemma read_table_eq m n : read_table m n = for_loop (Z.to_nat n) 0 (num_body m) []. Proof. reflexivity. Qed.
Definition noted (p : Z) (c : code) (l : list derr) (b : list Z) (cell : option derr) : st := {| d_buf := b; d_pos := p; d_code := c; errs := cell; d_log := l |}.
Definition short (p : Z) : derr := {| e_kind := NoMoreData; e_pos := p |}.
Lemma table_dry m w : (forall s, zlen (d_buf s) < w -> m s = (Err (short (d_pos s)), s)) ->
  forall n i acc p c l b, zlen b < w -> exists l', for_loop n i (num_body m) acc (noted p c l b (Some (short p))) = (Ok acc, noted p c l' b (Some (short p))).
Proof.
  intros D. induction n as [|n IH]; intros i acc p c l b L; cbn [for_loop]; [exists l; reflexivity|]. unfold num_body at 1. unfold bind at 1. unfold bind at 1. unfold ok_mapped. rewrite D by exact L. cbn [map_err snd errs noted d_buf d_pos d_code d_log]. apply IH; auto.
Qed.
Lemma table_cut m w (P : Z -> Prop) : 0 < w -> (forall s, zlen (d_buf s) < w -> m s = (Err (short (d_pos s)), s)) ->
  (forall v p c rest, P v -> m (At p c [] (enc_le (Z.to_nat w) v ++ rest)) = (Ok v, At (p + w) c [] rest)) ->
  forall xs acc x y p c, Forall P xs -> flat_map (enc_le (Z.to_nat w)) xs = x ++ y -> y <> [] ->
  exists acc' b' l', for_loop (length xs) (zlen acc) (num_body m) acc (At p c [] x) = (Ok acc', noted (p + w * (zlen x / w)) c l' b' (Some (short (p + w * (zlen x / w))))).
Proof.
  intros Hw D R. induction xs as [|v xs IH]; intros acc x y p c F E Y; [cbn in E; symmetry in E; apply app_eq_nil in E as (_ & ->); congruence|].
  inversion F as [|v0 xs0 Pv Pxs]; subst. cbn [flat_map] in E. pose proof (zlen_nonneg x) as Lx.
  assert (Lw : zlen (enc_le (Z.to_nat w) v) = w) by (unfold zlen, enc_le; rewrite le_bytes_length; lia).
  destruct (prefix_cases _ x y _ E) as [(y1 & E1 & Y1)|(x2 & -> & E2)].
  - assert (L : zlen x < w). { rewrite <- Lw, E1, zlen_app. destruct y1; [congruence|]. rewrite zlen_cons. pose proof (zlen_nonneg y1). lia. }
    rewrite Z.div_small, Z.mul_0_r, Z.add_0_r by lia. cbn [length for_loop]. unfold num_body at 1. unfold bind at 1. unfold bind at 1. unfold ok_mapped. rewrite D by exact L.
    cbn [map_err snd errs At d_buf d_pos d_code d_log]. unfold ret. destruct (table_dry m w D (length xs) (zlen acc + 1) acc p c ([] ++ [short p]) x L) as (l' & T). exists acc, x, l'. exact T.
  - cbn [length for_loop]. unfold num_body at 1. unfold bind at 1. unfold bind at 1. unfold ok_mapped. rewrite R by auto. unfold vec_insert, expect. rewrite FormatProofs.zinsert_end by reflexivity. unfold ret.
    replace (zlen acc + 1) with (zlen (acc ++ [v])) by (rewrite zlen_app; reflexivity).
    destruct (IH (acc ++ [v]) x2 y (p + w) c Pxs E2 Y) as (acc' & b' & l' & T). exists acc', b', l'. rewrite T. rewrite zlen_app, Lw.
    replace ((w + zlen x2) / w) with (1 + zlen x2 / w) by (replace (w + zlen x2) with (zlen x2 + 1 * w) by lia; rewrite Z.div_add by lia; lia).
    replace (p + w + w * (zlen x2 / w)) with (p + w * (1 + zlen x2 / w)) by lia. reflexivity.
Qed.
Lemma fixed_dry n s : zlen (d_buf s) < n -> read_bytes n s = (Err (short (d_pos s)), s).
Proof. intros L. unfold read_bytes. destruct (Z.ltb_spec (zlen (d_buf s)) n); [reflexivity|lia]. Qed.
Lemma i32_dry s : zlen (d_buf s) < 4 -> decode_i32 s = (Err (short (d_pos s)), s).
Proof. intros L. unfold decode_i32, decode_signed, bind. now rewrite fixed_dry. Qed.
Lemma f64_dry s : zlen (d_buf s) < 8 -> decode_f64 s = (Err (short (d_pos s)), s).
Proof. intros L. unfold decode_f64, decode_u64, decode_unsigned, bind. now rewrite fixed_dry. Qed.
Lemma u8_dry s : zlen (d_buf s) < 1 -> decode_u8 s = (Err (short (d_pos s)), s).
Proof. intros L. unfold decode_u8, decode_unsigned, bind. now rewrite fixed_dry. Qed.
Lemma pieces_table (m : M Z) w (P : Z -> Prop) n (set : list Z -> code) xs p c : 0 < w -> (forall s, zlen (d_buf s) < w -> m s = (Err (short (d_pos s)), s)) ->
  (forall v p c rest, P v -> m (At p c [] (enc_le (Z.to_nat w) v ++ rest)) = (Ok v, At (p + w) c [] rest)) ->
  Forall P xs -> n = zlen xs ->
  (forall rest, small_bytes (flat_map (enc_le (Z.to_nat w)) xs ++ rest) -> bind (read_table m n) (fun l => check_error ;;; ret (set l)) (At p c [] (flat_map (enc_le (Z.to_nat w)) xs ++ rest)) =
     (Ok (set xs), At (p + zlen (flat_map (enc_le (Z.to_nat w)) xs)) c [] rest)) ->
  pieces (bind (read_table m n) (fun l => check_error ;;; ret (set l))) p c [] [(Number w, flat_map (enc_le (Z.to_nat w)) xs)] (set xs) c.
Proof.
  intros Hw D R F -> Fr. apply pieces_one; [exact Fr|]. intros x y S E Y. destruct (table_cut m w P Hw D R xs [] x y p c F E Y) as (acc & b & l' & T).
  rewrite read_table_eq. replace (Z.to_nat (zlen xs)) with (length xs) by (unfold zlen; lia). change (zlen (@nil Z)) with 0 in T. unfold bind at 1. rewrite T. cbn. auto.
Qed.
Lemma zlen_enc k v : zlen (enc_le k v) = Z.of_nat k. Proof. unfold zlen, enc_le. now rewrite le_bytes_length. Qed.
Lemma i32_at v p c rest : i32_range v -> decode_i32 (At p c [] (enc_le (Z.to_nat 4) v ++ rest)) = (Ok v, At (p + 4) c [] rest).
Proof. intros H. exact (eats_i32 c v H p rest). Qed.
Lemma f64_at v p c rest : 0 <= v < 2 ^ 64 -> decode_f64 (At p c [] (enc_le (Z.to_nat 8) v ++ rest)) = (Ok v, At (p + 8) c [] rest).
Proof. intros H. exact (eats_f64 c v H p rest). Qed.
Lemma pieces_ints c li p d : c_nints c = zlen li -> Forall i32_range li -> pieces (read_ints c) p d [] [(Number 4, flat_map (enc_le 4) li)] (set_ints li c) d.
Proof.
  intros N F. apply (pieces_table decode_i32 4 i32_range (c_nints c) (fun l => set_ints l c) li p d); auto; [lia|apply i32_dry|intros; now apply i32_at|].
  intros rest S. pose proof (zlen_nonneg li). apply (den_from (den_read_ints (fun _ => True) c) _ _ rest _ d (clean_At p d [] _ S) I eq_refl). split; [|reflexivity]. exists li. repeat split; auto. lia.
Qed.
Lemma pieces_floats c lf p d : c_nfloats c = zlen lf -> Forall (fun x => 0 <= x < 2 ^ 64) lf -> pieces (read_floats c) p d [] [(Number 8, flat_map (enc_le 8) lf)] (set_floats lf c) d.
Proof.
  intros N F. apply (pieces_table decode_f64 8 (fun x => 0 <= x < 2 ^ 64) (c_nfloats c) (fun l => set_floats l c) lf p d); auto; [lia|apply f64_dry|intros; now apply f64_at|].
  intros rest S. pose proof (zlen_nonneg lf). apply (den_from (den_read_floats (fun _ => True) c) _ _ rest _ d (clean_At p d [] _ S) I eq_refl). split; [|reflexivity]. exists lf. repeat split; auto. lia.
Qed.

(** * The magic number and the version *)
Lemma u8_at v p c l rest : decode_u8 (At p c l (v :: rest)) = (Ok v, At (p + 1) c l rest).
Proof.
  unfold decode_u8, decode_unsigned, bind, read_bytes. cbn [d_buf At]. destruct (Z.ltb_spec (zlen (v :: rest)) 1) as [L|L]; [rewrite zlen_cons in L; pose proof (zlen_nonneg rest); lia|].
  change (Z.to_nat 1) with 1%nat. cbn [firstn skipn from_le d_pos d_code errs d_log At]. unfold ret, At. rewrite Z.mul_0_r, Z.add_0_r. reflexivity.
Qed.
Ltac cut_magic3 :=
  unfold read_magic, bind, unwrap, unwrap_mapped; rewrite u8_at; cbn [Z.eqb Pos.eqb negb]; rewrite u8_at; cbn [Z.eqb Pos.eqb negb]; rewrite u8_at; unfold ret; cbn [Z.eqb Pos.eqb negb];
  rewrite u8_dry by (cbn; lia).
Lemma pieces_magic v p d : 2 <= v <= 5 -> pieces (read_magic code_new) p d [] [(Elsewhere, [72; 76; 66]); (Block, [v])] (set_version v code_new) d.
Proof.
  intros Hv. assert (W : whole_of [(Elsewhere, [72; 76; 66]); (Block, [v])] = [72; 76; 66; v]) by reflexivity. split; rewrite W.
  - intros rest S. apply (den_from (den_read_magic (fun _ => True) code_new) _ _ rest _ d (clean_At p d [] _ S) I eq_refl). split; [|reflexivity]. eauto.
  - intros before pl x y after S E Y.
    destruct before as [|[p1 b1] [|[p2 b2] [|]]]; cbn [app] in E; try discriminate.
    + injection E as <- Ex <-. change (whole_of []) with (@nil Z). cbn [app].
      destruct x as [|x1 [|x2 [|x3 x]]]; cbn [app] in Ex; inversion Ex; subst; try (cbv [read_magic bind unwrap decode_u8 decode_unsigned read_bytes At]; cbn; auto; fail).
      match goal with H : [] = _ ++ _ |- _ => symmetry in H; apply app_eq_nil in H as (_ & ->); congruence end.
    + injection E as <- <- <- Ex <-. destruct x as [|x1 x]; cbn [app] in Ex; inversion Ex; subst.
      * cbn [whole_of map snd concat app]. cut_magic3. cbn. split; [reflexivity|]. unfold short. replace (p + 1 + 1 + 1) with (p + 3) by lia. reflexivity.
      * match goal with H : [] = _ ++ _ |- _ => symmetry in H; apply app_eq_nil in H as (_ & ->); congruence end.
Qed.

(** * String tables *)
Definition take (size : Z) : M (list Z) :=
  slice <- (fun s => if zlen (d_buf s) <? size then (Panic PSlice, s) else (Ok (firstn (Z.to_nat size) (d_buf s)), s)) ;; advance size ;;; ret slice.
Lemma read_strings_take n lens s : read_strings n lens s = bind (unwrap decode_i32) (fun size0 => bind (take (i32_as_usize size0)) (fun sl => strings_loop (Z.to_nat n) (from_utf8_lossy sl) 0 [] lens)) s.
Proof.
  unfold read_strings, take. apply bind_cong. clear s. intros size0 s. cbv zeta. unfold bind. destruct (zlen (d_buf s) <? i32_as_usize size0); [reflexivity|].
  destruct (advance (i32_as_usize size0) s) as [[]]; reflexivity.
Qed.
Lemma pieces_take v p c l : pieces (take (zlen v)) p c l [(Text, v)] v c.
Proof.
  apply pieces_one.
  - intros rest S. unfold take, bind, advance. cbn [d_buf At]. assert (L : zlen (v ++ rest) <? zlen v = false) by (rewrite zlen_app; pose proof (zlen_nonneg rest); lia). rewrite L. cbn [d_buf d_pos d_code errs d_log At].
    rewrite L. unfold ret, At. replace (Z.to_nat (zlen v)) with (length v) by (unfold zlen; lia). rewrite firstn_app, skipn_app, Nat.sub_diag, firstn_all, skipn_all. cbn. now rewrite app_nil_r.
  - intros x y _ E Y. unfold take, bind. cbn [d_buf At]. assert (L : zlen x <? zlen v = true). { rewrite E, zlen_app. destruct y; [congruence|]. rewrite zlen_cons. pose proof (zlen_nonneg y). lia. }
    rewrite L. cbn. auto.
Qed.
Lemma tab_table t b ss n : tabP n b t ss -> exists b3, b = enc_le 4 (zlen (rs_text t)) ++ rs_text t ++ b3 /\ zlen (rs_text t) < 2 ^ 31 /\ many uix b3 (rs_sizes t) /\ rs_count t = n /\ cuts (from_utf8_lossy (rs_text t)) (Z.to_nat n) 0 (rs_sizes t) ss.
Proof. intros (H1 & (b3 & -> & L & M) & H2). eauto 10. Qed.
Lemma pieces_strings n lens t ss l p d : bytes (rs_text t) -> rs_count t = n -> strings_pieces t l -> cuts (from_utf8_lossy (rs_text t)) (Z.to_nat n) 0 (rs_sizes t) ss ->
  pieces (read_strings n lens) p d [] l (ss, lens ++ map zlen ss) d.
Proof.
  intros Bt <- (sizes & -> & L & M) Cu. pose proof (zlen_nonneg (rs_text t)) as L0. eapply pieces_ext; [apply read_strings_take|].
  change [(Elsewhere, enc_le 4 (zlen (rs_text t))); (Text, rs_text t); (Elsewhere, sizes)] with ([(Elsewhere, enc_le 4 (zlen (rs_text t)))] ++ [(Text, rs_text t); (Elsewhere, sizes)]).
  eapply pieces_bind.
  { apply (pieces_plain (fun _ => True) _ _ p d [] _ (zlen (rs_text t)) d (den_unwrap _ _ _ _ (den_i32 _))); [apply cut_unwrap, cut_i32|exact I|]. split; [|reflexivity]. split; [reflexivity|unfold i32_range; lia]. }
  cbv beta. assert (Eu : i32_as_usize (zlen (rs_text t)) = zlen (rs_text t)) by (unfold i32_as_usize; destruct (Z.ltb_spec (zlen (rs_text t)) 0); lia). rewrite Eu.
  change [(Text, rs_text t); (Elsewhere, sizes)] with ([(Text, rs_text t)] ++ [(Elsewhere, sizes)]). eapply pieces_bind; [apply pieces_take|].
  apply (pieces_plain (fun _ => True) _ _ _ d [] sizes (ss, lens ++ map zlen ss) d (den_strings_loop _ _ _ _ _ _)); [apply cut_strings_loop|exact I|]. split; [|reflexivity].
  exists (rs_sizes t), ss. split; [exact M|]. split; [|reflexivity]. apply slices_cuts; auto; [now apply lossy_utf8|lia|now apply many_uix_nonneg in M].
Qed.
Lemma strings_panics t l : strings_pieces t l -> Forall (fun q => panics (fst q)) l.
Proof. intros (sizes & -> & _). repeat constructor. Qed.
Lemma pieces_string_table c t ss l p d : bytes (rs_text t) -> rs_count t = c_nstrings c -> strings_pieces t l -> cuts (from_utf8_lossy (rs_text t)) (Z.to_nat (c_nstrings c)) 0 (rs_sizes t) ss ->
  pieces (read_string_table c) p d [] l (set_ustrings (zrepeat None (c_nstrings c)) (set_strings_lens (c_strings_lens c ++ map zlen ss) (set_strings ss c))) d.
Proof.
  intros Bt N Sp Cu. unfold read_string_table. eapply pieces_end; [apply pieces_ok_mapped; [eapply pieces_strings; eauto|now apply strings_panics in Sp]|].
  cbv zeta iota. eapply pieces_start; [apply pieces_check|]. apply pieces_ret.
Qed.

(** * The block of bytes *)
Lemma pieces_size v p c : i32_range v -> pieces decode_i32 p c [] [(BytesSize, enc_le 4 v)] v c.
Proof.
  intros R. apply pieces_one; [intros rest _; rewrite zlen_enc; now apply i32_at|]. intros x y _ E Y.
  assert (L : zlen x < 4). { pose proof (zlen_enc 4 v) as L. rewrite E, zlen_app in L. destruct y; [congruence|]. rewrite zlen_cons in L. pose proof (zlen_nonneg y). lia. }
  rewrite i32_dry by exact L. cbn. auto.
Qed.
Lemma pieces_block v p c : pieces (unwrap_mapped (read_bytes (zlen v))) p c [] [(Block, v)] v c.
Proof.
  apply pieces_one.
  - intros rest _. unfold unwrap_mapped. assert (R := eats_read_bytes c v (zlen v) eq_refl p rest). unfold mk in R. unfold At. now rewrite R.
  - intros x y _ E Y. assert (L : zlen x < zlen v). { rewrite E, zlen_app. destruct y; [congruence|]. rewrite zlen_cons. pose proof (zlen_nonneg y). lia. }
    unfold unwrap_mapped. rewrite fixed_dry by exact L. cbn. auto.
Qed.
Lemma pieces_bytes_section c vb ps l p d : (if 5 <=? c_version c then
     exists pos, l = [(BytesSize, enc_le 4 (zlen vb)); (Block, vb); (Elsewhere, pos)] /\ zlen vb < 2 ^ 31 /\ many uix pos ps /\ c_nbytes c = zlen ps
   else l = [] /\ vb = c_bytes c /\ ps = []) -> c_bytes_pos c = [] ->
  pieces (read_bytes_section c) p d [] l (set_bytes_pos ps (set_bytes vb c)) d.
Proof.
  intros H Hp. unfold read_bytes_section. destruct (5 <=? c_version c).
  - destruct H as (pos & -> & L & M & N). pose proof (zlen_nonneg vb). pose proof (zlen_nonneg ps).
    change [(BytesSize, enc_le 4 (zlen vb)); (Block, vb); (Elsewhere, pos)] with ([(BytesSize, enc_le 4 (zlen vb))] ++ [(Block, vb)] ++ [(Elsewhere, pos)]).
    eapply pieces_bind; [apply pieces_size; unfold i32_range; lia|]. cbv beta. destruct (Z.ltb_spec (zlen vb) 0); [lia|].
    eapply pieces_start; [apply pieces_ret|]. cbv beta. eapply pieces_bind; [apply pieces_block|]. cbv beta.
    eapply pieces_end; [eapply (pieces_plain (fun _ => True)); [apply den_read_table, den_UINDEX|cut|exact I|]; split; [|reflexivity]; exists ps; rewrite Hp, app_nil_r; split; [reflexivity|]; split; [lia|exact M]|].
    cbv beta. eapply pieces_start; [apply pieces_check|]. apply pieces_ret.
  - destruct H as (-> & -> & ->). replace (set_bytes_pos [] (set_bytes (c_bytes c) c)) with c by (destruct c; cbn in *; now subst). apply pieces_ret.
Qed.

(** * Debug files *)
Lemma pieces_debugfiles c td fs l p d : 
  (if negb (c_hasdebug c =? 0) then exists n l1, l = (Elsewhere, n) :: l1 /\ uix n (rs_count td) /\ strings_pieces td l1 /\ bytes (rs_text td) /\ cuts (from_utf8_lossy (rs_text td)) (Z.to_nat (rs_count td)) 0 (rs_sizes td) fs
   else l = []) ->
  pieces (read_debugfiles c) p d [] l (if negb (c_hasdebug c =? 0) then set_debugfiles fs (set_ndebugfiles (rs_count td) c) else c) (if negb (c_hasdebug c =? 0) then set_debugfiles fs (set_ndebugfiles (rs_count td) c) else d).
Proof.
  intros H. unfold read_debugfiles. destruct (negb (c_hasdebug c =? 0)); [|subst l; apply pieces_ret].
  destruct H as (n & l1 & -> & V & Sp & Bt & Cu). change ((Elsewhere, n) :: l1) with ([(Elsewhere, n)] ++ l1).
  eapply pieces_bind; [apply (pieces_plain (fun _ => True) _ _ p d [] n (set_ndebugfiles (rs_count td) c) d (den_read_count _ _ _)); [apply cut_read_count|exact I|]; split; [eauto|reflexivity]|].
  cbv beta. eapply pieces_start; [apply pieces_put|]. cbv beta. set (c1 := set_ndebugfiles (rs_count td) c).
  assert (N1 : c_ndebugfiles c1 = rs_count td) by reflexivity. rewrite N1.
  eapply pieces_end; [apply pieces_ok_mapped; [apply (pieces_strings _ (c_debugfiles_lens c1) td fs l1); auto|now apply strings_panics in Sp]|]. cbv beta.
  eapply pieces_start; [apply pieces_get|]. cbv beta iota. eapply pieces_start; [apply pieces_put|]. cbv beta. eapply pieces_start; [apply pieces_get|]. cbv beta. eapply pieces_start; [apply pieces_check|]. apply pieces_ret.
Qed.
