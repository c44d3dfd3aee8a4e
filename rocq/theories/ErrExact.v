(** Exact runs of the reader on files that record errors (C72, C73). *)
From Verif Require Import Prelude StdModel BrassTypes DecoderModel CodeModel FormatSpec ReaderSpec ErrSpec.
From Verif Require Import CodeGenericProofs FormatProofs StringsProofs ReaderPost ErrProofs.
From Coq Require Import Lia ZifyBool.
Ltac Zify.zify_post_hook ::= Z.div_mod_to_equations.

Definition err (k : err_kind) (p : Z) : derr := {| e_kind := k; e_pos := p |}.
(** the state after [bs] and the errors [l] *)
Definition S_ (b : list Z) (p : Z) (c : code) (l : list derr) : st :=
  {| d_buf := b; d_pos := p; d_code := c; errs := kept None l; d_log := l |}.
Lemma bind_step {A B} (m : M A) (k : A -> M B) s a s1 : m s = (Ok a, s1) -> bind m k s = k a s1.
Proof. intros E. unfold bind. now rewrite E. Qed.
Lemma after_S enc rest p c l : after (S_ (enc ++ rest) p c l) (zlen enc) = S_ rest (p + zlen enc) c l.
Proof. unfold after, S_. cbn. f_equal. rewrite to_nat_zlen. rewrite skipn_app, skipn_all, Nat.sub_diag. reflexivity. Qed.
Lemma record_S e b p c l : never_replaces (e_kind e) = false -> record_error e (S_ b p c l) = (Ok tt, S_ b p c (l ++ [e])).
Proof. intros H. unfold record_error, S_. cbn. do 2 f_equal. rewrite kept_app, H. now destruct (kept None l). Qed.
Lemma map_S e b p c l : never_replaces (e_kind e) = true -> map_err e (S_ b p c l) = (Ok tt, S_ b p c (l ++ [e])).
Proof. intros H. unfold map_err, S_. cbn. do 2 f_equal. rewrite kept_app, H. now destruct (kept None l). Qed.
Lemma INDEX_S enc rest v p c l : bytes (enc ++ rest) -> index_value enc = Some v -> INDEX (S_ (enc ++ rest) p c l) = (Ok v, S_ rest (p + zlen enc) c l).
Proof.
  intros B V. unfold INDEX, unwrap. destruct (read_index_exact (S_ (enc ++ rest) p c l) B) as [(enc' & v' & rest' & E & V' & R & _)|(_ & N & _)]; cbn [d_buf S_] in *.
  2:{ now destruct (N enc rest v eq_refl). }
  assert (Q : enc' = enc /\ v' = v /\ rest' = rest).
  { clear - E V V'. unfold index_value in *. destruct enc as [|b [|x [|y [|z [|]]]]]; try discriminate; destruct enc' as [|b' [|x' [|y' [|z' [|]]]]]; try discriminate;
    repeat match goal with H : context [if ?c then _ else _] |- _ => destruct c eqn:? end; try discriminate; cbn [app] in E; injection E; intros; subst;
    try (injection V as <-); try (injection V' as <-); auto; exfalso; lia. }
  destruct Q as (-> & -> & ->). rewrite R. f_equal. apply after_S.
Qed.
Lemma UINDEX_S enc rest v p c l : bytes (enc ++ rest) -> index_value enc = Some v ->
  UINDEX (S_ (enc ++ rest) p c l) = (Ok (Z.max 0 v), S_ rest (p + zlen enc) c (l ++ if v <? 0 then [err NegativeIndex (p + zlen enc)] else [])).
Proof.
  intros B V. unfold UINDEX, unwrap_mapped. unfold bind at 1. rewrite (INDEX_S enc rest v) by auto. destruct (Z.ltb_spec v 0).
  - unfold bind at 1, get_pos. unfold bind. unfold with_info. cbn [d_pos S_]. rewrite (record_S (err NegativeIndex (p + zlen enc))) by reflexivity.
    unfold ret. do 2 f_equal. lia.
  - rewrite app_nil_r. unfold ret. do 2 f_equal. lia.
Qed.
Lemma u8_S b rest p c l : decode_u8 (S_ (b :: rest) p c l) = (Ok b, S_ rest (p + 1) c l).
Proof. erewrite u8_cons by reflexivity. exact (f_equal _ (after_S [b] rest p c l)). Qed.

Definition neg (p : Z) (enc : list Z) : list derr :=
  match index_value enc with Some v => if v <? 0 then [err NegativeIndex (p + zlen enc)] else [] | None => [] end.
Fixpoint negs (p : Z) (encs : list (list Z)) : list derr :=
  match encs with [] => [] | e :: r => neg p e ++ negs (p + zlen e) r end.

(** * The header *)
(** Any header: how [read_counts] ends. *)
Lemma count_S {A} set c enc rest v p l (K : code -> M A) : bytes (enc ++ rest) -> index_value enc = Some v ->
  bind (read_count set c) K (S_ (enc ++ rest) p code_new l) = K (set (Z.max 0 v) c) (S_ rest (p + zlen enc) code_new (l ++ neg p enc)).
Proof.
  intros B V. unfold bind at 1, read_count. unfold bind at 1, ok. rewrite (UINDEX_S enc rest v) by auto. unfold ret, neg. now rewrite V.
Qed.
Lemma bytes_tail (a b : list Z) : bytes (a ++ b) -> bytes b. Proof. intros H. now apply Forall_app in H. Qed.

Lemma end_S {A} (c : A) b p d l : (check_error ;;; ret c) (S_ b p d l) = match kept None l with Some e => (Err e, S_ b p d l) | None => (Ok c, S_ b p d l) end.
Proof. unfold bind, check_error. cbn [errs S_]. destruct (kept None l); reflexivity. Qed.

Definition nfields (v : Z) : Z := 9 + (if 4 <=? v then 1 else 0) + (if 5 <=? v then 1 else 0).
Definition header_code (v : Z) (ks : list Z) : code :=
  let g i := Z.max 0 (nth i ks 0) in
  let o := if 5 <=? v then 1%nat else 0%nat in
  let q := if 4 <=? v then 1%nat else 0%nat in
  let c := set_nstrings (g 3%nat) (set_nfloats (g 2%nat) (set_nints (g 1%nat) (set_version v code_new))) in
  let c := if 5 <=? v then set_nbytes (g 4%nat) c else c in
  let c := set_nfunctions (g (7 + o)%nat) (set_nnatives (g (6 + o)%nat) (set_nglobals (g (5 + o)%nat) (set_ntypes (g (4 + o)%nat) c))) in
  let c := set_nconstants 0 c in
  let c := if 4 <=? v then set_nconstants (g (8 + o)%nat) c else c in
  set_hasdebug (Z.land (g 0%nat) 1) (set_entrypoint (g (8 + o + q)%nat) c).

Lemma counts_S v encs ks rest : 2 <= v <= 5 -> bytes (concat encs ++ rest) -> map index_value encs = map Some ks -> zlen ks = nfields v ->
  read_counts (set_version v code_new) (S_ (concat encs ++ rest) 4 code_new []) =
  (check_error ;;; ret (header_code v ks)) (S_ rest (4 + zlen (concat encs)) code_new (negs 4 encs)).
Proof.
  intros Hv B E L.
  assert (P : exists k0 k1 k2 k3 ks', ks = k0 :: k1 :: k2 :: k3 :: ks').
  { unfold nfields, zlen in L. destruct ks as [|k0 [|k1 [|k2 [|k3 ks]]]]; try (exfalso; cbn [length] in L; destruct (4 <=? v), (5 <=? v); lia). eauto 6. }
  destruct P as (k0 & k1 & k2 & k3 & ks' & ->).
  destruct encs as [|e0 [|e1 [|e2 [|e3 encs]]]]; try discriminate. cbn [map] in E.
  assert (H : index_value e0 = Some k0 /\ index_value e1 = Some k1 /\ index_value e2 = Some k2 /\ index_value e3 = Some k3 /\ map index_value encs = map Some ks').
  { injection E as -> -> -> -> ->. auto. }
  clear E. destruct H as (E0 & E1 & E2 & E3 & E). rewrite !zlen_cons in L.
  cbn [concat] in *. repeat rewrite <- app_assoc in *. unfold read_counts.
  unfold bind at 1, ok at 1. rewrite (UINDEX_S e0 _ k0) by auto. change (4 + zlen e0) with (4 + zlen e0). cbv iota zeta.
  assert (W0 : [] ++ (if k0 <? 0 then [err NegativeIndex (4 + zlen e0)] else []) = [] ++ neg 4 e0) by (unfold neg; now rewrite E0). rewrite W0.
  apply bytes_tail in B. rewrite (count_S _ _ e1 _ k1) by auto. apply bytes_tail in B. rewrite (count_S _ _ e2 _ k2) by auto. apply bytes_tail in B.
  rewrite (count_S _ _ e3 _ k3) by auto. apply bytes_tail in B.
  assert (V : v = 2 \/ v = 3 \/ v = 4 \/ v = 5) by lia.
  Ltac kopt := match goal with |- context [(if ?k <=? c_version ?c then _ else _)] =>
      let t := eval vm_compute in (k <=? c_version c) in replace (k <=? c_version c) with t by reflexivity end; cbv iota.
  Ltac kskip := match goal with |- bind (ret ?c) ?K ?s = _ => change (K c s = ?[g]) end.
  Ltac nextk encs ks' E L B := let e := fresh "e" in let k := fresh "k" in let V := fresh "V" in
    destruct encs as [|e encs]; [destruct ks' as [|k ks']; [exfalso; change (zlen (@nil Z)) with 0 in L; lia|discriminate E]|];
    destruct ks' as [|k ks']; [discriminate E|]; cbn [map] in E; assert (V : index_value e = Some k) by congruence;
    assert (E' : map index_value encs = map Some ks') by congruence; clear E; rename E' into E; rewrite zlen_cons in L; cbn [concat] in B |- *; rewrite <- ?app_assoc in B |- *;
    erewrite (count_S _ _ e _ k) by eassumption; apply bytes_tail in B; cbv beta.
  assert (FIN : forall (c c' : code) b p p' l l', c = c' -> p = p' -> l = l' -> (check_error ;;; ret c) (S_ b p code_new l) = (check_error ;;; ret c') (S_ b p' code_new l')) by (intros; subst; reflexivity).
  assert (L' : zlen ks' = nfields v - 4) by lia. clear L. rename L' into L.
  destruct V as [V|[V|[V|V]]]; subst v; match type of L with _ = ?n => let t := eval vm_compute in n in change n with t in L end.
  all: repeat first [kopt | match goal with |- bind (ret ?c) ?K ?s = ?r => change (K c s = r); cbv beta end | progress cbv zeta | nextk encs ks' E L B].
  all: destruct encs as [|e' encs]; [destruct ks'; [|discriminate]|destruct ks'; [discriminate|exfalso; rewrite zlen_cons in L; pose proof (zlen_nonneg ks'); lia]].
  all: cbn [concat app]; apply FIN; [reflexivity|rewrite ?zlen_app; change (zlen (@nil Z)) with 0; lia|cbn [negs app]; rewrite <- ?app_assoc, ?app_nil_r; reflexivity].
Qed.

Lemma magic_S v rest : 2 <= v <= 5 -> read_magic code_new (start None ([72; 76; 66; v] ++ rest)) = (Ok (set_version v code_new), S_ rest 4 code_new []).
Proof.
  intros Hv. change (start None ([72; 76; 66; v] ++ rest)) with (S_ (72 :: 76 :: 66 :: v :: rest) 0 code_new []).
  unfold read_magic. unfold bind at 1, unwrap at 1. rewrite u8_S. change (negb (72 =? 72)) with false. cbv iota.
  unfold bind at 1. unfold bind at 1, unwrap at 1. rewrite u8_S. change (negb (76 =? 76)) with false. cbv iota.
  unfold bind at 1, unwrap at 1. rewrite u8_S. unfold ret at 1. change (negb (66 =? 66)) with false. cbv iota.
  unfold bind at 1, unwrap_mapped at 1. rewrite u8_S. replace ((v <=? 1) || (5 <? v)) with false by lia. reflexivity.
Qed.
Lemma negs_split before enc rest p : negs p (before ++ enc :: rest) = negs p before ++ neg (p + zlen (concat before)) enc ++ negs (p + zlen (concat before) + zlen enc) rest.
Proof.
  revert p; induction before as [|e b IH]; intros p; cbn [app negs concat].
  - change (zlen (@nil Z)) with 0. now rewrite Z.add_0_r.
  - rewrite IH, zlen_app, <- app_assoc, !Z.add_assoc. reflexivity.
Qed.
Lemma negs_none encs ks : map index_value encs = map Some ks -> Forall (fun k => 0 <= k) ks -> forall p, negs p encs = [].
Proof.
  revert ks; induction encs as [|e r IH]; intros [|k ks] E F p; try discriminate; [reflexivity|]. cbn in E. inversion E. inversion F; subst. cbn [negs]. unfold neg.
  rewrite H0. destruct (Z.ltb_spec k 0); [lia|]. eapply IH; eauto.
Qed.
Lemma kept_last e l : forall c, never_replaces (e_kind e) = false -> kept c (l ++ [e]) = Some e.
Proof. intros c H. rewrite kept_app, H. now destruct (kept c l). Qed.
Lemma kept_first e l : never_replaces (e_kind e) = true -> Forall (fun x => never_replaces (e_kind x) = true) l -> kept None (e :: l) = Some e.
Proof. intros _ F. cbn. induction F as [|x l Q F IH]; [reflexivity|]. cbn. now rewrite Q. Qed.

Lemma header_error v before enc more ks1 k ks2 rest : 2 <= v <= 5 ->
  bytes (concat (before ++ enc :: more) ++ rest) -> map index_value before = map Some ks1 -> index_value enc = Some k -> k < 0 -> map index_value more = map Some ks2 ->
  Forall (fun k => 0 <= k) ks2 -> zlen (before ++ enc :: more) = nfields v ->
  exists s', code_read (start None ([72; 76; 66; v] ++ concat (before ++ enc :: more) ++ rest)) = (Err (err NegativeIndex (4 + zlen (concat before) + zlen enc)), s') /\
    errs s' = Some (err NegativeIndex (4 + zlen (concat before) + zlen enc)).
Proof.
  intros Hv B E1 E2 Hk E3 F L. unfold code_read. cbv zeta. rewrite (bind_step _ _ _ _ _ (magic_S v _ Hv)).
  unfold bind at 1. rewrite (counts_S v _ (ks1 ++ k :: ks2)); auto.
  - rewrite end_S, negs_split. rewrite (negs_none more ks2) by auto. rewrite app_nil_r. unfold neg. rewrite E2. destruct (Z.ltb_spec k 0); [|lia].
    rewrite kept_last by reflexivity. eexists. split; [reflexivity|]. cbn [errs S_]. now rewrite kept_last by reflexivity.
  - rewrite !map_app. cbn [map]. congruence.
  - rewrite <- L. unfold zlen. rewrite !app_length. cbn [length]. assert (Q : forall (a : list (list Z)) b, map index_value a = map Some b -> length b = length a).
    { intros a b H. apply (f_equal (@length _)) in H. rewrite !map_length in H. auto. } rewrite (Q _ _ E1), (Q _ _ E3). reflexivity.
Qed.

(** * Small files *)
Lemma no_loop {A} (body : Z -> A -> M A) acc s : for_range 0 body acc s = (Ok acc, s). Proof. reflexivity. Qed.
Lemma check_S b p d : check_error (S_ b p d []) = (Ok tt, S_ b p d []). Proof. reflexivity. Qed.
Lemma front_S {A} (K : code -> M A) c b p : c_nints c = 0 -> c_nfloats c = 0 -> c_nstrings c = 0 -> c_version c = 4 -> c_hasdebug c = 0 ->
  (c <- read_ints c ;; c <- read_floats c ;; c <- read_string_table c ;; c <- read_bytes_section c ;; c <- read_debugfiles c ;; K c) (S_ ([0; 0; 0; 0] ++ b) p code_new []) =
  K (set_ustrings [] (set_strings_lens (c_strings_lens c) (set_strings [] (set_floats [] (set_ints [] c))))) (S_ b (p + 4) code_new []).
Proof.
  intros H1 H2 H3 H4 H5.
  assert (R1 : read_ints c (S_ ([0; 0; 0; 0] ++ b) p code_new []) = (Ok (set_ints [] c), S_ ([0; 0; 0; 0] ++ b) p code_new [])).
  { unfold read_ints. rewrite H1. reflexivity. }
  rewrite (bind_step _ _ _ _ _ R1).
  assert (R2 : read_floats (set_ints [] c) (S_ ([0; 0; 0; 0] ++ b) p code_new []) = (Ok (set_floats [] (set_ints [] c)), S_ ([0; 0; 0; 0] ++ b) p code_new [])).
  { unfold read_floats. change (c_nfloats (set_ints [] c)) with (c_nfloats c). rewrite H2. reflexivity. }
  rewrite (bind_step _ _ _ _ _ R2).
  assert (R3 : read_strings 0 (c_strings_lens c) (S_ ([0; 0; 0; 0] ++ b) p code_new []) = (Ok ([], c_strings_lens c), S_ b (p + 4) code_new [])).
  { unfold read_strings. unfold bind at 1, unwrap.
    assert (R : decode_i32 (S_ ([0; 0; 0; 0] ++ b) p code_new []) = (Ok 0, S_ b (p + 4) code_new [])).
    { unfold decode_i32, decode_signed, bind, read_bytes. cbn [d_buf S_]. assert (Q : zlen ([0; 0; 0; 0] ++ b) <? 4 = false).
      { rewrite zlen_app. change (zlen [0; 0; 0; 0]) with 4. pose proof (zlen_nonneg b). lia. }
      rewrite Q. reflexivity. }
    rewrite R. cbv zeta. change (i32_as_usize 0) with 0. unfold bind at 1. cbn [d_buf S_]. pose proof (zlen_nonneg b).
    destruct (Z.ltb_spec (zlen b) 0); [lia|]. unfold bind at 1, advance. cbn [d_buf S_ d_pos d_code errs d_log]. destruct (Z.ltb_spec (zlen b) 0); [lia|]. cbn [Z.to_nat skipn strings_loop ret].
    unfold ret, S_. do 2 f_equal. lia. }
  assert (R4 : read_string_table (set_floats [] (set_ints [] c)) (S_ ([0; 0; 0; 0] ++ b) p code_new []) =
    (Ok (set_ustrings [] (set_strings_lens (c_strings_lens c) (set_strings [] (set_floats [] (set_ints [] c))))), S_ b (p + 4) code_new [])).
  { unfold read_string_table. change (c_nstrings (set_floats [] (set_ints [] c))) with (c_nstrings c). rewrite H3.
    change (c_strings_lens (set_floats [] (set_ints [] c))) with (c_strings_lens c). unfold bind at 1, ok_mapped. rewrite R3. cbv iota zeta.
    change (c_nstrings (set_strings_lens (c_strings_lens c) (set_strings [] (set_floats [] (set_ints [] c))))) with (c_nstrings c). rewrite H3. reflexivity. }
  rewrite (bind_step _ _ _ _ _ R4). set (c1 := set_ustrings [] _).
  assert (R5 : read_bytes_section c1 (S_ b (p + 4) code_new []) = (Ok c1, S_ b (p + 4) code_new [])).
  { unfold read_bytes_section. change (c_version c1) with (c_version c). rewrite H4. reflexivity. }
  rewrite (bind_step _ _ _ _ _ R5).
  assert (R6 : read_debugfiles c1 (S_ b (p + 4) code_new []) = (Ok c1, S_ b (p + 4) code_new [])).
  { unfold read_debugfiles. change (c_hasdebug c1) with (c_hasdebug c). rewrite H5. reflexivity. }
  now rewrite (bind_step _ _ _ _ _ R6).
Qed.

Fixpoint badk (p : Z) (kinds : list Z) : list derr :=
  match kinds with [] => [] | k :: r => (if 23 <=? k then [err InvalidType (p + 1)] else []) ++ badk (p + 1) r end.
Definition easy (k : Z) : Prop := plain_kind k = true \/ 23 <= k.
Lemma read_type_S k rest p c l : easy k -> exists t, read_type (S_ (k :: rest) p c l) = (Ok t, S_ rest (p + 1) c (l ++ if 23 <=? k then [err InvalidType (p + 1)] else [])).
Proof.
  intros E. unfold read_type. unfold bind at 1, unwrap at 1. rewrite u8_S. unfold HLAST. destruct (Z.leb_spec 23 k).
  - eexists. unfold bind at 1, get_pos. unfold bind. unfold with_info. cbn [d_pos S_]. rewrite (map_S (err InvalidType (p + 1))) by reflexivity. reflexivity.
  - destruct E as [E|E]; [|lia]. rewrite app_nil_r. unfold plain_kind in E. cbn [existsb] in E.
    assert (K : k = 0 \/ k = 1 \/ k = 2 \/ k = 3 \/ k = 4 \/ k = 5 \/ k = 6 \/ k = 7 \/ k = 8 \/ k = 9 \/ k = 12 \/ k = 13 \/ k = 16) by lia. clear E H.
    repeat (destruct K as [->|K]; [eexists; reflexivity|]). subst k. eexists. reflexivity.
Qed.
Definition tbody (i : Z) (c : code) : M code :=
  put_code c ;;; t <- read_type ;; dc <- get_code ;; ts <- vec_insert (c_types dc) i t ;; put_code (set_types ts dc) ;;; get_code.
Lemma types_S kinds : forall i c rest p d l, Forall easy kinds -> 0 <= i <= zlen (c_types c) ->
  exists c' d', for_loop (length kinds) i tbody c (S_ (kinds ++ rest) p d l) = (Ok c', S_ rest (p + zlen kinds) d' (l ++ badk p kinds)) /\
    c_ntypes c' = c_ntypes c /\ c_nglobals c' = c_nglobals c /\ zlen (c_types c') = zlen (c_types c) + zlen kinds.
Proof.
  induction kinds as [|k kinds IH]; intros i c rest p d l F Hi.
  - cbn [length for_loop app badk]. exists c, d. rewrite app_nil_r. change (zlen (@nil Z)) with 0. rewrite !Z.add_0_r. auto.
  - inversion F; subst. cbn [length for_loop app badk].
    destruct (read_type_S k (kinds ++ rest) p c l H1) as (t & R).
    destruct (zinsert_some (c_types c) i t Hi) as (ts & Ts). pose proof (zinsert_len _ _ _ _ Ts) as Lt.
    assert (S : tbody i c (S_ (k :: kinds ++ rest) p d l) = (Ok (set_types ts c), S_ (kinds ++ rest) (p + 1) (set_types ts c) (l ++ if 23 <=? k then [err InvalidType (p + 1)] else []))).
    { unfold tbody. change (put_code c) with (put_code c). unfold bind at 1, put_code at 1. change {| d_buf := d_buf (S_ (k :: kinds ++ rest) p d l); d_pos := d_pos (S_ (k :: kinds ++ rest) p d l); d_code := c; errs := errs (S_ (k :: kinds ++ rest) p d l); d_log := d_log (S_ (k :: kinds ++ rest) p d l) |} with (S_ (k :: kinds ++ rest) p c l).
      unfold bind at 1. rewrite R. unfold bind at 1, get_code at 1. cbn [d_code S_]. unfold bind at 1, vec_insert. rewrite Ts. reflexivity. }
    rewrite (bind_step _ _ _ _ _ S). destruct (IH (i + 1) (set_types ts c) rest (p + 1) (set_types ts c) (l ++ if 23 <=? k then [err InvalidType (p + 1)] else []) H2) as (c' & d' & R' & Q1 & Q2 & Q3).
    { change (c_types (set_types ts c)) with ts. lia. }
    exists c', d'. rewrite R'. split; [|split; [exact Q1|]; split; [exact Q2|]].
    + rewrite zlen_cons, <- app_assoc. f_equal. f_equal. lia.
    + rewrite Q3, zlen_cons. change (c_types (set_types ts c)) with ts. lia.
Qed.

Definition badr1 (p n : Z) (enc : list Z) : list derr :=
  match index_value enc with Some v => if (v <? 0) || (n <=? v) then [err InvalidTypeIndex (p + zlen enc)] else [] | None => [] end.
Fixpoint badr (p n : Z) (encs : list (list Z)) : list derr :=
  match encs with [] => [] | e :: r => badr1 p n e ++ badr (p + zlen e) n r end.
Lemma get_type_S enc rest v p c l : bytes (enc ++ rest) -> index_value enc = Some v -> 0 < c_ntypes c <= zlen (c_types c) -> c_ntypes c <= I32_MAX ->
  exists t, get_type (S_ (enc ++ rest) p c l) = (Ok t, S_ rest (p + zlen enc) c (l ++ badr1 p (c_ntypes c) enc)).
Proof.
  intros B V N1 N2. unfold get_type. unfold bind at 1, unwrap. rewrite (INDEX_S enc rest v) by auto. unfold bind at 1, get_code at 1. cbn [d_code S_].
  unfold bind at 1. rewrite to_i32_ok by auto. unfold badr1. rewrite V. destruct ((v <? 0) || (c_ntypes c <=? v)) eqn:Q.
  - unfold bind at 1, get_pos. unfold bind at 1. unfold with_info. cbn [d_pos S_]. rewrite (record_S (err InvalidTypeIndex (p + zlen enc))) by reflexivity.
    rewrite (znth_nth _ _ vt_default) by lia. eexists. reflexivity.
  - rewrite (znth_nth _ _ vt_default) by lia. rewrite app_nil_r. eexists. reflexivity.
Qed.
Definition gbody (i : Z) (c : code) : M code :=
  put_code c ;;; r <- ok_mapped get_type ;;
  (match r with Some t => dc <- get_code ;; gs <- vec_insert (c_globals dc) i t ;; put_code (set_globals gs dc) | None => ret tt end) ;;; get_code.
Lemma put_S c b p d l : put_code c (S_ b p d l) = (Ok tt, S_ b p c l). Proof. reflexivity. Qed.
Lemma globals_S n encs : forall vs i c rest p d l, bytes (concat encs ++ rest) -> map index_value encs = map Some vs -> 0 <= i <= zlen (c_globals c) ->
  c_ntypes c = n -> 0 < n <= zlen (c_types c) -> n <= I32_MAX ->
  exists c' d', for_loop (length encs) i gbody c (S_ (concat encs ++ rest) p d l) = (Ok c', S_ rest (p + zlen (concat encs)) d' (l ++ badr p n encs)).
Proof.
  induction encs as [|e encs IH]; intros vs i c rest p d l B E Hi N1 N2 N3.
  - cbn [length for_loop app badr concat]. exists c, d. rewrite app_nil_r. change (zlen (@nil Z)) with 0. rewrite !Z.add_0_r. auto.
  - destruct vs as [|v vs]; [discriminate|]. cbn [map] in E. assert (V : index_value e = Some v) by congruence. assert (E' : map index_value encs = map Some vs) by congruence.
    cbn [length for_loop app badr concat] in *. rewrite <- app_assoc in *.
    destruct (get_type_S e (concat encs ++ rest) v p c l B V) as (t & R); [lia|lia|].
    destruct (zinsert_some (c_globals c) i t Hi) as (gs & Gs). pose proof (zinsert_len _ _ _ _ Gs) as Lg.
    assert (S : gbody i c (S_ (e ++ concat encs ++ rest) p d l) = (Ok (set_globals gs c), S_ (concat encs ++ rest) (p + zlen e) (set_globals gs c) (l ++ badr1 p n e))).
    { unfold gbody. unfold bind at 1. rewrite put_S. unfold bind at 1, ok_mapped. rewrite R, N1. unfold bind at 1. unfold bind at 1, get_code at 1. cbn [d_code S_].
      unfold bind at 1, vec_insert. rewrite Gs. reflexivity. }
    rewrite (bind_step _ _ _ _ _ S). apply bytes_tail in B.
    destruct (IH vs (i + 1) (set_globals gs c) rest (p + zlen e) (set_globals gs c) (l ++ badr1 p n e) B E') as (c' & d' & R'); [change (c_globals (set_globals gs c)) with gs; lia|exact N1|exact N2|exact N3|].
    exists c', d'. rewrite R', zlen_app, <- app_assoc, Z.add_assoc. reflexivity.
Qed.

Definition small_end (kinds : list Z) (globals : list (list Z)) (p : Z) : list derr :=
  badk p kinds ++ badr (p + zlen kinds) (zlen kinds) globals.
Lemma small_head counts kinds globals rest : bytes (small_file counts kinds globals rest) -> small_counts counts (zlen kinds) (zlen globals) ->
  exists c, c_ntypes c = zlen kinds /\ c_nglobals c = zlen globals /\
  code_read (start None (small_file counts kinds globals rest)) =
   (c <- read_types c ;; c <- read_globals c ;; c <- read_natives c ;; c <- read_functions c ;; c <- read_constants c ;; get_code)
     (S_ (kinds ++ concat globals ++ rest) (8 + zlen (concat counts)) code_new []).
Proof.
  intros B (nn & nf & nk & ep & E & H1 & H2 & H3 & H4).
  set (ks := [0; 0; 0; 0; zlen kinds; zlen globals; nn; nf; nk; ep]) in *.
  pose proof (zlen_nonneg kinds) as Hk. pose proof (zlen_nonneg globals) as Hg.
  assert (NN : negs 4 counts = []).
  { apply (negs_none counts ks E). unfold ks. repeat constructor; auto; lia. }
  assert (HC : exists c, header_code 4 ks = c /\ c_ntypes c = zlen kinds /\ c_nglobals c = zlen globals /\ c_nints c = 0 /\ c_nfloats c = 0 /\ c_nstrings c = 0 /\ c_version c = 4 /\ c_hasdebug c = 0).
  { eexists. split; [reflexivity|]. cbv [header_code ks nth Nat.add Z.leb Z.compare Pos.compare Pos.compare_cont]. cbn [c_ntypes c_nglobals c_nints c_nfloats c_nstrings c_version c_hasdebug set_hasdebug set_entrypoint set_nconstants set_nfunctions set_nnatives set_nglobals set_ntypes set_nstrings set_nfloats set_nints set_version].
    repeat split; lia. }
  destruct HC as (c & HC & Hn & Hm & H5 & H6 & H7 & H8 & H9).
  exists (set_ustrings [] (set_strings_lens (c_strings_lens c) (set_strings [] (set_floats [] (set_ints [] c))))).
  split; [destruct c; exact Hn|]. split; [destruct c; exact Hm|]. unfold code_read, small_file in *. cbv zeta. rewrite (bind_step _ _ _ _ _ (magic_S 4 _ ltac:(lia))).
  unfold bind at 1. rewrite (counts_S 4 counts ks); auto; [|lia|apply bytes_tail in B; exact B].
  rewrite NN, HC. rewrite end_S. cbn [kept]. cbv iota.
  rewrite front_S by assumption. f_equal. f_equal. lia.
Qed.
Lemma small_error counts kinds globals vs rest e : bytes (small_file counts kinds globals rest) -> small_counts counts (zlen kinds) (zlen globals) ->
  Forall easy kinds -> map index_value globals = map Some vs -> kinds <> [] -> zlen kinds <= I32_MAX ->
  kept None (small_end kinds globals (8 + zlen (concat counts))) = Some e ->
  exists s', code_read (start None (small_file counts kinds globals rest)) = (Err e, s') /\ errs s' = Some e.
Proof.
  intros B C F V NE Mx K. destruct (small_head counts kinds globals rest B C) as (c & Hn & Hm & ->).
  set (p := 8 + zlen (concat counts)) in *.
  assert (B2 : bytes (concat globals ++ rest)). { unfold small_file in B. do 4 apply bytes_tail in B. exact B. }
  assert (Lk : 0 < zlen kinds). { destruct kinds; [congruence|]. rewrite zlen_cons. pose proof (zlen_nonneg kinds). lia. }
  assert (ZL : zlen (zrepeat vt_default (c_ntypes c)) = c_ntypes c) by (apply zlen_repeat; lia).
  destruct (types_S kinds 0 (set_types (zrepeat vt_default (c_ntypes c)) c) (concat globals ++ rest) p code_new [] F) as (c1 & d1 & R1 & Q1 & Q2 & Q3).
  { change (c_types (set_types (zrepeat vt_default (c_ntypes c)) c)) with (zrepeat vt_default (c_ntypes c)). lia. }
  change (c_types (set_types (zrepeat vt_default (c_ntypes c)) c)) with (zrepeat vt_default (c_ntypes c)) in Q3.
  change (c_ntypes (set_types (zrepeat vt_default (c_ntypes c)) c)) with (c_ntypes c) in Q1. change (c_nglobals (set_types (zrepeat vt_default (c_ntypes c)) c)) with (c_nglobals c) in Q2.
  assert (R1' : read_types c (S_ (kinds ++ concat globals ++ rest) p code_new []) = (Ok c1, S_ (concat globals ++ rest) (p + zlen kinds) d1 (badk p kinds))).
  { unfold read_types, for_range. rewrite Hn at 1. rewrite to_nat_zlen. exact R1. }
  rewrite (bind_step _ _ _ _ _ R1').
  assert (ZG : zlen (zrepeat vt_default (c_nglobals c1)) = c_nglobals c1) by (apply zlen_repeat; pose proof (zlen_nonneg globals); lia).
  destruct (globals_S (zlen kinds) globals vs 0 (set_globals (zrepeat vt_default (c_nglobals c1)) c1) rest (p + zlen kinds) d1 (badk p kinds) B2 V) as (c2 & d2 & R2).
  { change (c_globals (set_globals (zrepeat vt_default (c_nglobals c1)) c1)) with (zrepeat vt_default (c_nglobals c1)). pose proof (zlen_nonneg globals). lia. }
  { change (c_ntypes (set_globals (zrepeat vt_default (c_nglobals c1)) c1)) with (c_ntypes c1). lia. }
  { change (c_types (set_globals (zrepeat vt_default (c_nglobals c1)) c1)) with (c_types c1). lia. }
  { auto. }
  assert (R2' : read_globals c1 (S_ (concat globals ++ rest) (p + zlen kinds) d1 (badk p kinds)) = (Err e, S_ rest (p + zlen kinds + zlen (concat globals)) d2 (small_end kinds globals p))).
  { unfold read_globals. change (fun (i : Z) (c : code) => _) with gbody. unfold for_range. rewrite Q2, Hm, to_nat_zlen. rewrite <- Hm, <- Q2. rewrite (bind_step _ _ _ _ _ R2). rewrite end_S. unfold small_end in K |- *. now rewrite K. }
  unfold bind at 1. rewrite R2'. eexists. split; [reflexivity|]. exact K.
Qed.
Lemma small_crash counts globals rest : bytes (small_file counts [] globals rest) -> small_counts counts 0 (zlen globals) -> globals <> [] -> Forall (fun e => index_value e <> None) globals ->
  exists s', code_read (start None (small_file counts [] globals rest)) = (Panic PUnwrap, s') /\
    errs s' = Some (err InvalidTypeIndex (8 + zlen (concat counts) + match globals with e :: _ => zlen e | [] => 0 end)).
Proof.
  intros B C NE V. destruct (small_head counts [] globals rest B C) as (c & Hn & Hm & ->). change (zlen (@nil Z)) with 0 in Hn.
  set (p := 8 + zlen (concat counts)). assert (B2 : bytes (concat globals ++ rest)). { unfold small_file in B. do 4 apply bytes_tail in B. exact B. }
  assert (R1 : read_types c (S_ ([] ++ concat globals ++ rest) p code_new []) = (Ok (set_types [] c), S_ (concat globals ++ rest) p code_new [])).
  { unfold read_types. rewrite Hn. reflexivity. }
  rewrite (bind_step _ _ _ _ _ R1). destruct globals as [|e gs]; [congruence|]. inversion V; subst. destruct (index_value e) as [v|] eqn:Ev; [|congruence].
  unfold read_globals. change (c_nglobals (set_types [] c)) with (c_nglobals c). unfold for_range. rewrite Hm, to_nat_zlen. cbn [length for_loop concat]. cbn [concat] in B2. rewrite <- app_assoc in B2 |- *.
  unfold bind at 1. unfold bind at 1. unfold bind at 1. unfold bind at 1. rewrite put_S. unfold bind at 1, ok_mapped, get_type. unfold bind at 1, unwrap. rewrite (INDEX_S e _ v) by auto.
  unfold bind at 1, get_code at 1. cbn [d_code S_]. match goal with |- context [to_i32 (c_ntypes ?c0)] => change (c_ntypes c0) with (c_ntypes c) end. rewrite Hn. unfold bind at 1. rewrite to_i32_ok by (unfold I32_MAX; lia).
  replace ((v <? 0) || (0 <=? v)) with true by lia. unfold bind at 1, get_pos. unfold bind at 1, with_info. cbn [d_pos S_]. rewrite (record_S (err InvalidTypeIndex (p + zlen e))) by reflexivity.
  eexists. split; [reflexivity|]. reflexivity.
Qed.
