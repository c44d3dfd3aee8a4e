(** Table sizes of accepted modules, section by section. *)
From Verif Require Import Prelude StdModel BrassTypes DecoderModel CodeModel FormatSpec ReaderSpec
  CodeGenericProofs Utf8Proofs FormatProofs StringsProofs TypesProofs OpsProofs ModuleProofs ReaderPost AcceptSpec.
From Coq Require Import Lia.

Lemma h_and {A} P (m : M A) Q1 Q2 : hoare P m Q1 -> hoare P m Q2 -> hoare P m (fun a d => Q1 a d /\ Q2 a d).
Proof. intros H1 H2 s a s' B HP E N. split; [eapply H1|eapply H2]; eauto. Qed.
Lemma h_pure {A} (H : Prop) P (m : M A) Q : (H -> hoare P m Q) -> hoare (fun d => H /\ P d) m Q.
Proof. intros K s a s' B [h HP] E N. eapply K; eauto. Qed.
Lemma h_true {A} P (m : M A) : hoare P m (fun _ _ => True).
Proof. repeat intro. exact I. Qed.

Lemma h_i32 P : hoare P decode_i32 (fun v d => i32_range v /\ P d).
Proof. apply h_value; [apply r_i32, pre_eq|]. intros. unfold i32_range. eapply decode_i32_range; eauto. Qed.
Lemma h_u64 P : hoare P decode_u64 (fun v d => 0 <= v < 2 ^ 64 /\ P d).
Proof.
  apply h_value; [apply r_u, pre_eq|]. intros s a s' B E _. unfold decode_u64, decode_unsigned in E.
  apply bind_ok in E as (bs & s1 & E1 & E2). inversion E2; subst. unfold read_bytes in E1.
  destruct (Z.ltb_spec (zlen (d_buf s)) 8); [discriminate|]. inversion E1; subst.
  pose proof (from_le_bound (firstn (Z.to_nat 8) (d_buf s)) (bytes_firstn _ _ B)) as R.
  rewrite firstn_length in R. unfold zlen in *. replace (Nat.min (Z.to_nat 8) (length (d_buf s))) with 8%nat in R by lia.
  exact R.
Qed.

(** Inserting successive values at successive positions appends them. *)
Lemma zinsert_app {A} (l : list A) x : zinsert l (zlen l) x = Some (l ++ [x]).
Proof.
  induction l as [|y l IH]; [reflexivity|]. cbn [zinsert]. rewrite zlen_cons.
  destruct (Z.eqb_spec (1 + zlen l) 0); [unfold zlen in *; lia|].
  replace (1 + zlen l - 1) with (zlen l) by lia. now rewrite IH.
Qed.
Lemma h_append {A} (V : A -> Prop) P (m : M A) n : Good true m -> hoare P m (fun x d => V x /\ P d) -> 0 <= n ->
  hoare P (for_range n (fun i l => x <- m ;; vec_insert l i x) []) (fun l d => (zlen l = n /\ Forall V l) /\ P d).
Proof.
  intros Gm Hm Hn.
  eapply h_pre; [eapply (h_for (fun j l d => (zlen l = j /\ Forall V l) /\ P d)); auto|cbn; auto].
  { intros. apply good_bind; [exact Gm|]. intros; apply good_vec_insert. }
  intros j l Hj. apply h_pure. intros [L F].
  eapply h_bind_val; [exact Hm|exact Gm|intros; apply good_vec_insert|]. intros x Hx.
  eapply h_conseq; [apply h_insert|intros d H; exact H|]. cbn. intros l' d [E HP]. subst j.
  rewrite zinsert_app in E. inversion E; subst. split; [|auto]. split.
  - now rewrite zlen_app.
  - apply Forall_app; auto.
Qed.
Lemma h_append_ok {A} (V : A -> Prop) P (m : M (option A)) n : Good true m ->
  hoare P m (fun o d => (exists x, o = Some x /\ V x) /\ P d) -> 0 <= n ->
  hoare P (for_range n (fun i l => r <- m ;; match r with Some x => vec_insert l i x | None => ret l end) [])
    (fun l d => (zlen l = n /\ Forall V l) /\ P d).
Proof.
  intros Gm Hm Hn.
  eapply h_pre; [eapply (h_for (fun j l d => (zlen l = j /\ Forall V l) /\ P d)); auto|cbn; auto].
  { intros. apply good_bind; [exact Gm|]. intros [x|]; [apply good_vec_insert|apply good_ret]. }
  intros j l Hj. apply h_pure. intros [L F].
  eapply h_bind_val; [exact Hm|exact Gm|intros [x|]; [apply good_vec_insert|apply good_ret]|]. intros o (x & -> & Hx).
  eapply h_conseq; [apply h_insert|intros d H; exact H|]. cbn. intros l' d [E HP]. subst j.
  rewrite zinsert_app in E. inversion E; subst. split; [|auto]. split.
  - now rewrite zlen_app.
  - apply Forall_app; auto.
Qed.

Lemma h_ok_mapped_val {A} P (m : M A) V : hoare P m (fun x d => V x /\ P d) ->
  hoare P (ok_mapped m) (fun o d => (exists x, o = Some x /\ V x) /\ P d).
Proof.
  intros H. eapply h_conseq; [apply h_ok_mapped, H|intros d H0; exact H0|]. cbn. intros o d (a & -> & Hv & HP). eauto.
Qed.

Lemma h_read_ints P c : 0 <= c_nints c ->
  hoare P (read_ints c) (fun c' d => (exists l, zlen l = c_nints c /\ Forall i32_range l /\ c' = set_ints l c) /\ P d).
Proof.
  intros Hn. unfold read_ints, read_table.
  eapply h_bind_val; [apply h_append_ok; [good|apply h_ok_mapped_val, h_i32|exact Hn]|good|intros; good|].
  intros l [L F]. eapply h_bind; [apply h_check_error|good|intros; good|]. intros u. apply h_ret. intros d HP. eauto.
Qed.
Lemma h_read_floats P c : 0 <= c_nfloats c ->
  hoare P (read_floats c) (fun c' d => (exists l, zlen l = c_nfloats c /\ Forall (fun x => 0 <= x < 2 ^ 64) l /\ c' = set_floats l c) /\ P d).
Proof.
  intros Hn. unfold read_floats, read_table.
  eapply h_bind_val; [apply h_append_ok; [good|apply h_ok_mapped_val, h_u64|exact Hn]|good|intros; good|].
  intros l [L F]. eapply h_bind; [apply h_check_error|good|intros; good|]. intros u. apply h_ret. intros d HP. eauto.
Qed.

Lemma piece_utf8 t s : piece_of t s -> utf8 s. Proof. intros [H _]. exact H. Qed.
Lemma h_read_strings P n lens : 0 <= n ->
  hoare P (read_strings n lens) (fun r d => (Forall utf8 (fst r) /\ snd r = lens ++ map zlen (fst r) /\ zlen (fst r) <= n) /\ P d).
Proof.
  intros Hn. apply h_value; [apply r_read_strings, pre_eq|]. intros s [ss l] s' B E _.
  destruct (read_strings_spec _ _ _ _ _ _ B Hn E) as (size & raw & rest & text & _ & _ & _ & H1 & H2 & H3).
  cbn. repeat split; auto. eapply Forall_impl; [|exact H3]. apply piece_utf8.
Qed.
Lemma h_read_string_table P c : 0 <= c_nstrings c ->
  hoare P (read_string_table c) (fun c' d => (exists ss, Forall utf8 ss /\ zlen ss <= c_nstrings c /\
    c' = set_ustrings (zrepeat None (c_nstrings c)) (set_strings_lens (c_strings_lens c ++ map zlen ss) (set_strings ss c))) /\ P d).
Proof.
  intros Hn. unfold read_string_table.
  eapply h_bind_val; [apply h_ok_mapped_val, h_read_strings, Hn|good|intros; cbv zeta; good|].
  intros o ([ss l] & -> & U & L & N). cbn [fst snd] in *. cbv zeta.
  eapply h_bind; [apply h_check_error|good|intros; good|]. intros u. apply h_ret. intros d HP.
  split; [|auto]. exists ss. subst l. auto.
Qed.

Lemma h_read_bytes P n : hoare P (read_bytes n) (fun l d => bytes l /\ P d).
Proof.
  apply h_value; [apply r_read_bytes, pre_eq|]. intros s a s' B E _. unfold read_bytes in E.
  destruct (_ <? _); inversion E; subst. now apply bytes_firstn.
Qed.
Lemma h_read_bytes_section P c : 0 <= c_nbytes c -> c_bytes_pos c = [] -> c_bytes c = [] -> (c_version c < 5 -> c_nbytes c = 0) ->
  hoare P (read_bytes_section c) (fun c' d => (exists bs ps, bytes bs /\ zlen ps = c_nbytes c /\ Forall (fun x => 0 <= x) ps /\
    c' = set_bytes_pos ps (set_bytes bs c)) /\ P d).
Proof.
  intros Hn Hp Hb Hv. unfold read_bytes_section. destruct (Z.leb_spec 5 (c_version c)).
  - eapply h_bind_val; [apply h_i32|good| |].
    { intros a. apply good_bind_val with (P := fun _ => 0 <= a).
      - intros s x s' _ E. destruct (Z.ltb_spec a 0); [discriminate|auto].
      - good.
      - intros _ Ha. good. now apply good_read_bytes. }
    intros size _. destruct (Z.ltb_spec size 0) as [|Hs]; [intros s a s' _ _ E; discriminate|].
    assert (G : Good true (read_bytes size)) by now apply good_read_bytes.
    eapply h_bind with (Q := fun _ => P); [apply h_ret; auto|good|intros; good|].
    intros u1. eapply h_bind_val; [apply h_unwrap_mapped, h_read_bytes|good|intros; good|]. intros bs Bb.
    eapply h_bind_val; [rewrite Hp; apply h_append_ok; [good|apply h_ok_mapped_val, h_UINDEX|exact Hn]|good|intros; good|].
    intros ps [L F]. eapply h_bind; [apply h_check_error|good|intros; good|]. intros u. apply h_ret. intros d HP.
    split; [|auto]. exists bs, ps. auto.
  - apply h_ret. intros d HP. split; [|auto]. exists [], []. rewrite Hv by auto. repeat split; auto; try constructor.
    destruct c; cbn in *. now subst.
Qed.

(** * Debug files *)
Lemma h_rel {A} (R : code -> code -> Prop) (m : M A) d0 : rel_code R m -> hoare (fun d => d = d0) m (fun _ d => R d0 d).
Proof. intros H s a s' _ Hd E _. subst d0. eapply H; eauto. Qed.
Lemma h_get {A} X (k : code -> M A) R : hoare (fun d => d = X) (k X) R -> hoare (fun d => d = X) (bind get_code k) R.
Proof. intros H s a s' B HP E N. cbv beta in HP. unfold bind, get_code in E. rewrite HP in E. eapply H; eauto. Qed.
Lemma h_put {A} P c (k : unit -> M A) R : hoare (fun d => d = c) (k tt) R -> hoare P (bind (put_code c) k) R.
Proof. intros H s a s' B HP E N. unfold bind, put_code in E. eapply H; [| |exact E|exact N]; auto. Qed.
Lemma h_check {A} P (k : unit -> M A) R : hoare P (k tt) R -> hoare P (bind check_error k) R.
Proof.
  intros H s a s' B HP E N. unfold bind, check_error in E. destruct (errs s) eqn:Es; [discriminate|]. eapply H; eauto.
Qed.
Lemma h_exp {A B} P p (o : option A) (k : A -> M B) R : (forall x, o = Some x -> hoare P (k x) R) -> hoare P (bind (expect p o) k) R.
Proof. intros H s a s' B0 HP E N. destruct o as [x|]; cbn in E; [|discriminate]. eapply (H x); eauto. Qed.

Lemma h_read_debugfiles d0 c : hoare (fun d => d = d0) (read_debugfiles c) (fun c' d =>
  if c_hasdebug c =? 0 then c' = c /\ d = d0
  else d = c' /\ exists n fs, 0 <= n /\ Forall utf8 fs /\ zlen fs <= n /\ c' = set_debugfiles fs (set_ndebugfiles n c)).
Proof.
  unfold read_debugfiles. destruct (c_hasdebug c =? 0); cbn [negb]; [apply h_ret; auto|].
  eapply h_bind_val; [apply h_read_count|good|intros; good|]. intros c1 (n & [Hn _] & ->). apply h_put.
  eapply h_bind_val; [apply h_ok_mapped_val, h_read_strings; exact Hn|good|intros; good|].
  intros o ([ss l] & -> & U & _ & L). cbn [fst snd c_ndebugfiles set_ndebugfiles] in *.
  apply h_get, h_put, h_get, h_check, h_ret. intros d ->. split; [reflexivity|]. exists n, ss. auto.
Qed.

(** * Types *)
Section Types.
Context (ss : list str).
Definition cache_in (u : list (option str)) : Prop := Forall (fun o => match o with Some s => In s ss | None => True end) u.

Lemma In_zinsert {A} (l : list A) : forall i x l', zinsert l i x = Some l' -> forall y, In y l' <-> y = x \/ In y l.
Proof.
  induction l as [|z l IH]; intros i x l' E y; cbn [zinsert] in E; destruct (i =? 0).
  - inversion E; subst. cbn. intuition.
  - discriminate.
  - inversion E; subst. cbn. intuition.
  - destruct (zinsert l (i - 1) x) eqn:Z; inversion E; subst. cbn. rewrite (IH _ _ _ Z). intuition.
Qed.
Lemma znth_In {A} (l : list A) : forall i x, znth l i = Some x -> In x l.
Proof.
  induction l as [|z l IH]; intros i x E; cbn in E; [discriminate|].
  destruct (i =? 0); [inversion E; subst; now left|right; eauto].
Qed.

Section Reader.
Context (T D : list vtype) (TD : forall x, In x T -> In x D).
Definition K (d : code) : Prop := c_strings d = ss /\ c_types d = T /\ cache_in (c_ustrings d).

Lemma h_read_ustring : hoare K read_ustring (fun n d => name_ok ss n /\ K d).
Proof.
  unfold read_ustring.
  eapply h_bind with (Q := fun _ => K); [apply h_keep, r_unwrap, r_INDEX, pre_eq|good| |].
  { intros i. apply good_bind; [good|]. intros c. apply good_bind; [good|]. intros n.
    destruct (_ || _); [good|]. apply good_bind; [|intros; good]. apply good_lift.
    unfold get_ustring. destruct (znth _ _) as [[]|]; try discriminate; destruct (znth _ _), (zinsert _ _ _); discriminate. }
  intros i s n s' B HK E N. unfold bind in E. cbn [get_code] in E.
  destruct (to_i32 (c_nstrings (d_code s)) s) as [[m|e|p] s1] eqn:E1; try discriminate.
  pose proof (r_to_i32 _ pre_eq _ _ _ _ E1) as D1. cbv beta in D1.
  destruct ((i <? 0) || (m <=? i)).
  - inversion E; subst. discriminate.
  - unfold lift in E. destruct (get_ustring (d_code s) i) as [[x c]|e|p] eqn:G; try discriminate.
    inversion E; subst. cbn. destruct HK as (K1 & K2 & K3). unfold get_ustring in G.
    destruct (znth (c_ustrings (d_code s)) i) as [[y|]|] eqn:Zu; try discriminate.
    + inversion G; subst. split; [|split; [auto|split; auto]]. right.
      apply znth_In in Zu. unfold cache_in in K3. rewrite Forall_forall in K3. exact (K3 _ Zu).
    + destruct (znth (c_strings (d_code s)) i) as [r|] eqn:Zs; destruct (zinsert _ _ _) as [u|] eqn:Zi; inversion G; subst.
      * apply znth_In in Zs. rewrite K1 in Zs. split; [right; exact Zs|]. split; [|split]; auto. cbn. apply Forall_forall. intros o Ho.
        rewrite (In_zinsert _ _ _ _ Zi) in Ho. destruct Ho as [->|Ho]; [exact Zs|].
        unfold cache_in in K3. rewrite Forall_forall in K3. exact (K3 _ Ho).
      * split; [now left|]. split; [|split]; auto. cbn. apply Forall_forall. intros o Ho.
        rewrite (In_zinsert _ _ _ _ Zi) in Ho. destruct Ho as [->|Ho]; [exact I|].
        unfold cache_in in K3. rewrite Forall_forall in K3. exact (K3 _ Ho).
Qed.

Lemma h_get_type (P : code -> Prop) : (forall d, P d -> forall i x, 0 <= i < c_ntypes d -> znth (c_types d) i = Some x -> In x D) ->
  hoare P get_type (fun t d => In t D /\ P d).
Proof.
  intros HT. unfold get_type.
  eapply h_bind with (Q := fun _ => P); [apply h_keep, r_unwrap, r_INDEX, pre_eq|good|intros; good|].
  intros i s n s' B HP E N. unfold bind in E. cbn [get_code] in E.
  destruct (to_i32 (c_ntypes (d_code s)) s) as [[m|e|p] s1] eqn:E1; try discriminate.
  pose proof (r_to_i32 _ pre_eq _ _ _ _ E1) as D1. cbv beta in D1.
  assert (m = c_ntypes (d_code s)) as -> by (unfold to_i32 in E1; destruct (_ <? _); inversion E1; auto).
  destruct (Z.ltb_spec i 0); [|destruct (Z.leb_spec (c_ntypes (d_code s)) i)]; cbn [orb] in E.
  1-2: cbn in E; destruct (znth (c_types (d_code s)) 0); inversion E; subst; discriminate.
  destruct (znth (c_types (d_code s)) i) eqn:Z; inversion E; subst. rewrite <- D1. split; [|auto].
  eapply HT; eauto.
Qed.
Lemma hK_type : hoare K get_type (fun t d => In t D /\ K d).
Proof. apply h_get_type. intros d (_ & H & _) i x _ Z. rewrite H in Z. eapply TD, znth_In, Z. Qed.

Lemma h_u8 P : hoare P decode_u8 (fun b d => 0 <= b < 256 /\ P d).
Proof.
  apply h_value; [apply r_u8, pre_eq|]. intros s a s' B E _. unfold decode_u8, decode_unsigned in E.
  apply bind_ok in E as (bs & s1 & E1 & E2). inversion E2; subst. unfold read_bytes in E1.
  destruct (Z.ltb_spec (zlen (d_buf s)) 1); [discriminate|]. inversion E1; subst.
  destruct (d_buf s) as [|b r]; [cbn in *; lia|]. cbn. inversion B; subst. unfold is_byte in *. lia.
Qed.

Ltac hb H := eapply h_bind_val; [first [apply h_unwrap, H | apply h_unwrap_mapped, H | apply H]|good|intros; good|]; cbv beta.

(** Loops whose body reads several items and then inserts. *)
Lemma h_append_gen {A} (V : A -> Prop) (P : code -> Prop) (body : Z -> list A -> M (list A)) n :
  (forall i l, Good true (body i l)) -> 0 <= n ->
  (forall i l, zlen l = i -> Forall V l -> hoare P (body i l) (fun l' d => (exists x, V x /\ l' = l ++ [x]) /\ P d)) ->
  hoare P (for_range n body []) (fun l d => (zlen l = n /\ Forall V l) /\ P d).
Proof.
  intros G Hn H.
  eapply h_pre; [eapply (h_for (fun j l d => (zlen l = j /\ Forall V l) /\ P d)); auto|cbn; auto].
  intros j l Hj. apply h_pure. intros [L F]. eapply h_conseq; [apply (H j l L F)|intros ? HH; exact HH|].
  cbn. intros l' d [(x & Vx & ->) HP]. split; [|auto]. split; [rewrite zlen_app; change (zlen [x]) with 1; lia|].
  apply Forall_app; auto.
Qed.
Lemma h_insert_end {A} P (l : list A) i x : zlen l = i -> hoare P (vec_insert l i x) (fun l' d => l' = l ++ [x] /\ P d).
Proof.
  intros <-. eapply h_conseq; [apply h_insert|intros ? HH; exact HH|]. cbn. intros l' d [E HP]. rewrite zinsert_app in E.
  inversion E. auto.
Qed.

Lemma h_type_refs n : 0 <= n -> hoare K (read_type_refs n) (fun l d => (zlen l = n /\ Forall (fun t => In t D) l) /\ K d).
Proof. intros Hn. apply h_append; [good|apply h_unwrap, hK_type|exact Hn]. Qed.
Lemma h_fields n : 0 <= n -> hoare K (read_fields n) (fun l d => (zlen l = n /\ Forall (field_ok ss D) l) /\ K d).
Proof.
  intros Hn. apply h_append_gen; [intros; good|auto|]. intros i l L F.
  hb h_read_ustring. intros nm Hnm. hb hK_type. intros t Ht.
  eapply h_conseq; [apply h_insert_end, L|intros ? HH; exact HH|]. cbn. intros l' d [-> HK]. split; [|auto].
  eexists. split; [|reflexivity]. split; auto.
Qed.
Lemma h_protos n : 0 <= n -> hoare K (read_protos n) (fun l d => (zlen l = n /\ Forall (proto_ok ss) l) /\ K d).
Proof.
  intros Hn. apply h_append_gen; [intros; good|auto|]. intros i l L F.
  hb h_read_ustring. intros nm Hnm. hb h_UINDEX. intros f Hf. hb h_INDEX. intros p _.
  eapply h_conseq; [apply h_insert_end, L|intros ? HH; exact HH|]. cbn. intros l' d [-> HK]. split; [|auto].
  eexists. split; [|reflexivity]. split; auto.
Qed.
Lemma h_bindings n : 0 <= n -> hoare K (read_bindings n) (fun l d => (zlen l = 2 * n /\ Forall (fun b => 0 <= b) l) /\ K d).
Proof.
  intros Hn. eapply h_pre; [eapply (h_for (fun j l d => (zlen l = 2 * j /\ Forall (fun b => 0 <= b) l) /\ K d)); auto|cbn; auto].
  { intros; good. }
  intros j l Hj. apply h_pure. intros [L F]. hb h_UINDEX. intros a Ha.
  eapply h_bind_val; [apply h_insert_end, L|good|intros; good|]. intros l1 ->.
  hb h_UINDEX. intros b Hb.
  eapply h_conseq; [apply h_insert_end|intros ? HH; exact HH|].
  - rewrite zlen_app. change (zlen [a]) with 1. lia.
  - cbv beta. intros l' d [-> HK]. split; [|auto]. rewrite !zlen_app. change (zlen [a]) with 1. change (zlen [b]) with 1.
    split; [lia|]. repeat (apply Forall_app; split; auto).
Qed.
Lemma h_constructs n : 0 <= n -> hoare K (read_constructs n) (fun l d => (zlen l = n /\ Forall (construct_ok ss D) l) /\ K d).
Proof.
  intros Hn. apply h_append_gen; [intros; good|auto|]. intros i l L F.
  hb h_read_ustring. intros nm Hnm. hb h_UINDEX. intros np Hnp. hb h_type_refs; [exact Hnp|]. intros ps [Lp Fp].
  eapply h_conseq; [apply h_insert_end, L|intros ? HH; exact HH|]. cbn. intros l' d [-> HK]. split; [|auto].
  eexists. split; [|reflexivity]. split; auto.
Qed.

Lemma h_read_type : hoare K read_type (fun t d => type_ok ss D t /\ K d).
Proof.
  unfold read_type. hb h_u8. intros v Hv.
  destruct (Z.leb_spec HLAST v) as [|Hl].
  { intros s a s' B HK E N. unfold bind in E. cbn in E. inversion E; subst. cbn in N. destruct (errs s); discriminate. }
  destruct ((v =? HFUN) || (v =? HMETHOD)) eqn:E1.
  { hb h_u8. intros na Hna. hb h_type_refs; [lia|]. intros args [La Fa]. hb hK_type. intros r Hr.
    apply h_ret. intros d HK. split; [|exact HK]. cbn. apply orb_prop in E1 as [E1|E1]; apply Z.eqb_eq in E1; subst v;
    repeat split; auto; lia. }
  destruct ((v =? HOBJ) || (v =? HSTRUCT)) eqn:E2.
  { hb h_read_ustring. intros nm Hnm. hb h_INDEX. intros si _.
    eapply h_bind with (Q := fun c d => c = d /\ K d); [apply h_get_code|good|intros; good|].
    intros c. 
    eapply h_bind with (Q := fun sup d => (sup = vt_default \/ In sup D) /\ K d); [|good|intros; good|].
    { intros s a s' B [-> HK] E N. destruct (si <? 0); [inversion E; subst; auto|].
      destruct (znth (c_types (d_code s)) si) eqn:Z; inversion E; subst. split; [|auto]. right.
      apply znth_In in Z. destruct HK as (_ & H & _). apply TD. now rewrite H in Z. }
    intros sup. apply h_pure. intros Hsup.
    hb h_UINDEX_b. intros g Hg. hb h_UINDEX. intros nf Hnf. hb h_UINDEX. intros np Hnp. hb h_UINDEX. intros nb Hnb.
    hb h_fields; [exact Hnf|]. intros fs [Lf Ff]. hb h_protos; [exact Hnp|]. intros ps [Lp Fp].
    hb h_bindings; [exact Hnb|]. intros bs [Lb Fb].
    apply h_ret. intros d HK. split; [|exact HK]. cbn. apply orb_prop in E2 as [E2|E2]; apply Z.eqb_eq in E2; subst v;
    repeat split; auto; eauto. }
  destruct (Z.eqb_spec v HREF) as [->|].
  { hb hK_type. intros t Ht. apply h_ret. intros d HK. split; [|exact HK]. cbn. auto. }
  destruct (Z.eqb_spec v HVIRTUAL) as [->|].
  { hb h_UINDEX. intros nf Hnf. hb h_fields; [exact Hnf|]. intros fs [Lf Ff]. apply h_ret. intros d HK. split; [|exact HK].
    cbn. auto. }
  destruct (Z.eqb_spec v HABSTRACT) as [->|].
  { hb h_read_ustring. intros nm Hnm. apply h_ret. intros d HK. split; [|exact HK]. cbn. auto. }
  destruct (Z.eqb_spec v HENUM) as [->|].
  { hb h_read_ustring. intros nm Hnm. hb h_UINDEX_b. intros g Hg. hb h_UINDEX. intros nc Hnc.
    hb h_constructs; [exact Hnc|]. intros cs [Lc Fc]. apply h_ret. intros d HK. split; [|exact HK]. cbn. repeat split; auto; eauto. }
  destruct ((v =? HNULL) || (v =? HPACKED)) eqn:E3.
  { hb hK_type. intros t Ht. apply h_ret. intros d HK. split; [|exact HK]. cbn.
    apply orb_prop in E3 as [E3|E3]; apply Z.eqb_eq in E3; subst v; auto. }
  apply h_ret. intros d HK. split; [|exact HK]. cbn.
  apply orb_false_iff in E1 as [A1 A2]. apply orb_false_iff in E2 as [A3 A4]. apply orb_false_iff in E3 as [A5 A6].
  apply Z.eqb_neq in A1, A2, A3, A4, A5, A6. unfold HFUN, HMETHOD, HOBJ, HSTRUCT, HREF, HVIRTUAL, HABSTRACT, HENUM, HNULL, HPACKED, HLAST in *.
  unfold HVOID, HUI8, HUI16, HI32, HI64, HF32, HF64, HBOOL, HBYTES, HDYN, HARRAY, HTYPE, HDYNOBJ. lia.
Qed.
End Reader.

Lemma type_ok_mono T T' t : (forall x, In x T -> In x T') -> type_ok ss T t -> type_ok ss T' t.
Proof.
  intros I. assert (FI : forall l, Forall (fun t => In t T) l -> Forall (fun t => In t T') l).
  { intros l. apply Forall_impl. auto. }
  assert (FF : forall l, Forall (field_ok ss T) l -> Forall (field_ok ss T') l).
  { intros l. apply Forall_impl. unfold field_ok. intuition. }
  destruct t as [u a p k]. destruct u, a, p; cbn; try tauto; intuition auto.
  - destruct rt; auto. intuition auto.
  - eapply Forall_impl; [|eassumption]. unfold construct_ok. intros c (? & ? & ?). auto.
Qed.

Lemma read_type_real s t s' : read_type s = (Ok t, s') -> errs s' = None -> t <> vt_default.
Proof.
  intros E N ->. unfold read_type in E. apply bind_ok in E as (v & s1 & _ & E).
  destruct (HLAST <=? v).
  { unfold bind in E. cbn in E. inversion E; subst. cbn in N. destruct (errs s1); discriminate. }
  unfold vt_default in E.
  destruct (_ || _); [repeat (apply bind_ok in E as (? & ? & _ & E)); inversion E|].
  destruct (_ || _); [repeat (apply bind_ok in E as (? & ? & _ & E)); inversion E|].
  destruct (v =? HREF); [repeat (apply bind_ok in E as (? & ? & _ & E)); inversion E|].
  destruct (v =? HVIRTUAL); [repeat (apply bind_ok in E as (? & ? & _ & E)); inversion E|].
  destruct (v =? HABSTRACT); [repeat (apply bind_ok in E as (? & ? & _ & E)); inversion E|].
  destruct (v =? HENUM); [repeat (apply bind_ok in E as (? & ? & _ & E)); inversion E|].
  destruct (_ || _) eqn:H; [repeat (apply bind_ok in E as (? & ? & _ & E)); inversion E|].
  inversion E; subst v. discriminate.
Qed.
Definition declared_ok (D : list vtype) : Prop :=
  forall i t, znth D i = Some t -> t <> vt_default /\ type_ok ss (vt_default :: firstn (Z.to_nat i) D) t.
Lemma declared_ok_app D t : declared_ok D -> t <> vt_default -> type_ok ss (vt_default :: D) t -> declared_ok (D ++ [t]).
Proof.
  intros H Hn Ht i x E. pose proof (znth_some_range _ _ _ E) as R. rewrite zlen_app in R. change (zlen [t]) with 1 in R.
  destruct (Z.lt_ge_cases i (zlen D)) as [L|L].
  - rewrite znth_app_l in E by lia. rewrite firstn_app. replace (Z.to_nat i - length D)%nat with 0%nat by (unfold zlen in *; lia).
    cbn [firstn]. rewrite app_nil_r. now apply H.
  - assert (i = zlen D) as -> by lia. rewrite znth_app_r in E by lia. replace (zlen D - zlen D) with 0 in E by lia.
    cbn in E. injection E as <-. replace (Z.to_nat (zlen D)) with (length D) by (unfold zlen; lia).
    rewrite firstn_app, Nat.sub_diag, firstn_all. cbn [firstn]. rewrite app_nil_r. auto.
Qed.
Lemma In_zrepeat {A} (x y : A) n : In y (zrepeat x n) -> y = x. Proof. apply repeat_spec. Qed.

Lemma h_read_types d0 c : 0 <= c_ntypes c -> c_strings c = ss -> cache_in (c_ustrings c) ->
  hoare (fun d => d = d0) (read_types c) (fun c' d =>
    (exists D u, c' = set_types (D ++ zrepeat vt_default (c_ntypes c)) (set_ustrings u c) /\ zlen D = c_ntypes c /\ declared_ok D /\
       cache_in u /\ (c_ntypes c = 0 -> u = c_ustrings c)) /\
    (d = c' \/ (c_ntypes c = 0 /\ d = d0))).
Proof.
  intros Hn Hs Hu. unfold read_types.
  set (Inv := fun j c' (d : code) =>
    (exists D u, c' = set_types (D ++ zrepeat vt_default (c_ntypes c)) (set_ustrings u c) /\ zlen D = j /\ declared_ok D /\
       cache_in u /\ (j = 0 -> u = c_ustrings c)) /\
    (d = c' \/ (j = 0 /\ d = d0))).
  eapply h_conseq; [apply (h_for Inv); [intros; good|exact Hn|]| |].
  - intros j c' Hj. unfold Inv. apply h_pure. intros (D & u & -> & L & F & Cu & Cz). apply h_put.
    set (ts := D ++ zrepeat vt_default (c_ntypes c)). set (c1 := set_types ts (set_ustrings u c)).
    assert (TD : forall x, In x ts -> In x (vt_default :: D)).
    { intros x Hx. apply in_app_or in Hx as [Hx|Hx]; [now right|left; symmetry; eapply In_zrepeat; eauto]. }
    eapply h_bind with (Q := fun t d => (type_ok ss (vt_default :: D) t /\ t <> vt_default) /\ K ts d /\ same_but_cache c1 d); [|good|intros; good|].
    { intros s t s' B E0 E N. cbv beta in E0. assert (HK : K ts (d_code s)) by (rewrite E0; split; auto).
      destruct (h_read_type ts _ TD s t s' B HK E N) as [H1 H2]. split; [split; [auto|eapply read_type_real; eauto]|split; [auto|]].
      rewrite <- E0. eapply rc_read_type; eauto. }
    intros t s c2 s' B ([Ht Hr] & (K1 & K2 & K3) & (u' & Eu)) E N. unfold bind in E. cbn [get_code] in E. rewrite K2 in E.
    destruct (vec_insert ts j t s) as [[ts'|e|p] s1] eqn:E1; try discriminate.
    unfold vec_insert in E1. apply expect_ok in E1 as [Z ->]. cbn in E. injection E as <- <-. cbn [d_code]. split; [|auto].
    unfold ts in Z. rewrite <- L in Z. rewrite zinsert_mid in Z by reflexivity. injection Z as <-.
    exists (D ++ [t]), u'. rewrite Eu. split; [rewrite <- app_assoc; reflexivity|]. split; [rewrite zlen_app; change (zlen [t]) with 1; lia|].
    split; [now apply declared_ok_app|]. rewrite Eu in K3. split; [exact K3|]. pose proof (zlen_nonneg D). lia.
  - unfold Inv. cbv beta. intros d ->. split; [|auto]. exists [], (c_ustrings c).
    rewrite set_ustrings_id. repeat split; auto; destruct i; discriminate.
  - unfold Inv. cbv beta. intros c' d [(D & u & -> & L & F & Cu & Cz) H]. split; [|exact H]. exists D, u. repeat split; auto; apply (F _ _ H0).
Qed.
End Types.
