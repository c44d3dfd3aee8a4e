(** Theorem C80: the outcome of a read, whatever it is, depends only on the bytes consumed and the length of the file.
    Model: DecoderModel.v, CodeModel.v. *)
From Verif Require Import Prelude StdModel BrassTypes DecoderModel CodeModel FormatSpec ReaderSpec.
From Verif Require Import CodeGenericProofs PropsModule.
From Coq Require Import Lia ZifyBool.

Definition with_buf (b : list Z) (s : st) : st := {| d_buf := b; d_pos := d_pos s; d_code := d_code s; errs := errs s; d_log := d_log s |}.
(** Any outcome of [m]: what is consumed is a prefix, and with any other bytes of the same length behind it the outcome is the same. *)
Definition Loc {A} (m : M A) : Prop := forall s r s', m s = (r, s') ->
  exists used, d_buf s = used ++ d_buf s' /\ (forall b, length b = length (d_buf s') -> m (with_buf (used ++ b) s) = (r, with_buf b s')).

Lemma with_buf_same s : with_buf (d_buf s) s = s. Proof. destruct s; reflexivity. Qed.
Lemma loc_pure {A} (m : M A) : (forall s b, let '(r, s') := m s in d_buf s' = d_buf s /\ m (with_buf b s) = (r, with_buf b s')) -> Loc m.
Proof.
  intros H s r s' E. exists []. pose proof (H s (d_buf s)) as H0. rewrite E in H0. destruct H0 as (B & _). split; [now rewrite B|].
  intros b _. specialize (H s b). rewrite E in H. cbn [app]. tauto.
Qed.
Lemma loc_ret {A} (a : A) : Loc (ret a). Proof. apply loc_pure. intros s b. split; reflexivity. Qed.
Lemma loc_throw {A} e : Loc (@throw A e). Proof. apply loc_pure. intros s b. split; reflexivity. Qed.
Lemma loc_crash {A} p : Loc (@crash A p). Proof. apply loc_pure. intros s b. split; reflexivity. Qed.
Lemma loc_get_pos : Loc get_pos. Proof. apply loc_pure. intros s b. split; reflexivity. Qed.
Lemma loc_get_code : Loc get_code. Proof. apply loc_pure. intros s b. split; reflexivity. Qed.
Lemma loc_put_code c : Loc (put_code c). Proof. apply loc_pure. intros s b. split; reflexivity. Qed.
Lemma loc_expect {A} p (o : option A) : Loc (expect p o). Proof. destruct o; [apply loc_ret|apply loc_crash]. Qed.
Lemma loc_lift {A} (r : res derr A) : Loc (lift r). Proof. apply loc_pure. intros s b. split; reflexivity. Qed.
Lemma loc_record e : Loc (record_error e). Proof. apply loc_pure. intros s b. split; reflexivity. Qed.
Lemma loc_map_err e : Loc (map_err e). Proof. apply loc_pure. intros s b. split; reflexivity. Qed.
Lemma loc_check : Loc check_error.
Proof. apply loc_pure. intros s b. unfold check_error. cbn [errs with_buf]. destruct (errs s); split; reflexivity. Qed.
Lemma loc_bind {A B} (m : M A) (k : A -> M B) : Loc m -> (forall a, Loc (k a)) -> Loc (bind m k).
Proof.
  intros G K s r s' E. unfold bind in E. destruct (m s) as [[a|e|p] s1] eqn:Em; destruct (G _ _ _ Em) as (u1 & U1 & L1).
  - destruct (K a _ _ _ E) as (u2 & U2 & L2). exists (u1 ++ u2). split; [now rewrite <- app_assoc, <- U2|]. intros b Lb. unfold bind. rewrite <- app_assoc.
    rewrite L1 by (rewrite U2, !app_length; lia). now apply L2.
  - inversion E; subst. exists u1. split; [auto|]. intros b Lb. unfold bind. now rewrite L1.
  - inversion E; subst. exists u1. split; [auto|]. intros b Lb. unfold bind. now rewrite L1.
Qed.
Lemma loc_unwrap {A} (m : M A) : Loc m -> Loc (unwrap m).
Proof.
  intros G s r s' E. unfold unwrap in *. destruct (m s) as [[a|e|p] s1] eqn:Em; inversion E; subst; destruct (G _ _ _ Em) as (u & U & L); exists u; (split; [auto|]); intros b Lb; now rewrite L.
Qed.
Lemma loc_unwrap_mapped {A} (m : M A) : Loc m -> Loc (unwrap_mapped m).
Proof.
  intros G s r s' E. unfold unwrap_mapped in *. destruct (m s) as [[a|e|p] s1] eqn:Em; inversion E; subst; destruct (G _ _ _ Em) as (u & U & L); exists u; (split; [auto|]); intros b Lb; now rewrite L.
Qed.
Lemma loc_ok_mapped {A} (m : M A) : Loc m -> Loc (ok_mapped m).
Proof.
  intros G s r s' E. unfold ok_mapped in *. destruct (m s) as [[a|e|p] s1] eqn:Em; inversion E; subst; destruct (G _ _ _ Em) as (u & U & L); exists u; (split; [auto|]); intros b Lb; now rewrite L.
Qed.
Lemma loc_ok {A} (m : M A) : Loc m -> Loc (ok m).
Proof.
  intros G s r s' E. unfold ok in *. destruct (m s) as [[a|e|p] s1] eqn:Em; inversion E; subst; destruct (G _ _ _ Em) as (u & U & L); exists u; (split; [auto|]); intros b Lb; now rewrite L.
Qed.
Lemma loc_for_loop {A} n : forall i (body : Z -> A -> M A) acc, (forall i a, Loc (body i a)) -> Loc (for_loop n i body acc).
Proof. induction n as [|n IH]; intros i body acc H; cbn [for_loop]; [apply loc_ret|]. apply loc_bind; auto. Qed.
Lemma loc_for_range {A} n (body : Z -> A -> M A) acc : (forall i a, Loc (body i a)) -> Loc (for_range n body acc).
Proof. intros. now apply loc_for_loop. Qed.
Lemma loc_vec_insert {A} (l : list A) i x : Loc (vec_insert l i x). Proof. apply loc_expect. Qed.
(** Taking [n] bytes off the front, with a continuation that may use them. *)
Lemma loc_take {A} n (k : list Z -> M A) (fail : Z -> res derr A) : (forall l, Loc (k l)) ->
  Loc (fun s => if zlen (d_buf s) <? n then (fail (d_pos s), s)
                else k (firstn (Z.to_nat n) (d_buf s)) {| d_buf := skipn (Z.to_nat n) (d_buf s); d_pos := d_pos s + n; d_code := d_code s; errs := errs s; d_log := d_log s |}).
Proof.
  intros K s r s' E. destruct (Z.ltb_spec (zlen (d_buf s)) n) as [C|C].
  - inversion E; subst. exists []. split; [reflexivity|]. intros b Lb. cbn [app]. cbn [d_buf with_buf d_pos]. destruct (Z.ltb_spec (zlen b) n) as [C'|C']; [reflexivity|unfold zlen in *; lia].
  - destruct (K _ _ _ _ E) as (u & U & L). cbn [d_buf] in U. set (h := firstn (Z.to_nat n) (d_buf s)) in *. assert (Lh : length h = Z.to_nat n) by (unfold h; rewrite firstn_length; unfold zlen in C; lia).
    exists (h ++ u). split; [unfold h; now rewrite <- app_assoc, <- U, firstn_skipn|]. intros b Lb.
    cbn [d_buf with_buf d_pos d_code errs d_log].
    assert (Ls : length (d_buf s) = (length h + (length u + length (d_buf s')))%nat) by (unfold h; rewrite <- (firstn_skipn (Z.to_nat n) (d_buf s)) at 1; rewrite U, !app_length; lia).
    destruct (Z.ltb_spec (zlen ((h ++ u) ++ b)) n) as [C'|C']; [unfold zlen in *; rewrite !app_length in C'; lia|].
    rewrite <- app_assoc, firstn_app, skipn_app, Lh, Nat.sub_diag, firstn_O, app_nil_r, skipn_O. rewrite <- Lh, firstn_all, skipn_all. cbn [app]. exact (L b Lb).
Qed.
Lemma loc_read_bytes n : Loc (read_bytes n).
Proof. exact (loc_take n (fun l => ret l) (fun p => Err (with_info NoMoreData p)) (fun l => loc_ret l)). Qed.
Lemma loc_unsigned n : Loc (decode_unsigned n). Proof. apply loc_bind; [apply loc_read_bytes|intros; apply loc_ret]. Qed.
Lemma loc_signed n : Loc (decode_signed n). Proof. apply loc_bind; [apply loc_read_bytes|intros; apply loc_ret]. Qed.
Global Hint Resolve loc_ret loc_throw loc_crash loc_get_pos loc_get_code loc_put_code loc_expect loc_lift loc_record loc_map_err loc_check loc_vec_insert loc_read_bytes loc_unsigned loc_signed : loc.
Ltac loc1 :=
  first
  [ solve [auto with loc nocore]
  | apply loc_bind; [|intro]
  | apply loc_unwrap | apply loc_unwrap_mapped | apply loc_ok_mapped | apply loc_ok
  | apply loc_for_range; intros
  | match goal with
    | |- Loc (if ?b then _ else _) => destruct b
    | |- Loc (match ?o with Some _ => _ | None => _ end) => destruct o
    | |- Loc (let '(_, _) := ?p in _) => destruct p
    | |- Loc (let _ := _ in _) => cbv zeta
    | |- Loc (match ?p with (_, _) => _ end) => destruct p
    end ].
Ltac loc := repeat loc1.
Lemma loc_u8 : Loc decode_u8. Proof. apply loc_unsigned. Qed.
Lemma loc_i32 : Loc decode_i32. Proof. apply loc_signed. Qed.
Lemma loc_f64 : Loc decode_f64. Proof. apply loc_unsigned. Qed.
Global Hint Resolve loc_u8 loc_i32 loc_f64 : loc.
Lemma loc_read_index : Loc read_index. Proof. unfold read_index. loc. Qed.
Global Hint Resolve loc_read_index : loc.
Lemma loc_INDEX : Loc INDEX. Proof. unfold INDEX. loc. Qed.
Global Hint Resolve loc_INDEX : loc.
Lemma loc_UINDEX : Loc UINDEX. Proof. unfold UINDEX. loc. Qed.
Lemma loc_to_i32 x : Loc (to_i32 x). Proof. unfold to_i32. loc. Qed.
Lemma loc_i32_add x y : Loc (i32_add x y). Proof. unfold i32_add. loc. Qed.
Global Hint Resolve loc_UINDEX loc_to_i32 loc_i32_add : loc.
Lemma loc_read_string : Loc read_string. Proof. unfold read_string. loc. Qed.
Lemma loc_read_ustring : Loc read_ustring. Proof. unfold read_ustring. loc. Qed.
Lemma loc_get_type : Loc get_type. Proof. unfold get_type. loc. Qed.
Global Hint Resolve loc_read_string loc_read_ustring loc_get_type : loc.
Lemma loc_read_fields n : Loc (read_fields n). Proof. unfold read_fields. loc. Qed.
Lemma loc_read_protos n : Loc (read_protos n). Proof. unfold read_protos. loc. Qed.
Lemma loc_read_bindings n : Loc (read_bindings n). Proof. unfold read_bindings. loc. Qed.
Lemma loc_read_type_refs n : Loc (read_type_refs n). Proof. unfold read_type_refs. loc. Qed.
Global Hint Resolve loc_read_fields loc_read_protos loc_read_bindings loc_read_type_refs : loc.
Lemma loc_read_constructs n : Loc (read_constructs n). Proof. unfold read_constructs. loc. Qed.
Global Hint Resolve loc_read_constructs : loc.
Lemma loc_read_type : Loc read_type. Proof. unfold read_type. loc. Qed.
Global Hint Resolve loc_read_type : loc.
Lemma loc_strings_loop n : forall text cur ss ls, Loc (strings_loop n text cur ss ls).
Proof. induction n as [|n IH]; intros; cbn [strings_loop]; loc; apply IH. Qed.
Lemma loc_read_strings n lens : Loc (read_strings n lens).
Proof.
  unfold read_strings. apply loc_bind; [loc|]. intros size0. cbv zeta. set (size := i32_as_usize size0).
  pose proof (loc_take size (fun l => strings_loop (Z.to_nat n) (from_utf8_lossy l) 0 [] lens) (fun _ => Panic PSlice) ltac:(intros; apply loc_strings_loop)) as H.
  assert (X : forall m m' : M (list str * list Z), (forall s, m s = m' s) -> Loc m -> Loc m').
  { intros m m' Eq L s r s' E. rewrite <- Eq in E. destruct (L _ _ _ E) as (u & U & Lb). exists u. split; [auto|]. intros b Hb. rewrite <- Eq. auto. }
  eapply X; [|exact H]. intros s. cbv beta. unfold bind, advance. destruct (Z.ltb_spec (zlen (d_buf s)) size) as [C|C]; [reflexivity|].
  cbn [d_buf]. destruct (Z.ltb_spec (zlen (d_buf s)) size); [lia|]. reflexivity.
Qed.
Global Hint Resolve loc_read_strings : loc.
Lemma loc_read_extra r n : Loc r -> Loc (read_extra r n). Proof. intros. unfold read_extra. loc. Qed.
Global Hint Resolve loc_read_extra : loc.
Lemma loc_read_opcode : Loc read_opcode. Proof. unfold read_opcode. loc; apply loc_read_extra; loc. Qed.
Global Hint Resolve loc_read_opcode : loc.
Lemma loc_read_function : Loc read_function. Proof. unfold read_function. loc. Qed.
Lemma loc_debug_store d i f l : Loc (debug_store d i f l). Proof. unfold debug_store. loc. Qed.
Global Hint Resolve loc_read_function loc_debug_store : loc.
Lemma loc_debug_loop fuel : forall nops i cf cl d, Loc (debug_loop fuel nops i cf cl d).
Proof. induction fuel as [|f IH]; intros; cbn [debug_loop]; loc; apply IH. Qed.
Lemma loc_debug_infos nops : Loc (debug_infos nops).
Proof.
  intros s r s' E. unfold debug_infos in E. destruct (loc_debug_loop _ _ _ _ _ _ _ _ _ E) as (u & U & L). exists u. split; [auto|]. intros b Hb. unfold debug_infos.
  cbn [d_buf with_buf]. replace (length (u ++ b)) with (length (d_buf s)) by (rewrite U, !app_length; lia). now apply L.
Qed.
Global Hint Resolve loc_debug_infos : loc.
Lemma loc_read_magic c : Loc (read_magic c). Proof. unfold read_magic. loc. Qed.
Lemma loc_read_count f c : Loc (read_count f c). Proof. unfold read_count. loc. Qed.
Global Hint Resolve loc_read_magic loc_read_count : loc.
Lemma loc_read_counts c : Loc (read_counts c). Proof. unfold read_counts. loc. Qed.
Lemma loc_read_table m n : Loc m -> Loc (read_table m n). Proof. intros. unfold read_table. loc. Qed.
Global Hint Resolve loc_read_counts loc_read_table : loc.
Lemma loc_read_ints c : Loc (read_ints c). Proof. unfold read_ints. loc; apply loc_read_table; loc. Qed.
Lemma loc_read_floats c : Loc (read_floats c). Proof. unfold read_floats. loc; apply loc_read_table; loc. Qed.
Lemma loc_read_string_table c : Loc (read_string_table c). Proof. unfold read_string_table. loc. Qed.
Lemma loc_read_bytes_section c : Loc (read_bytes_section c). Proof. unfold read_bytes_section. loc. Qed.
Lemma loc_read_debugfiles c : Loc (read_debugfiles c). Proof. unfold read_debugfiles. loc. Qed.
Lemma loc_read_types c : Loc (read_types c). Proof. unfold read_types. loc. Qed.
Lemma loc_read_globals c : Loc (read_globals c). Proof. unfold read_globals. loc. Qed.
Lemma loc_read_natives c : Loc (read_natives c). Proof. unfold read_natives. loc. Qed.
Lemma loc_skip_assigns : Loc skip_assigns. Proof. unfold skip_assigns. loc. Qed.
Global Hint Resolve loc_skip_assigns : loc.
Lemma loc_read_function_entry i c : Loc (read_function_entry i c). Proof. unfold read_function_entry. loc. Qed.
Global Hint Resolve loc_read_function_entry : loc.
Lemma loc_read_functions c : Loc (read_functions c). Proof. unfold read_functions. loc. Qed.
Lemma loc_read_constants c : Loc (read_constants c). Proof. unfold read_constants. loc. Qed.
Global Hint Resolve loc_read_ints loc_read_floats loc_read_string_table loc_read_bytes_section loc_read_debugfiles loc_read_types loc_read_globals loc_read_natives loc_read_functions loc_read_constants : loc.
Lemma loc_code_read : Loc code_read. Proof. unfold code_read. loc. Qed.

(** * C80 *)
(** Reading [file] ends, in whatever way (a module, an error or a crash), after some prefix [used] of it.  Every other file of the same length with
    that prefix is read with the same outcome, the same value of the error cell, the same errors found on the way and the same final position. *)
Theorem C80_prefix e0 file : bytes file -> exists used rest r s, file = used ++ rest /\ code_read (start e0 file) = (r, s) /\ d_pos s = zlen used /\
  forall other, zlen other = zlen rest -> exists s', code_read (start e0 (used ++ other)) = (r, s') /\
    errs s' = errs s /\ d_log s' = d_log s /\ d_pos s' = d_pos s /\ d_code s' = d_code s.
Proof.
  intros B. destruct (code_read (start e0 file)) as [r s] eqn:E. destruct (loc_code_read _ _ _ E) as (u & U & L). cbn [d_buf start] in U.
  exists u, (d_buf s), r, s. split; [exact U|]. split; [reflexivity|]. split.
  - destruct (g_fwd _ _ (good_code_read true) (start e0 file) _ _ B E) as ((u' & U' & P) & _). cbn [d_buf d_pos start] in *. rewrite U in U'. apply app_inv_tail in U'. subst u'. lia.
  - intros other Lo. exists (with_buf other s). split; [|repeat split; reflexivity]. change (start e0 (u ++ other)) with (with_buf (u ++ other) (start e0 file)). apply L. unfold zlen in Lo. lia.
Qed.
(** In terms of the API: a file that differs only after the point where reading stopped gives the same result and the same error state. *)
Theorem C80_outcome e0 a b1 b2 r s : bytes (a ++ b1) -> zlen b1 = zlen b2 -> code_read (start e0 (a ++ b1)) = (r, s) -> d_pos s <= zlen a ->
  read_module e0 (a ++ b2) = read_module e0 (a ++ b1).
Proof.
  intros B L E P. destruct (C80_prefix e0 _ B) as (u & rest & r0 & s0 & U & E0 & P0 & K). rewrite E in E0. inversion E0; subst r0 s0. clear E0.
  assert (H : exists a', a = u ++ a').
  { exists (skipn (length u) a). rewrite <- (firstn_skipn (length u) a) at 1. f_equal. apply (f_equal (firstn (length u))) in U. rewrite firstn_app, (firstn_app (length u) u), firstn_all, Nat.sub_diag, firstn_O, app_nil_r in U.
    unfold zlen in *. replace (length u - length a)%nat with 0%nat in U by lia. rewrite firstn_O, app_nil_r in U. exact U. }
  destruct H as (a' & ->). rewrite <- app_assoc in U. apply app_inv_head in U. subst rest. destruct (K (a' ++ b2)) as (s' & E' & C & _ & _ & D). { unfold zlen in *. rewrite !app_length. lia. }
  unfold read_module. rewrite <- !app_assoc in *. rewrite E, E', C. reflexivity.
Qed.
(** A file with a negative flags word: refused after its counts whatever follows; reading it needs no bytes of the tail. *)
Definition negative_file : list Z := [72; 76; 66; 2; 160; 1; 0; 0; 0; 0; 0; 0; 0; 0].
Example C80_ex x y : is_byte x -> is_byte y ->
  read_module None (negative_file ++ [x; y]) = (Err {| e_kind := NegativeIndex; e_pos := 6 |}, Some {| e_kind := NegativeIndex; e_pos := 6 |}).
Proof.
  intros Hx Hy. destruct (code_read (start None (negative_file ++ [0; 0]))) as [r s] eqn:E.
  rewrite (C80_outcome None negative_file [0; 0] [x; y] r s); [vm_compute; reflexivity| |reflexivity|exact E|].
  - unfold bytes, is_byte. repeat constructor; lia.
  - assert (P : d_pos (snd (code_read (start None (negative_file ++ [0; 0])))) = 14) by (vm_compute; reflexivity). rewrite E in P. cbn [snd] in P. rewrite P. reflexivity.
Qed.
