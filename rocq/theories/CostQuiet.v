(** Outside the number tables the reader records no missing data, except just before it crashes (C78). *)
From Verif Require Import Prelude StdModel BrassTypes DecoderModel CodeModel ReaderSpec CodeGenericProofs FormatProofs CostTurns.
From Coq Require Import Lia.

Definition late {A} (r : res derr A) : Z := match r with Panic _ => 1 | _ => 0 end.
Definition quiet {A} (m : M A) : Prop := forall s r s', m s = (r, s') -> shorts (d_log s') <= shorts (d_log s) + late r.
Lemma q_id A (m : M A) : (forall s r s', m s = (r, s') -> d_log s' = d_log s) -> quiet m.
Proof. intros X s r s' E. rewrite (X _ _ _ E). destruct r; cbn [late]; lia. Qed.
Lemma q_bind A B (m : M A) (k : A -> M B) : quiet m -> (forall a, quiet (k a)) -> quiet (bind m k).
Proof.
  intros Q1 Q2 s r s' E. unfold bind in E. destruct (m s) as [[a|e|q] s1] eqn:E1; pose proof (Q1 _ _ _ E1) as X; cbn [late] in X.
  - apply Q2 in E. lia.
  - injection E as <- <-. cbn [late]. lia.
  - injection E as <- <-. cbn [late]. lia.
Qed.
Lemma q_unwrap A (m : M A) : quiet m -> quiet (unwrap m).
Proof. intros Q s r s' E. unfold unwrap in E. destruct (m s) as [[a|e|q] s1] eqn:E1; pose proof (Q _ _ _ E1) as X; injection E as <- <-; cbn [late] in *; lia. Qed.
Lemma shorts_one e : shorts [e] <= 1. Proof. unfold shorts. cbn [filter]. destruct (short e); cbv; discriminate. Qed.
Lemma q_unwrap_mapped A (m : M A) : quiet m -> quiet (unwrap_mapped m).
Proof.
  intros Q s r s' E. unfold unwrap_mapped in E. destruct (m s) as [[a|e|q] s1] eqn:E1; pose proof (Q _ _ _ E1) as X; injection E as <- <-; cbn [late map_err snd d_log] in *; try lia.
  rewrite shorts_app. pose proof (shorts_one e). lia.
Qed.
Lemma q_ok A (m : M A) : quiet m -> quiet (ok m).
Proof. intros Q s r s' E. unfold ok in E. destruct (m s) as [[a|e|q] s1] eqn:E1; pose proof (Q _ _ _ E1) as X; injection E as <- <-; cbn [late] in *; lia. Qed.
Lemma q_ok_mapped A (m : M A) : noerr m -> quiet m -> quiet (ok_mapped m).
Proof.
  intros N Q s r s' E. unfold ok_mapped in E. destruct (m s) as [[a|e|q] s1] eqn:E1; pose proof (Q _ _ _ E1) as X; try (injection E as <- <-; cbn [late] in *; lia).
  exfalso. exact (N _ _ _ E1).
Qed.
Lemma q_record e : short e = false -> quiet (record_error e).
Proof. intros N s r s' E. injection E as <- <-. cbn [d_log late]. rewrite shorts_app. unfold shorts at 2. cbn [filter]. rewrite N. cbn. lia. Qed.
Lemma q_map e : short e = false -> quiet (map_err e).
Proof. intros N s r s' E. injection E as <- <-. cbn [d_log late]. rewrite shorts_app. unfold shorts at 2. cbn [filter]. rewrite N. cbn. lia. Qed.
Lemma q_ret A (a : A) : quiet (ret a). Proof. apply q_id. intros s r s' E. now injection E as <- <-. Qed.
Lemma q_throw A e : quiet (@throw A e). Proof. apply q_id. intros s r s' E. now injection E as <- <-. Qed.
Lemma q_crash A q : quiet (@crash A q). Proof. apply q_id. intros s r s' E. now injection E as <- <-. Qed.
Lemma q_pos : quiet get_pos. Proof. apply q_id. intros s r s' E. now injection E as <- <-. Qed.
Lemma q_code : quiet get_code. Proof. apply q_id. intros s r s' E. now injection E as <- <-. Qed.
Lemma q_put c : quiet (put_code c). Proof. apply q_id. intros s r s' E. now injection E as <- <-. Qed.
Lemma q_expect A q (o : option A) : quiet (expect q o). Proof. destruct o; [apply q_ret|apply q_crash]. Qed.
Lemma q_check : quiet check_error. Proof. apply q_id. intros s r s' E. unfold check_error in E. destruct (errs s); now injection E as <- <-. Qed.
Lemma q_insert A (l : list A) i x : quiet (vec_insert l i x). Proof. apply q_expect. Qed.
Lemma q_bytes n : quiet (read_bytes n). Proof. apply q_id. intros s r s' E. unfold read_bytes in E. destruct (_ <? _); now injection E as <- <-. Qed.
Lemma q_advance n : quiet (advance n). Proof. apply q_id. intros s r s' E. unfold advance in E. destruct (_ <? _); now injection E as <- <-. Qed.
Lemma q_slice n : quiet (fun s => if zlen (d_buf s) <? n then (Panic PSlice, s) else (Ok (firstn (Z.to_nat n) (d_buf s)), s) : res derr (list Z) * st).
Proof. apply q_id. intros s r s' E. destruct (_ <? _); now injection E as <- <-. Qed.
Lemma q_lift A (r : res derr A) : quiet (lift r). Proof. apply q_id. intros s r' s' E. now injection E as <- <-. Qed.
Lemma q_for A n : forall i (x : Z -> A -> M A) acc, (forall i a, quiet (x i a)) -> quiet (for_loop n i x acc).
Proof. induction n as [|n IH]; intros i x acc P; cbn [for_loop]; [apply q_ret|]. apply q_bind; [apply P|intros a; now apply IH]. Qed.
Lemma q_range A n (x : Z -> A -> M A) acc : (forall i a, quiet (x i a)) -> quiet (for_range n x acc). Proof. apply q_for. Qed.
Create HintDb quiet.
#[export] Hint Resolve q_ret q_throw q_crash q_pos q_code q_put q_expect q_check q_insert q_bytes q_advance q_slice q_lift : quiet.
#[export] Hint Resolve INDEX_noerr noerr_get_type noerr_read_strings noerr_debug_infos : quiet.
Lemma U_noerr : noerr UINDEX. Proof. exact UINDEX_noerr. Qed.
#[export] Hint Resolve U_noerr : quiet.
Ltac q := intros; cbv zeta; repeat first [solve [auto 2 with quiet nocore] | apply q_unwrap | apply q_unwrap_mapped | apply q_ok | (apply q_ok_mapped; [solve [auto 2 with quiet nocore]|])
  | (apply q_record; reflexivity) | (apply q_map; reflexivity) | (apply q_range; intros) | (apply q_bind; [|intros ?])
  | match goal with |- quiet (if ?b then _ else _) => destruct b | |- quiet (match ?r with _ => _ end) => destruct r end].
Lemma q_u8 : quiet decode_u8. Proof. unfold decode_u8, decode_unsigned. q. Qed.
Lemma q_i32 : quiet decode_i32. Proof. unfold decode_i32, decode_signed. q. Qed.
#[export] Hint Resolve q_u8 q_i32 : quiet.
Lemma q_INDEX : quiet INDEX. Proof. unfold INDEX, read_index. q. Qed.
#[export] Hint Resolve q_INDEX : quiet.
Lemma q_UINDEX : quiet UINDEX. Proof. unfold UINDEX. q. Qed.
Lemma q_to_i32 x : quiet (to_i32 x). Proof. unfold to_i32. q. Qed.
Lemma q_i32_add x y : quiet (i32_add x y). Proof. unfold i32_add. q. Qed.
Lemma q_store d i f l : quiet (debug_store d i f l). Proof. unfold debug_store. q. Qed.
#[export] Hint Resolve q_UINDEX q_to_i32 q_i32_add q_store : quiet.
Lemma q_read_string : quiet read_string. Proof. unfold read_string. q. Qed.
Lemma q_read_ustring : quiet read_ustring. Proof. unfold read_ustring. q. Qed.
Lemma q_get_type : quiet get_type. Proof. unfold get_type. q. Qed.
#[export] Hint Resolve q_read_string q_read_ustring q_get_type : quiet.
Lemma q_read_type_refs n : quiet (read_type_refs n). Proof. unfold read_type_refs. q. Qed.
#[export] Hint Resolve q_read_type_refs : quiet.
Lemma q_read_type : quiet read_type. Proof. unfold read_type, read_fields, read_protos, read_bindings, read_constructs. q. Qed.
Lemma q_strings_loop n : forall text cur ss lens, quiet (strings_loop n text cur ss lens).
Proof. induction n as [|n IH]; intros; cbn [strings_loop]; q. Qed.
#[export] Hint Resolve q_read_type q_strings_loop : quiet.
Lemma q_read_strings n l : quiet (read_strings n l). Proof. unfold read_strings. q. Qed.
#[export] Hint Resolve q_read_strings : quiet.
Lemma q_read_opcode : quiet read_opcode. Proof. unfold read_opcode, read_extra. q. Qed.
#[export] Hint Resolve q_read_opcode : quiet.
Lemma q_read_function : quiet read_function. Proof. unfold read_function. q. Qed.
Lemma q_debug_loop n : forall nops i f l d, quiet (debug_loop n nops i f l d).
Proof. induction n as [|n IH]; intros; cbn [debug_loop]; q. Qed.
Lemma q_debug_infos n : quiet (debug_infos n). Proof. intros s. apply q_debug_loop. Qed.
#[export] Hint Resolve q_read_function q_debug_infos : quiet.
Lemma q_skip : quiet skip_assigns. Proof. unfold skip_assigns. q. Qed.
#[export] Hint Resolve q_skip : quiet.
Lemma q_read_magic c : quiet (read_magic c). Proof. unfold read_magic. q. Qed.
Lemma q_read_count f c : quiet (read_count f c). Proof. unfold read_count. q. Qed.
#[export] Hint Resolve q_read_count : quiet.
Lemma q_read_counts c : quiet (read_counts c). Proof. unfold read_counts. q. Qed.
Lemma q_string_table c : quiet (read_string_table c). Proof. unfold read_string_table. q. Qed.
Lemma q_bytes_section c : quiet (read_bytes_section c). Proof. unfold read_bytes_section. q. Qed.
Lemma q_debugfiles c : quiet (read_debugfiles c). Proof. unfold read_debugfiles. q. Qed.
Lemma q_types c : quiet (read_types c). Proof. unfold read_types. q. Qed.
Lemma q_globals c : quiet (read_globals c). Proof. unfold read_globals. q. Qed.
Lemma q_natives c : quiet (read_natives c). Proof. unfold read_natives. q. Qed.
Lemma q_functions c : quiet (read_functions c). Proof. unfold read_functions, read_function_entry. q. Qed.
Lemma q_constants c : quiet (read_constants c). Proof. unfold read_constants. q. Qed.
#[export] Hint Resolve q_read_magic q_read_counts q_string_table q_bytes_section q_debugfiles q_types q_globals q_natives q_functions q_constants : quiet.

(** a number table, from a state without errors *)
Definition clear (s : st) : Prop := errs s = None.
Definition told {A} (m : M A) : Prop := forall s r s', m s = (r, s') ->
  (errs s = None -> errs s' = None /\ shorts (d_log s') = shorts (d_log s) \/ exists e, errs s' = Some e /\ short e = true) /\
  (forall e, errs s = Some e -> short e = true -> errs s' = Some e) /\ match r with Err _ => False | _ => True end.
Lemma told_pure A (m : M A) : (forall s r s', m s = (r, s') -> errs s' = errs s /\ d_log s' = d_log s /\ match r with Err _ => False | _ => True end) -> told m.
Proof. intros X s r s' E. destruct (X _ _ _ E) as (Ee & El & N). rewrite Ee, El. repeat split; auto. Qed.
Lemma told_bind A B (m : M A) (k : A -> M B) : told m -> (forall a, told (k a)) -> told (bind m k).
Proof.
  intros T1 T2 s r s' E. unfold bind in E. destruct (m s) as [[a|e|q] s1] eqn:E1; destruct (T1 _ _ _ E1) as (X & Y & N); [|contradiction|].
  - destruct (T2 _ _ _ _ E) as (X2 & Y2 & N2). split; [|split; [|exact N2]].
    + intros C. destruct (X C) as [(C1 & L1)|(e & C1 & Se)].
      * destruct (X2 C1) as [(C2 & L2)|W]; [left; split; [exact C2|lia]|now right].
      * right. exists e. split; [now apply Y2|exact Se].
    + intros e C Se. apply Y2; [now apply Y|exact Se].
  - injection E as <- <-. auto.
Qed.
Lemma told_number n (dec : M Z) : dec = decode_signed n \/ dec = decode_unsigned n -> told (ok_mapped dec).
Proof.
  intros D s r s' E. unfold ok_mapped in E.
  assert (X : (exists v s1, dec s = (Ok v, s1) /\ errs s1 = errs s /\ d_log s1 = d_log s) \/ dec s = (Err (with_info NoMoreData (d_pos s)), s)).
  { destruct D as [-> | ->]; unfold decode_signed, decode_unsigned, bind, read_bytes; destruct (Z.ltb_spec (zlen (d_buf s)) n); [right; reflexivity|left|right; reflexivity|left]; do 2 eexists; (split; [reflexivity|split; reflexivity]). }
  destruct X as [(v & s1 & X & Ee & El)|X]; rewrite X in E; injection E as <- <-.
  - rewrite Ee, El. auto.
  - cbn [map_err snd errs]. split; [|split; [|exact I]].
    + intros ->. right. eexists. split; reflexivity.
    + intros e -> _. reflexivity.
Qed.
Lemma told_for A n : forall i (x : Z -> A -> M A) acc, (forall i a, told (x i a)) -> told (for_loop n i x acc).
Proof.
  induction n as [|n IH]; intros i x acc P; cbn [for_loop]; [|apply told_bind; [apply P|intros a; now apply IH]].
  apply told_pure. intros s r s' E. injection E as <- <-. auto.
Qed.
Lemma told_table n dec k : dec = decode_signed n \/ dec = decode_unsigned n -> told (read_table dec k).
Proof.
  intros D. apply told_for. intros i l. apply told_bind; [now apply (told_number n)|]. intros [x|]; apply told_pure; intros s r s' E.
  - unfold vec_insert, expect in E. destruct (zinsert l i x); injection E as <- <-; auto.
  - injection E as <- <-. auto.
Qed.
(** after it the reader has no errors, or stops because a number is missing *)
Definition outcome_told {A} (r : res derr A) (s : st) : Prop :=
  match r with
  | Ok _ => errs s = None /\ shorts (d_log s) = 0
  | Err e => short e = true \/ shorts (d_log s) = 0
  | Panic _ => shorts (d_log s) <= 1
  end.
(** a number table never crashes: after the first missing number all others are missing *)
Lemma table_no_panic n dec : 0 < n -> dec = decode_signed n \/ dec = decode_unsigned n -> forall k i acc s,
  zlen acc = i \/ zlen (d_buf s) < n ->
  match fst (for_loop k i (fun i l => r <- ok_mapped dec ;; match r with Some x => vec_insert l i x | None => ret l end) acc s) with Panic _ => False | _ => True end.
Proof.
  intros N D. induction k as [|k IH]; intros i acc s H; cbn [for_loop]; [exact I|].
  assert (X : (exists v, dec s = (Ok v, {| d_buf := skipn (Z.to_nat n) (d_buf s); d_pos := d_pos s + n; d_code := d_code s; errs := errs s; d_log := d_log s |}) /\ n <= zlen (d_buf s)) \/ (dec s = (Err (with_info NoMoreData (d_pos s)), s) /\ zlen (d_buf s) < n)).
  { destruct D as [-> | ->]; unfold decode_signed, decode_unsigned, bind, read_bytes; destruct (Z.ltb_spec (zlen (d_buf s)) n); [right; split; [reflexivity|lia]|left|right; split; [reflexivity|lia]|left]; eexists; (split; [reflexivity|lia]). }
  unfold bind at 1. unfold bind at 1. unfold ok_mapped at 1. destruct X as [(v & -> & L)|(-> & L)].
  - destruct H as [<-|H]; [|lia]. unfold vec_insert. rewrite (FormatProofs.zinsert_end acc (zlen acc) v) by reflexivity. cbn [expect ret]. apply IH. left. rewrite zlen_app. reflexivity.
  - cbn [ret]. apply IH. right. exact L.
Qed.
Lemma table_then n dec k (f : list Z -> code) s (r : res derr code) s' : 0 < n -> dec = decode_signed n \/ dec = decode_unsigned n ->
  errs s = None -> shorts (d_log s) = 0 ->
  bind (read_table dec k) (fun l => bind check_error (fun _ => ret (f l))) s = (r, s') -> outcome_told r s'.
Proof.
  intros W D C L E. unfold bind at 1 in E. destruct (read_table dec k s) as [[l|e|q] s1] eqn:E1; destruct (told_table n dec k D _ _ _ E1) as (X & _ & N); [|contradiction|].
  - unfold bind, check_error in E. destruct (errs s1) as [e|] eqn:Ee; injection E as <- <-; cbn [outcome_told].
    + left. destruct (X C) as [(Y & _)|(e' & Y & S)]; [discriminate|]. now injection Y as <-.
    + split; [exact Ee|]. destruct (X C) as [(_ & Y)|(e' & Y & S)]; [lia|discriminate].
  - exfalso. pose proof (table_no_panic n dec W D (Z.to_nat k) 0 [] s (or_introl eq_refl)) as Y. unfold read_table, for_range in E1. rewrite E1 in Y. exact Y.
Qed.
(** the sections before and after: quiet, and clear on success *)
Lemma told_of_quiet A (m : M A) s r s' : quiet m -> shorts (d_log s) = 0 -> m s = (r, s') -> match r with Panic _ => shorts (d_log s') <= 1 | _ => shorts (d_log s') = 0 end.
Proof. intros Q L E. apply Q in E. pose proof (shorts_nonneg (d_log s')). destruct r; cbn [late] in E; lia. Qed.
Lemma bind_inv A B (m : M A) (k : A -> M B) s r s' : bind m k s = (r, s') ->
  (exists a s1, m s = (Ok a, s1) /\ k a s1 = (r, s')) \/ (exists e, m s = (Err e, s') /\ r = Err e) \/ (exists q, m s = (Panic q, s') /\ r = Panic q).
Proof. unfold bind. destruct (m s) as [[a|e|q] s1]; intros E; [left; eauto|right; left|right; right]; injection E as <- <-; eauto. Qed.
Lemma counts_clear c s c' s' : read_counts c s = (Ok c', s') -> errs s' = None.
Proof.
  unfold read_counts. cbv zeta. intros E.
  repeat (apply bind_inv in E; let H := fresh "H" in destruct E as [(? & ? & H & E)|[(? & _ & X)|(? & _ & X)]]; [|discriminate X|discriminate X]).
  injection E as _ <-. match goal with H : check_error _ = _ |- _ => unfold check_error in H; destruct (errs _) eqn:Q in H; [discriminate H|injection H as _ <-; exact Q] end.
Qed.
Theorem missing_told buf r s' : code_read (start None buf) = (r, s') -> match r with
  | Ok _ => shorts (d_log s') = 0
  | Err e => e_kind e = NoMoreData \/ shorts (d_log s') = 0
  | Panic _ => shorts (d_log s') <= 1
  end.
Proof.
  assert (K : forall e, short e = true -> e_kind e = NoMoreData) by (intros e; unfold short; destruct (e_kind e); now intros).
  unfold code_read. cbv zeta. intros E. assert (L0 : shorts (d_log (start None buf)) = 0) by reflexivity.
  apply bind_inv in E. destruct E as [(c1 & s1 & E1 & E)|[(e & E1 & ->)|(q & E1 & ->)]]; pose proof (told_of_quiet _ _ _ _ _ (q_read_magic _) L0 E1) as L1; cbv beta iota in L1; [|auto|auto].
  apply bind_inv in E. destruct E as [(c2 & s2 & E2 & E)|[(e & E2 & ->)|(q & E2 & ->)]]; pose proof (told_of_quiet _ _ _ _ _ (q_read_counts _) L1 E2) as L2; cbv beta iota in L2; [|auto|auto].
  pose proof (counts_clear _ _ _ _ E2) as C2.
  apply bind_inv in E. destruct E as [(c3 & s3 & E3 & E)|[(e & E3 & ->)|(q & E3 & ->)]]; pose proof (table_then 4 decode_i32 _ _ _ _ _ ltac:(lia) (or_introl eq_refl) C2 L2 E3) as X; cbn [outcome_told] in X; [destruct X as (C3 & L3)|destruct X; auto|auto].
  apply bind_inv in E. destruct E as [(c4 & s4 & E4 & E)|[(e & E4 & ->)|(q & E4 & ->)]]; pose proof (table_then 8 decode_f64 _ _ _ _ _ ltac:(lia) (or_intror eq_refl) C3 L3 E4) as X; cbn [outcome_told] in X; [destruct X as (C4 & L4)|destruct X; auto|auto].
  match type of E with ?m s4 = _ => assert (Q : quiet m) by q end.
  pose proof (told_of_quiet _ _ _ _ _ Q L4 E) as X. destruct r; auto.
Qed.
