(** What [Code::read] returns when it returns an error: the one kept in the error cell, except for the
    errors returned directly. *)
From Verif Require Import Prelude StdModel BrassTypes DecoderModel CodeModel FormatSpec ReaderSpec ErrSpec.
From Verif Require Import CodeGenericProofs FormatProofs ErrProofs.
From Coq Require Import Lia ZifyBool.

Definition er {A} (m : M A) : Prop := forall s e s', m s = (Err e, s') -> errs s' = Some e.
Lemma er_ret {A} (a : A) : er (ret a). Proof. discriminate. Qed.
Lemma er_bind {A B} (m : M A) (k : A -> M B) : er m -> (forall a, er (k a)) -> er (bind m k).
Proof. intros Hm Hk s e s' X. unfold bind in X. destruct (m s) as [[a|e0|p] s1] eqn:E; [eapply Hk; eauto|inversion X; subst; eapply Hm; eauto|discriminate]. Qed.
Lemma er_unwrap {A} (m : M A) : er (unwrap m). Proof. intros s e s' X. unfold unwrap in X. destruct (m s) as [[]]; discriminate. Qed.
Lemma er_unwrap_mapped {A} (m : M A) : er (unwrap_mapped m). Proof. intros s e s' X. unfold unwrap_mapped in X. destruct (m s) as [[]]; discriminate. Qed.
Lemma er_ok {A} (m : M A) : er (ok m). Proof. intros s e s' X. unfold ok in X. destruct (m s) as [[]]; discriminate. Qed.
Lemma er_ok_mapped {A} (m : M A) : er (ok_mapped m). Proof. intros s e s' X. unfold ok_mapped in X. destruct (m s) as [[]]; discriminate. Qed.
Lemma er_expect {A} p (o : option A) : er (expect p o). Proof. intros s e s' X. destruct o; discriminate. Qed.
Lemma er_insert {A} (l : list A) i x : er (vec_insert l i x). Proof. apply er_expect. Qed.
Lemma er_check : er check_error. Proof. intros s e s' X. unfold check_error in X. destruct (errs s) eqn:Q; inversion X; subst. auto. Qed.
Lemma er_get : er get_code. Proof. discriminate. Qed.
Lemma er_pos : er get_pos. Proof. discriminate. Qed.
Lemma er_put c : er (put_code c). Proof. discriminate. Qed.
Lemma er_map e : er (map_err e). Proof. discriminate. Qed.
Lemma er_crash {A} p : er (@crash A p). Proof. discriminate. Qed.
Lemma er_for_loop {A} n : forall i (body : Z -> A -> M A) acc, (forall i a, er (body i a)) -> er (for_loop n i body acc).
Proof. induction n as [|n IH]; intros; cbn [for_loop]; [apply er_ret|]. apply er_bind; auto. Qed.
Lemma er_for {A} n (body : Z -> A -> M A) acc : (forall i a, er (body i a)) -> er (for_range n body acc).
Proof. intros. now apply er_for_loop. Qed.
Ltac er := repeat match goal with
  | |- er (bind _ _) => apply er_bind; [|intro]
  | |- er (ret _) => apply er_ret
  | |- er (unwrap _) => apply er_unwrap
  | |- er (unwrap_mapped _) => apply er_unwrap_mapped
  | |- er (ok _) => apply er_ok
  | |- er (ok_mapped _) => apply er_ok_mapped
  | |- er (expect _ _) => apply er_expect
  | |- er (vec_insert _ _ _) => apply er_insert
  | |- er check_error => apply er_check
  | |- er get_code => apply er_get
  | |- er get_pos => apply er_pos
  | |- er (put_code _) => apply er_put
  | |- er (map_err _) => apply er_map
  | |- er (crash _) => apply er_crash
  | |- er (for_range _ _ _) => apply er_for; intros
  | |- er (if ?b then _ else _) => destruct b
  | |- er (match ?x with _ => _ end) => destruct x
  | |- er (let x := _ in _) => cbv zeta
  end.
Lemma er_fields n : er (read_fields n). Proof. unfold read_fields. er. Qed.
Lemma er_protos n : er (read_protos n). Proof. unfold read_protos. er. Qed.
Lemma er_bindings n : er (read_bindings n). Proof. unfold read_bindings. er. Qed.
Lemma er_refs n : er (read_type_refs n). Proof. unfold read_type_refs. er. Qed.
Lemma er_constructs n : er (read_constructs n). Proof. unfold read_constructs. er. apply er_refs. Qed.
Lemma er_type : er read_type. Proof. unfold read_type. er; auto using er_fields, er_protos, er_bindings, er_refs, er_constructs. Qed.
Lemma er_counts c : er (read_counts c). Proof. unfold read_counts, read_count. er. Qed.
Lemma er_ints c : er (read_ints c). Proof. unfold read_ints, read_table. er. Qed.
Lemma er_floats c : er (read_floats c). Proof. unfold read_floats, read_table. er. Qed.
Lemma er_table c : er (read_string_table c). Proof. unfold read_string_table. er. Qed.
Lemma er_debugfiles c : er (read_debugfiles c). Proof. unfold read_debugfiles, read_count. er. Qed.
Lemma er_types c : er (read_types c). Proof. unfold read_types. er. apply er_type. Qed.
Lemma er_globals c : er (read_globals c). Proof. unfold read_globals. er. Qed.
Lemma er_natives c : er (read_natives c). Proof. unfold read_natives. er. Qed.
Lemma er_functions c : er (read_functions c). Proof. unfold read_functions, read_function_entry, skip_assigns. er. Qed.
Lemma er_constants c : er (read_constants c). Proof. unfold read_constants. er. Qed.

(** a phase that ends with [check_error] leaves the cell empty *)
Lemma checked {A B} (m : M A) (f : A -> B) s b s' : bind m (fun a => check_error ;;; ret (f a)) s = (Ok b, s') -> errs s' = None.
Proof.
  unfold bind. destruct (m s) as [[a|e|p] s1]; try discriminate. unfold check_error. destruct (errs s1) eqn:Q; [discriminate|]. intros X. inversion X; subst. auto.
Qed.
Lemma kept_none l : forall c, kept c l = None -> l = [] /\ c = None.
Proof.
  induction l as [|x l IH]; cbn; intros c H; [auto|]. apply IH in H. destruct H as [_ H]. destruct c; [destruct (never_replaces _)|]; discriminate.
Qed.

Lemma magic_err s e s' : read_magic code_new s = (Err e, s') -> d_log s' = d_log s /\ (e_kind e = InvalidBytecodeHeader \/ e_kind e = UnsupportedBytecodeVersion).
Proof.
  unfold read_magic, unwrap, unwrap_mapped, decode_u8, decode_unsigned, read_bytes, bind, ret, get_pos, throw, with_info.
  repeat match goal with |- context [if ?c then _ else _] => destruct c end; intros X; inversion X; subst; cbn; auto.
Qed.
Lemma bytes_err c s e s' : read_bytes_section c s = (Err e, s') -> errs s' = Some e \/ (s' = s /\ e_kind e = NoMoreData).
Proof.
  unfold read_bytes_section. destruct (5 <=? c_version c); [|discriminate]. unfold bind at 1.
  destruct (decode_i32 s) as [[v|e0|p] s1] eqn:D; [|intros X; inversion X; subst; right|discriminate].
  - intros X. left. revert X.
    match goal with |- ?m s1 = _ -> _ => assert (T : er m) end; [|apply T]. er.
  - unfold decode_i32, decode_signed, read_bytes, bind, ret, with_info in D. destruct (_ <? _); inversion D; subst. auto.
Qed.
Lemma code_read_err file old e s' : bytes file -> code_read (start old file) = (Err e, s') ->
  errs s' = Some e \/ (d_log s' = [] /\ (e_kind e = InvalidBytecodeHeader \/ e_kind e = UnsupportedBytecodeVersion \/ (e_kind e = NoMoreData /\ old = None))).
Proof.
  intros B X. destruct (code_read_explained file B old _ _ X) as [(_ & _ & K & _) _]. unfold code_read in X. cbv zeta in X.
  unfold bind at 1 in X. destruct (read_magic code_new (start old file)) as [[c|e0|p] s1] eqn:E1; [|inversion X; subst|discriminate].
  2:{ destruct (magic_err _ _ _ E1) as [L H]. right. rewrite L. cbn. tauto. }
  clear E1. unfold bind at 1 in X. destruct (read_counts c s1) as [[c1|e0|p] s2] eqn:E1; [|inversion X; subst; left; eapply er_counts; eauto|discriminate].
  clear E1. unfold bind at 1 in X. destruct (read_ints c1 s2) as [[c2|e0|p] s3] eqn:E1; [|inversion X; subst; left; eapply er_ints; eauto|discriminate].
  clear E1. unfold bind at 1 in X. destruct (read_floats c2 s3) as [[c3|e0|p] s4] eqn:E1; [|inversion X; subst; left; eapply er_floats; eauto|discriminate].
  clear E1. unfold bind at 1 in X. destruct (read_string_table c3 s4) as [[c4|e0|p] s5] eqn:E1; [|inversion X; subst; left; eapply er_table; eauto|discriminate].
  assert (N5 : errs s5 = None).
  { unfold read_string_table in E1. cbv zeta in E1. unfold bind at 1 in E1. destruct (ok_mapped _ s4) as [[r|e0|p] s6]; try discriminate.
    unfold bind, check_error in E1. destruct (errs s6) eqn:Q; inversion E1; subst. auto. }
  clear E1. unfold bind at 1 in X. destruct (read_bytes_section c4 s5) as [[c5|e0|p] s6] eqn:E1; [|inversion X; subst|discriminate].
  2:{ destruct (bytes_err _ _ _ _ E1) as [H|[-> H]]; [auto|]. right. rewrite N5 in K. symmetry in K. apply kept_none in K. destruct K as [-> ->]. tauto. }
  left. revert X. match goal with |- ?m s6 = _ -> _ => assert (T : er m) end; [|apply T].
  er; auto using er_debugfiles, er_types, er_globals, er_natives, er_functions, er_constants.
Qed.
