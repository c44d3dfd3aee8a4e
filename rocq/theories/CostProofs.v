(** The reader with costs (CostModel.v) has the outcomes of CodeModel.v, and its loops turn once per byte (C78). *)
From Verif Require Import Prelude StdModel BrassTypes DecoderModel CodeModel ReaderSpec.
From Verif Require CostModel.
Import CostModel(cost, turns, copied, filled, none, plus).
From Coq Require Import Lia.

Definition same {A} (x : CostModel.M A) (m : M A) : Prop := forall s, fst (x s) = m s.
Lemma same_free A (m : M A) : same (CostModel.free m) m. Proof. intros s. reflexivity. Qed.
Lemma same_bind A B (x : CostModel.M A) (m : M A) (y : A -> CostModel.M B) (k : A -> M B) : same x m -> (forall a, same (y a) (k a)) -> same (CostModel.bind x y) (bind m k).
Proof.
  intros E1 E2 s. unfold CostModel.bind, bind. rewrite <- E1. destruct (x s) as [[[a|e|q] s1] t]; cbn [fst]; try reflexivity. rewrite <- E2. now destruct (y a s1).
Qed.
Lemma same_on A B f (x : CostModel.M A) (m : M A) : (forall (m1 m2 : M A) s, m1 s = m2 s -> f m1 s = (f m2 s : res derr B * st)) -> same x m -> same (CostModel.on f x) (f m).
Proof. intros F E s. unfold CostModel.on. pose proof (E s) as X. destruct (x s) as (r, t). cbn [fst] in *. now apply F. Qed.
Lemma same_unwrap A (x : CostModel.M A) m : same x m -> same (CostModel.unwrap x) (unwrap m).
Proof. apply same_on. intros m1 m2 s E. unfold unwrap. now rewrite E. Qed.
Lemma same_unwrap_mapped A (x : CostModel.M A) m : same x m -> same (CostModel.unwrap_mapped x) (unwrap_mapped m).
Proof. apply same_on. intros m1 m2 s E. unfold unwrap_mapped. now rewrite E. Qed.
Lemma same_ok_mapped A (x : CostModel.M A) m : same x m -> same (CostModel.ok_mapped x) (ok_mapped m).
Proof. apply same_on. intros m1 m2 s E. unfold ok_mapped. now rewrite E. Qed.
Lemma same_ok A (x : CostModel.M A) m : same x m -> same (CostModel.ok x) (ok m).
Proof. apply same_on. intros m1 m2 s E. unfold ok. now rewrite E. Qed.
Lemma same_mark A (x : CostModel.M unit) (y : CostModel.M A) m : same x (ret tt) -> same y m -> same (CostModel.bind x (fun _ => y)) m.
Proof. intros E1 E2. intros s. rewrite (same_bind _ _ x (ret tt) (fun _ => y) (fun _ => m) E1 (fun _ => E2) s). reflexivity. Qed.
Lemma same_turn : same CostModel.turn (ret tt). Proof. intros s. reflexivity. Qed.
Lemma same_copy n : same (CostModel.copy n) (ret tt). Proof. intros s. reflexivity. Qed.
Lemma same_fill n : same (CostModel.fill n) (ret tt). Proof. intros s. reflexivity. Qed.
Lemma same_for A n : forall i (x : Z -> A -> CostModel.M A) m acc, (forall i a, same (x i a) (m i a)) -> same (CostModel.for_loop n i x acc) (for_loop n i m acc).
Proof.
  induction n as [|n IH]; intros i x m acc E; [apply same_free|]. cbn [CostModel.for_loop for_loop]. apply same_mark; [apply same_turn|]. apply same_bind; [apply E|]. intros a. now apply IH.
Qed.
Lemma same_range A n (x : Z -> A -> CostModel.M A) m acc : (forall i a, same (x i a) (m i a)) -> same (CostModel.for_range n x acc) (for_range n m acc).
Proof. apply same_for. Qed.
Lemma same_put c : same (CostModel.put_clone c) (put_code c). Proof. intros s. reflexivity. Qed.
Lemma same_get : same CostModel.get_clone get_code. Proof. intros s. reflexivity. Qed.
Create HintDb same.
Ltac step := first [ apply same_free | apply same_put | apply same_get | (apply same_mark; [first [apply same_turn|apply same_copy|apply same_fill]|]) | solve [auto 2 with same nocore]
  | apply same_unwrap | apply same_unwrap_mapped | apply same_ok_mapped | apply same_ok | (apply same_range; intros) | (apply same_bind; [|intros ?])
  | match goal with |- same (if ?b then _ else _) _ => destruct b | |- same (match ?r with _ => _ end) _ => destruct r end ].
Ltac same := intros; cbv zeta; repeat step.
Lemma same_read_string : same CostModel.read_string read_string. Proof. unfold CostModel.read_string, read_string. same. Qed.
Lemma same_read_ustring : same CostModel.read_ustring read_ustring. Proof. unfold CostModel.read_ustring, read_ustring. same. Qed.
Lemma same_get_type : same CostModel.get_type get_type. Proof. unfold CostModel.get_type, get_type. same. Qed.
#[export] Hint Resolve same_read_string same_read_ustring same_get_type : same.
Lemma same_read_fields n : same (CostModel.read_fields n) (read_fields n). Proof. unfold CostModel.read_fields, read_fields. same. Qed.
Lemma same_read_protos n : same (CostModel.read_protos n) (read_protos n). Proof. unfold CostModel.read_protos, read_protos. same. Qed.
Lemma same_read_bindings n : same (CostModel.read_bindings n) (read_bindings n). Proof. unfold CostModel.read_bindings, read_bindings. same. Qed.
Lemma same_read_type_refs n : same (CostModel.read_type_refs n) (read_type_refs n). Proof. unfold CostModel.read_type_refs, read_type_refs. same. Qed.
#[export] Hint Resolve same_read_fields same_read_protos same_read_bindings same_read_type_refs : same.
Lemma same_read_constructs n : same (CostModel.read_constructs n) (read_constructs n). Proof. unfold CostModel.read_constructs, read_constructs. same. Qed.
#[export] Hint Resolve same_read_constructs : same.
Lemma same_read_type : same CostModel.read_type read_type. Proof. unfold CostModel.read_type, read_type. same. Qed.
Lemma same_strings_loop n : forall text cur ss lens, same (CostModel.strings_loop n text cur ss lens) (strings_loop n text cur ss lens).
Proof. induction n as [|n IH]; intros; cbn [CostModel.strings_loop strings_loop]; same. Qed.
#[export] Hint Resolve same_read_type same_strings_loop : same.
Lemma same_read_strings n l : same (CostModel.read_strings n l) (read_strings n l). Proof. unfold CostModel.read_strings, read_strings. same. Qed.
Lemma same_read_extra x m n : same x m -> same (CostModel.read_extra x n) (read_extra m n). Proof. intros E. unfold CostModel.read_extra, read_extra. same. Qed.
#[export] Hint Resolve same_read_strings same_read_extra same_free : same.
Lemma same_read_opcode : same CostModel.read_opcode read_opcode. Proof. unfold CostModel.read_opcode, read_opcode. same. Qed.
#[export] Hint Resolve same_read_opcode : same.
Lemma same_read_function : same CostModel.read_function read_function. Proof. unfold CostModel.read_function, read_function. same. Qed.
Lemma same_debug_loop n : forall nops i f l d, same (CostModel.debug_loop n nops i f l d) (debug_loop n nops i f l d).
Proof. induction n as [|n IH]; intros; cbn [CostModel.debug_loop debug_loop]; same. Qed.
Lemma same_debug_infos n : same (CostModel.debug_infos n) (debug_infos n). Proof. intros s. unfold CostModel.debug_infos, debug_infos. generalize (S (length (d_buf s))). intros k. apply (same_mark _ _ _ _ (same_fill _) (same_debug_loop k n 0 (-1) 0 _)). Qed.
#[export] Hint Resolve same_read_function same_debug_infos : same.
Lemma same_read_table x m n : same x m -> same (CostModel.read_table x n) (read_table m n). Proof. intros E. unfold CostModel.read_table, read_table. same. Qed.
#[export] Hint Resolve same_read_table : same.
Lemma same_read_ints c : same (CostModel.read_ints c) (read_ints c). Proof. unfold CostModel.read_ints, read_ints. same. Qed.
Lemma same_read_floats c : same (CostModel.read_floats c) (read_floats c). Proof. unfold CostModel.read_floats, read_floats. same. Qed.
Lemma same_read_string_table c : same (CostModel.read_string_table c) (read_string_table c). Proof. unfold CostModel.read_string_table, read_string_table. same. Qed.
Lemma same_read_bytes_section c : same (CostModel.read_bytes_section c) (read_bytes_section c). Proof. unfold CostModel.read_bytes_section, read_bytes_section. same. Qed.
Lemma same_read_debugfiles c : same (CostModel.read_debugfiles c) (read_debugfiles c). Proof. unfold CostModel.read_debugfiles, read_debugfiles. same. Qed.
Lemma same_read_types c : same (CostModel.read_types c) (read_types c). Proof. unfold CostModel.read_types, read_types. same. Qed.
Lemma same_read_globals c : same (CostModel.read_globals c) (read_globals c). Proof. unfold CostModel.read_globals, read_globals. same. Qed.
Lemma same_read_natives c : same (CostModel.read_natives c) (read_natives c). Proof. unfold CostModel.read_natives, read_natives. same. Qed.
Lemma same_skip_assigns : same CostModel.skip_assigns skip_assigns. Proof. unfold CostModel.skip_assigns, skip_assigns. same. Qed.
#[export] Hint Resolve same_skip_assigns : same.
Lemma same_read_function_entry i c : same (CostModel.read_function_entry i c) (read_function_entry i c). Proof. unfold CostModel.read_function_entry, read_function_entry. same. Qed.
#[export] Hint Resolve same_read_function_entry : same.
Lemma same_read_functions c : same (CostModel.read_functions c) (read_functions c). Proof. unfold CostModel.read_functions, read_functions. same. Qed.
Lemma same_read_constants c : same (CostModel.read_constants c) (read_constants c). Proof. unfold CostModel.read_constants, read_constants. same. Qed.
#[export] Hint Resolve same_read_ints same_read_floats same_read_string_table same_read_bytes_section same_read_debugfiles same_read_types same_read_globals same_read_natives same_read_functions same_read_constants : same.
Lemma same_code_read : same CostModel.code_read code_read. Proof. unfold CostModel.code_read, code_read. same. Qed.
