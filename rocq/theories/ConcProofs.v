(** Proofs about ConcModel.v: one thread alone is the sequential reader; schedules. *)
From Verif Require Import Prelude StdModel BrassTypes.
From Verif Require DecoderModel CodeModel.
From Verif Require Import ConcModel.
From Coq Require Import Lia.

(** * One thread alone *)
Fixpoint alone {A} (a : act A) (cell : option derr) : res derr A * local * option derr :=
  match a with
  | Done r l => (r, l, cell)
  | Look k => alone (k cell) cell
  | Put e k => alone k (Some e)
  end.
Definition loc (s : DecoderModel.st) : local := {| d_buf := DecoderModel.d_buf s; d_pos := DecoderModel.d_pos s; d_code := DecoderModel.d_code s |}.
Definition outcome {A} (x : res derr A * DecoderModel.st) : res derr A * local * option derr := (fst x, loc (snd x), DecoderModel.errs (snd x)).
(** [m] is the sequential computation [m'] *)
Definition same {A} (m : M A) (m' : DecoderModel.M A) : Prop := forall s, alone (m (loc s)) (DecoderModel.errs s) = outcome (m' s).

Lemma alone_finish {A B} (a : act A) (k : res derr A -> local -> act B) : forall cell,
  alone (finish a k) cell = let '(r, l, cell') := alone a cell in alone (k r l) cell'.
Proof. induction a as [r l|f IH|e a IH]; intros cell; cbn [finish alone]; auto. Qed.
Lemma same_finish {A B} (m : M A) m' (k : res derr A -> local -> act B) (k' : res derr A * DecoderModel.st -> res derr B * DecoderModel.st) : same m m' ->
  (forall r s, alone (k r (loc s)) (DecoderModel.errs s) = outcome (k' (r, s))) -> same (fun l => finish (m l) k) (fun s => k' (m' s)).
Proof.
  intros S K s. rewrite alone_finish. rewrite (S s). unfold outcome at 1. destruct (m' s) as [r s1]. cbn [fst snd]. apply K.
Qed.
Lemma same_ret {A} (a : A) : same (ret a) (DecoderModel.ret a). Proof. intros s. reflexivity. Qed.
Lemma same_throw {A} e : same (@throw A e) (DecoderModel.throw e). Proof. intros s. reflexivity. Qed.
Lemma same_crash {A} p : same (@crash A p) (DecoderModel.crash p). Proof. intros s. reflexivity. Qed.
Lemma same_get_pos : same get_pos DecoderModel.get_pos. Proof. intros s. reflexivity. Qed.
Lemma same_get_code : same get_code DecoderModel.get_code. Proof. intros s. reflexivity. Qed.
Lemma same_put_code c : same (put_code c) (DecoderModel.put_code c). Proof. intros s. reflexivity. Qed.
Lemma same_lift {A} (r : res derr A) : same (lift r) (CodeModel.lift r). Proof. intros s. reflexivity. Qed.
Lemma same_record e : same (record_error e) (DecoderModel.record_error e). Proof. intros s. reflexivity. Qed.
Lemma same_map_err e : same (map_err e) (DecoderModel.map_err e).
Proof. intros s. unfold map_err, DecoderModel.map_err, outcome, loc. cbn. destruct (DecoderModel.errs s); reflexivity. Qed.
Lemma same_check : same check_error DecoderModel.check_error.
Proof. intros s. unfold check_error, DecoderModel.check_error, outcome. cbn. destruct (DecoderModel.errs s) eqn:E; cbn; now rewrite E. Qed.
Lemma same_expect {A} p (o : option A) : same (expect p o) (DecoderModel.expect p o). Proof. destruct o; intros s; reflexivity. Qed.
Lemma same_insert {A} (l : list A) i x : same (vec_insert l i x) (DecoderModel.vec_insert l i x). Proof. apply same_expect. Qed.
Lemma same_bind {A B} (m : M A) m' (k : A -> M B) k' : same m m' -> (forall a, same (k a) (k' a)) -> same (bind m k) (DecoderModel.bind m' k').
Proof.
  intros S K. unfold bind, DecoderModel.bind. apply (same_finish m m' _ (fun x => match x with (Ok a, s) => k' a s | (Err e, s) => (Err e, s) | (Panic p, s) => (Panic p, s) end)); [exact S|].
  intros [a|e|p] s; [apply K|reflexivity|reflexivity].
Qed.
Lemma same_unwrap {A} (m : M A) m' : same m m' -> same (unwrap m) (DecoderModel.unwrap m').
Proof.
  intros S. unfold unwrap, DecoderModel.unwrap. apply (same_finish m m' _ (fun x => match x with (Err _, s) => (Panic PUnwrap, s) | (Ok a, s) => (Ok a, s) | (Panic p, s) => (Panic p, s) end)); [exact S|].
  intros [a|e|p] s; reflexivity.
Qed.
Lemma alone_map_err {B} e s (r : res derr B) : alone (finish (map_err e (loc s)) (fun _ l => Done r l)) (DecoderModel.errs s) = outcome (r, snd (DecoderModel.map_err e s)).
Proof. rewrite alone_finish, (same_map_err e s). reflexivity. Qed.
Lemma same_unwrap_mapped {A} (m : M A) m' : same m m' -> same (unwrap_mapped m) (DecoderModel.unwrap_mapped m').
Proof.
  intros S. unfold unwrap_mapped, DecoderModel.unwrap_mapped.
  apply (same_finish m m' _ (fun x => match x with (Err e, s) => (Panic PUnwrap, snd (DecoderModel.map_err e s)) | (Ok a, s) => (Ok a, s) | (Panic p, s) => (Panic p, s) end)); [exact S|].
  intros [a|e|p] s; [reflexivity|apply alone_map_err|reflexivity].
Qed.
Lemma same_ok_mapped {A} (m : M A) m' : same m m' -> same (ok_mapped m) (DecoderModel.ok_mapped m').
Proof.
  intros S. unfold ok_mapped, DecoderModel.ok_mapped.
  apply (same_finish m m' _ (fun x => match x with (Ok a, s) => (Ok (Some a), s) | (Err e, s) => (Ok None, snd (DecoderModel.map_err e s)) | (Panic p, s) => (Panic p, s) end)); [exact S|].
  intros [a|e|p] s; [reflexivity|apply alone_map_err|reflexivity].
Qed.
Lemma same_ok {A} (m : M A) m' : same m m' -> same (ok m) (DecoderModel.ok m').
Proof.
  intros S. unfold ok, DecoderModel.ok.
  apply (same_finish m m' _ (fun x => match x with (Ok a, s) => (Ok (Some a), s) | (Err e, s) => (Ok None, s) | (Panic p, s) => (Panic p, s) end)); [exact S|].
  intros [a|e|p] s; reflexivity.
Qed.
Lemma same_if {A} (b : bool) (m n : M A) m' n' : same m m' -> same n n' -> same (if b then m else n) (if b then m' else n'). Proof. now destruct b. Qed.
Lemma same_loop {A} n : forall i (b : Z -> A -> M A) b' acc, (forall i a, same (b i a) (b' i a)) -> same (for_loop n i b acc) (DecoderModel.for_loop n i b' acc).
Proof. induction n as [|n IH]; intros i b b' acc H; cbn; [apply same_ret|]. apply same_bind; auto. Qed.
Lemma same_for {A} n (b : Z -> A -> M A) b' acc : (forall i a, same (b i a) (b' i a)) -> same (for_range n b acc) (DecoderModel.for_range n b' acc).
Proof. apply same_loop. Qed.
Lemma same_read_bytes n : same (read_bytes n) (DecoderModel.read_bytes n).
Proof. intros s. unfold read_bytes, DecoderModel.read_bytes. cbn [loc d_buf]. destruct (_ <? _); reflexivity. Qed.
Lemma same_advance n : same (advance n) (DecoderModel.advance n).
Proof. intros s. unfold advance, DecoderModel.advance. cbn [loc d_buf]. destruct (_ <? _); reflexivity. Qed.

Ltac sm1 := match goal with
  | |- same (bind _ _) _ => apply same_bind; [|intros; cbv zeta]
  | |- same (ret _) _ => apply same_ret
  | |- same (throw _) _ => apply same_throw
  | |- same (crash _) _ => apply same_crash
  | |- same get_pos _ => apply same_get_pos
  | |- same get_code _ => apply same_get_code
  | |- same (put_code _) _ => apply same_put_code
  | |- same (lift _) _ => apply same_lift
  | |- same (record_error _) _ => apply same_record
  | |- same (map_err _) _ => apply same_map_err
  | |- same check_error _ => apply same_check
  | |- same (vec_insert _ _ _) _ => apply same_insert
  | |- same (expect _ _) _ => apply same_expect
  | |- same (read_bytes _) _ => apply same_read_bytes
  | |- same (advance _) _ => apply same_advance
  | |- same (unwrap _) _ => apply same_unwrap
  | |- same (unwrap_mapped _) _ => apply same_unwrap_mapped
  | |- same (ok_mapped _) _ => apply same_ok_mapped
  | |- same (ok _) _ => apply same_ok
  | |- same (if _ then _ else _) _ => apply same_if
  | |- same (for_range _ _ _) _ => apply same_for; intros
  | |- same (match ?x with _ => _ end) _ => destruct x
  | |- same (let _ := _ in _) _ => cbv zeta
  end.
Ltac sm := intros; repeat (sm1; cbv beta).
Lemma same_u8 : same decode_u8 DecoderModel.decode_u8. Proof. unfold decode_u8, decode_unsigned, DecoderModel.decode_u8, DecoderModel.decode_unsigned. sm. Qed.
Lemma same_i32 : same decode_i32 DecoderModel.decode_i32. Proof. unfold decode_i32, decode_signed, DecoderModel.decode_i32, DecoderModel.decode_signed. sm. Qed.
Lemma same_f64 : same decode_f64 DecoderModel.decode_f64. Proof. unfold decode_f64, decode_u64, decode_unsigned, DecoderModel.decode_f64, DecoderModel.decode_u64, DecoderModel.decode_unsigned. sm. Qed.
Lemma same_read_index : same read_index DecoderModel.read_index. Proof. unfold read_index, DecoderModel.read_index. sm; apply same_u8. Qed.
Lemma same_INDEX : same INDEX DecoderModel.INDEX. Proof. unfold INDEX, DecoderModel.INDEX. sm; apply same_read_index. Qed.
Lemma same_UINDEX : same UINDEX DecoderModel.UINDEX. Proof. unfold UINDEX, DecoderModel.UINDEX. sm; apply same_INDEX. Qed.
Lemma same_to_i32 x : same (to_i32 x) (CodeModel.to_i32 x). Proof. unfold to_i32, CodeModel.to_i32. sm. Qed.
#[local] Hint Resolve same_u8 same_i32 same_f64 same_INDEX same_UINDEX same_to_i32 : sm.
Ltac ss := sm; auto 2 with sm.
Lemma same_read_string : same read_string CodeModel.read_string. Proof. unfold read_string, CodeModel.read_string. ss. Qed.
Lemma same_read_ustring : same read_ustring CodeModel.read_ustring. Proof. unfold read_ustring, CodeModel.read_ustring. ss. Qed.
Lemma same_get_type : same get_type CodeModel.get_type. Proof. unfold get_type, CodeModel.get_type. ss. Qed.
#[local] Hint Resolve same_read_string same_read_ustring same_get_type : sm.
Lemma same_fields n : same (read_fields n) (CodeModel.read_fields n). Proof. unfold read_fields, CodeModel.read_fields. ss. Qed.
Lemma same_protos n : same (read_protos n) (CodeModel.read_protos n). Proof. unfold read_protos, CodeModel.read_protos. ss. Qed.
Lemma same_bindings n : same (read_bindings n) (CodeModel.read_bindings n). Proof. unfold read_bindings, CodeModel.read_bindings. ss. Qed.
Lemma same_refs n : same (read_type_refs n) (CodeModel.read_type_refs n). Proof. unfold read_type_refs, CodeModel.read_type_refs. ss. Qed.
#[local] Hint Resolve same_fields same_protos same_bindings same_refs : sm.
Lemma same_constructs n : same (read_constructs n) (CodeModel.read_constructs n). Proof. unfold read_constructs, CodeModel.read_constructs. ss. Qed.
#[local] Hint Resolve same_constructs : sm.
Lemma same_read_type : same read_type CodeModel.read_type. Proof. unfold read_type, CodeModel.read_type. ss. Qed.
Lemma same_strings_loop n : forall t c ss ls, same (strings_loop n t c ss ls) (CodeModel.strings_loop n t c ss ls).
Proof. induction n as [|n IH]; intros; cbn [strings_loop CodeModel.strings_loop]; ss. Qed.
Lemma same_read_strings n ls : same (read_strings n ls) (CodeModel.read_strings n ls).
Proof.
  unfold read_strings, CodeModel.read_strings. apply same_bind; [ss|]. intros size. cbv zeta. apply same_bind.
  - intros s. cbn [loc d_buf]. destruct (_ <? _); reflexivity.
  - ss. apply same_strings_loop.
Qed.
Lemma same_extra r r' n : same r r' -> same (read_extra r n) (CodeModel.read_extra r' n). Proof. intros. unfold read_extra, CodeModel.read_extra. ss. Qed.
#[local] Hint Resolve same_read_type same_read_strings same_extra : sm.
Lemma same_opcode : same read_opcode CodeModel.read_opcode. Proof. unfold read_opcode, CodeModel.read_opcode. ss. Qed.
#[local] Hint Resolve same_opcode : sm.
Lemma same_function : same read_function CodeModel.read_function. Proof. unfold read_function, CodeModel.read_function. ss. Qed.
Lemma same_debug_loop n : forall nops i f l d, same (debug_loop n nops i f l d) (CodeModel.debug_loop n nops i f l d).
Proof. induction n as [|n IH]; intros; cbn [debug_loop CodeModel.debug_loop]; unfold i32_add, CodeModel.i32_add, debug_store, CodeModel.debug_store; ss. Qed.
Lemma same_debug n : same (debug_infos n) (CodeModel.debug_infos n).
Proof. intros s. unfold debug_infos, CodeModel.debug_infos. cbn [loc d_buf]. apply same_debug_loop. Qed.
#[local] Hint Resolve same_function same_debug : sm.
Lemma same_magic c : same (read_magic c) (CodeModel.read_magic c). Proof. unfold read_magic, CodeModel.read_magic. ss. Qed.
Lemma same_count f c : same (read_count f c) (CodeModel.read_count f c). Proof. unfold read_count, CodeModel.read_count. ss. Qed.
#[local] Hint Resolve same_magic same_count : sm.
Lemma same_counts c : same (read_counts c) (CodeModel.read_counts c). Proof. unfold read_counts, CodeModel.read_counts. ss. Qed.
Lemma same_table r r' n : same r r' -> same (read_table r n) (CodeModel.read_table r' n). Proof. intros. unfold read_table, CodeModel.read_table. ss. Qed.
#[local] Hint Resolve same_counts same_table : sm.
Lemma same_ints c : same (read_ints c) (CodeModel.read_ints c). Proof. unfold read_ints, CodeModel.read_ints. ss. Qed.
Lemma same_floats c : same (read_floats c) (CodeModel.read_floats c). Proof. unfold read_floats, CodeModel.read_floats. ss. Qed.
Lemma same_string_table c : same (read_string_table c) (CodeModel.read_string_table c). Proof. unfold read_string_table, CodeModel.read_string_table. ss. Qed.
Lemma same_bytes c : same (read_bytes_section c) (CodeModel.read_bytes_section c). Proof. unfold read_bytes_section, CodeModel.read_bytes_section. ss. Qed.
Lemma same_debugfiles c : same (read_debugfiles c) (CodeModel.read_debugfiles c). Proof. unfold read_debugfiles, CodeModel.read_debugfiles. ss. Qed.
Lemma same_types c : same (read_types c) (CodeModel.read_types c). Proof. unfold read_types, CodeModel.read_types. ss. Qed.
Lemma same_globals c : same (read_globals c) (CodeModel.read_globals c). Proof. unfold read_globals, CodeModel.read_globals. ss. Qed.
Lemma same_natives c : same (read_natives c) (CodeModel.read_natives c). Proof. unfold read_natives, CodeModel.read_natives. ss. Qed.
Lemma same_skip : same skip_assigns CodeModel.skip_assigns. Proof. unfold skip_assigns, CodeModel.skip_assigns. ss. Qed.
#[local] Hint Resolve same_ints same_floats same_string_table same_bytes same_debugfiles same_types same_globals same_natives same_skip : sm.
Lemma same_entry i c : same (read_function_entry i c) (CodeModel.read_function_entry i c).
Proof. unfold read_function_entry, CodeModel.read_function_entry. ss. Qed.
#[local] Hint Resolve same_entry : sm.
Lemma same_functions c : same (read_functions c) (CodeModel.read_functions c). Proof. unfold read_functions, CodeModel.read_functions. ss. Qed.
Lemma same_constants c : same (read_constants c) (CodeModel.read_constants c). Proof. unfold read_constants, CodeModel.read_constants. ss. Qed.
#[local] Hint Resolve same_functions same_constants : sm.
Lemma same_code_read : same code_read CodeModel.code_read. Proof. unfold code_read, CodeModel.code_read. ss. Qed.

(** The reader started alone is the sequential reader. *)
Theorem reader_alone cell file : let '(r, _, cell') := alone (reader file) cell in CodeModel.read_module cell file = (r, cell').
Proof.
  pose proof (same_code_read (CodeModel.start cell file)) as S. unfold reader. unfold loc in S. cbn [CodeModel.start DecoderModel.d_buf DecoderModel.d_pos DecoderModel.d_code DecoderModel.errs] in S. rewrite S.
  unfold outcome, CodeModel.read_module. destruct (CodeModel.code_read (CodeModel.start cell file)) as [r s]. reflexivity.
Qed.

(** * Schedules *)
Lemma alone_some {A} (a : act A) : forall cell, cell <> None -> snd (alone a cell) <> None.
Proof. induction a as [r l|f IH|e a IH]; intros cell H; cbn [alone]; auto. apply IH. discriminate. Qed.
(** a call that, alone, would leave the empty cell empty, and its result *)
Definition quiet (a : act code) (r : res derr code) : Prop := let '(r', _, cell) := alone a None in r' = r /\ cell = None.
Lemma quiet_look k r : quiet (Look k) r -> quiet (k None) r. Proof. unfold quiet. cbn [alone]. auto. Qed.
Lemma quiet_put e k r : ~ quiet (Put e k) r.
Proof. unfold quiet. cbn [alone]. intros H. pose proof (alone_some k (Some e) ltac:(discriminate)) as N. destruct (alone k (Some e)) as [[x y] z]. cbn in N. tauto. Qed.

Lemma Forall2_app_cons {A B} (R : A -> B -> Prop) l1 x l2 m : Forall2 R (l1 ++ x :: l2) m ->
  exists m1 y m2, m = m1 ++ y :: m2 /\ Forall2 R l1 m1 /\ R x y /\ Forall2 R l2 m2.
Proof.
  intros H. apply Forall2_app_inv_l in H. destruct H as (m1 & m2 & H1 & H2 & ->). inversion H2; subst. exists m1, y, l'. auto.
Qed.
Lemma step_quiet s s' rs : step s s' -> fst s = None -> Forall2 quiet (snd s) rs -> fst s' = None /\ Forall2 quiet (snd s') rs.
Proof.
  intros [cell b k a|cell b e k a]; cbn [fst snd]; intros -> F; apply Forall2_app_cons in F; destruct F as (m1 & y & m2 & -> & F1 & Q & F2).
  - split; [reflexivity|]. apply Forall2_app; [auto|]. constructor; [now apply quiet_look|auto].
  - destruct (quiet_put _ _ _ Q).
Qed.
Lemma steps_quiet s s' rs : steps s s' -> fst s = None -> Forall2 quiet (snd s) rs -> fst s' = None /\ Forall2 quiet (snd s') rs.
Proof. induction 1 as [s|s1 s2 s3 S T IH]; intros N F; [auto|]. destruct (step_quiet _ _ _ S N F). auto. Qed.
(** The cell, once set, stays set: any thread may overwrite the error but none clears it. *)
Lemma steps_some s s' : steps s s' -> fst s <> None -> fst s' <> None.
Proof. induction 1 as [s|s1 s2 s3 S T IH]; intros N; [auto|]. apply IH. inversion S; subst; cbn in *; [auto|discriminate]. Qed.

(** Every schedule ends. *)
Inductive below : list (act code) -> list (act code) -> Prop :=
| below_look b k o a : below (b ++ k o :: a) (b ++ Look k :: a)
| below_put b e k a : below (b ++ k :: a) (b ++ Put e k :: a).
Lemma below_nil : Acc below [].
Proof. constructor. intros y H. inversion H; destruct b; discriminate. Qed.
Lemma below_cons (t : act code) : forall ts, Acc below ts -> Acc below (t :: ts).
Proof.
  induction t as [r l|k IH|e k IH]; intros ts H.
  - induction H as [ts _ IHts]. constructor. intros y L. inversion L; destruct b as [|x b]; cbn [app] in *; try discriminate;
      match goal with E : _ :: _ = _ :: _ |- _ => injection E as -> <- end; apply IHts; constructor.
  - induction H as [ts H IHts]. constructor. intros y L. inversion L; destruct b as [|x b]; cbn [app] in *; try discriminate;
      match goal with E : _ :: _ = _ :: _ |- _ => injection E as ? ?; subst end.
    + apply IH. now constructor.
    + apply IHts. constructor.
    + apply IHts. constructor.
  - induction H as [ts H IHts]. constructor. intros y L. inversion L; destruct b as [|x b]; cbn [app] in *; try discriminate;
      match goal with E : _ :: _ = _ :: _ |- _ => injection E as ? ?; subst end.
    + apply IHts. constructor.
    + apply IH. now constructor.
    + apply IHts. constructor.
Qed.
Lemma below_wf : forall ts, Acc below ts.
Proof. induction ts; [apply below_nil|now apply below_cons]. Qed.
Lemma step_below s s' : step s s' -> below (snd s') (snd s). Proof. intros [? ? ? ?|? ? ? ? ?]; cbn; constructor. Qed.
Lemma step_wf : well_founded (fun s' s => step s s').
Proof.
  intros [cell ts]. revert cell. induction (below_wf ts) as [ts _ IH]. intros cell. constructor. intros [cell' ts'] S. apply IH. exact (step_below _ _ S).
Qed.
Definition finished (a : act code) : Prop := exists r l, a = Done r l.
Lemma step_progress cell ts : Forall finished ts \/ exists s', step (cell, ts) s'.
Proof.
  induction ts as [|[r l|k|e k] ts [IH|[s' IH]]]; [left; constructor|left; constructor; [eexists; eauto|auto]|right|right|right|right|right].
  - inversion IH; subst; [eexists; apply (step_look _ (Done r l :: before))|eexists; apply (step_put _ (Done r l :: before))].
  - eexists. apply (step_look _ []).
  - eexists. apply (step_look _ []).
  - eexists. apply (step_put _ []).
  - eexists. apply (step_put _ []).
Qed.

(** * Running one thread to its end, or to its first store *)
Lemma steps_trans s1 s2 s3 : steps s1 s2 -> steps s2 s3 -> steps s1 s3.
Proof. induction 1; intros; [auto|]. econstructor; eauto. Qed.
Lemma run_thread a : forall cell b c, let '(r, l, cell') := alone a cell in steps (cell, b ++ a :: c) (cell', b ++ Done r l :: c).
Proof.
  induction a as [r l|k IH|e k IH]; intros cell b c; cbn [alone]; [constructor| |].
  - specialize (IH cell cell b c). destruct (alone (k cell) cell) as [[r l] cell']. econstructor; [apply step_look|exact IH].
  - specialize (IH (Some e) b c). destruct (alone k (Some e)) as [[r l] cell']. econstructor; [apply step_put|exact IH].
Qed.
(** the first error stored by a call started on an empty cell *)
Lemma first_store a : snd (alone a None) <> None -> exists e k, forall b c, steps (None, b ++ a :: c) (Some e, b ++ k :: c).
Proof.
  induction a as [r l|k IH|e k IH]; cbn [alone]; intros H; [now destruct H| |].
  - destruct (IH None H) as (e & k' & S). exists e, k'. intros b c. econstructor; [apply step_look|apply S].
  - exists e, k. intros b c. econstructor; [apply step_put|constructor].
Qed.

(** * The first access of a call that would be accepted alone *)
Definition welcome (a : act code) : Prop := exists c l, alone a None = (Ok c, l, None).
Lemma welcome_put e k : ~ welcome (Put e k).
Proof. intros (c & l & H). cbn [alone] in H. pose proof (alone_some k (Some e) ltac:(discriminate)) as N. rewrite H in N. now apply N. Qed.
Lemma u8_done l : exists r l', decode_u8 l = Done r l'.
Proof. unfold decode_u8, decode_unsigned, bind, read_bytes. destruct (_ <? _); cbn [finish]; eexists; eexists; reflexivity. Qed.
Lemma bind_done {A B} (m : M A) (k : A -> M B) l r l' : m l = Done r l' ->
  bind m k l = match r with Ok a => k a l' | Err e => Done (Err e) l' | Panic p => Done (Panic p) l' end.
Proof. intros E. unfold bind. rewrite E. reflexivity. Qed.
Lemma unwrap_done {A} (m : M A) l r l' : m l = Done r l' -> unwrap m l = Done (match r with Err _ => Panic PUnwrap | r => r end) l'.
Proof. intros E. unfold unwrap. rewrite E. cbn [finish]. destruct r; reflexivity. Qed.
Lemma index_done l : exists r l', read_index l = Done r l'.
Proof.
  unfold read_index. destruct (u8_done l) as (r & l1 & E). rewrite (bind_done _ _ _ _ _ E). destruct r as [b|e|p]; [|eauto|eauto].
  destruct (Z.land b 128 =? 0); [unfold ret; eauto|]. destruct (Z.land b 64 =? 0).
  - destruct (u8_done l1) as (r & l2 & E2). rewrite (bind_done _ _ _ _ _ (unwrap_done _ _ _ _ E2)). destruct r; unfold ret; eauto.
  - destruct (u8_done l1) as (r & l2 & E2). rewrite (bind_done _ _ _ _ _ E2). destruct r; [|eauto|eauto].
    destruct (u8_done l2) as (r & l3 & E3). rewrite (bind_done _ _ _ _ _ E3). destruct r; [|eauto|eauto].
    destruct (u8_done l3) as (r & l4 & E4). rewrite (bind_done _ _ _ _ _ E4). destruct r; unfold ret; eauto.
Qed.
Lemma uindex_cases l : (exists v l', UINDEX l = Done (Ok v) l') \/ (exists p l', UINDEX l = Done (Panic p) l') \/ exists e k, UINDEX l = Put e k.
Proof.
  destruct (index_done l) as (r & l1 & E). apply unwrap_done in E. fold INDEX in E.
  assert (E2 : unwrap_mapped INDEX l = Done (match r with Err _ => Panic PUnwrap | r => r end) l1).
  { unfold unwrap_mapped. rewrite E. destruct r; reflexivity. }
  unfold UINDEX. rewrite (bind_done _ _ _ _ _ E2).
  destruct r as [v|e|p]; [|right; left; eauto|right; left; eauto].
  destruct (v <? 0); [right; right; cbn; eauto|left; unfold ret; eauto].
Qed.
Section First.
Context (G : res derr code -> local -> act code) (HG : forall p l, ~ welcome (G (Panic p) l)).
Lemma welcome_flags (K : option Z -> M code) l : welcome (finish (bind (ok UINDEX) K l) G) ->
  exists o l', finish (bind (ok UINDEX) K l) G = finish (K o l') G.
Proof.
  unfold bind, ok. destruct (uindex_cases l) as [(v & l1 & E)|[(p & l1 & E)|(e & k & E)]]; rewrite E; cbn [finish].
  - intros _. exists (Some v), l1. reflexivity.
  - intros H. destruct (HG _ _ H).
  - intros H. now apply welcome_put in H.
Qed.
Lemma welcome_count set c (K : code -> M code) l : welcome (finish (bind (read_count set c) K l) G) ->
  exists v l', finish (bind (read_count set c) K l) G = finish (K (set v c) l') G.
Proof.
  unfold read_count. unfold bind, ok. destruct (uindex_cases l) as [(v & l1 & E)|[(p & l1 & E)|(e & k & E)]]; rewrite E; cbn [finish].
  - intros _. exists v, l1. reflexivity.
  - intros H. destruct (HG _ _ H).
  - intros H. now apply welcome_put in H.
Qed.
Lemma welcome_counts c l : welcome (finish (read_counts c l) G) ->
  exists k, finish (read_counts c l) G = Look k /\ forall e, exists l', k (Some e) = G (Err e) l'.
Proof.
  unfold read_counts. intros W.
  destruct (welcome_flags _ _ W) as (o & l1 & E). rewrite E in W |- *. clear E. cbv zeta in W |- *.
  Ltac wc W := match type of W with welcome (finish (bind (read_count ?f ?c) ?K ?l) _) =>
    let v := fresh in let l' := fresh in let E := fresh in destruct (welcome_count f c K l W) as (v & l' & E); rewrite E in W |- *; clear E; cbv zeta beta in W |- * end.
  Ltac wi W := match type of W with welcome (finish (bind (if ?b then _ else _) _ _) _) => destruct b; [wc W|match type of W with welcome (finish (bind (ret ?c) ?K ?l) ?G) =>
      change (finish (bind (ret c) K l) G) with (finish (K c l) G) in W |- *; cbv beta zeta in W |- * end] end.
  repeat first [wc W|wi W].
  all: eexists; (split; [reflexivity|]); intros e; eexists; reflexivity.
Qed.
End First.
Lemma magic_cases c l : (exists r l', read_magic c l = Done r l') \/ exists k e k', read_magic c l = Look k /\ k None = Put e k'.
Proof.
  assert (V : (exists r l', unwrap_mapped decode_u8 l = Done r l') \/ exists k e k', unwrap_mapped decode_u8 l = Look k /\ k None = Put e k').
  { clear. destruct (u8_done l) as (r & l' & E). unfold unwrap_mapped. rewrite E. destruct r; cbn [finish]; eauto. right. do 3 eexists. split; reflexivity. }
  clear V. unfold read_magic. destruct (u8_done l) as (r & l1 & E). apply unwrap_done in E. rewrite (bind_done _ _ _ _ _ E).
  destruct r as [h|e|p]; [|eauto|eauto].
  assert (B : exists r l', (if negb (h =? 72) then ret true else l <- unwrap decode_u8 ;; if negb (l =? 76) then ret true else b <- unwrap decode_u8 ;; ret (negb (b =? 66))) l1 = Done r l').
  { destruct (negb (h =? 72)); [unfold ret; eauto|]. destruct (u8_done l1) as (r & l2 & E2). rewrite (bind_done _ _ _ _ _ (unwrap_done _ _ _ _ E2)).
    destruct r as [b|e|p]; [|eauto|eauto]. destruct (negb (b =? 76)); [unfold ret; eauto|].
    destruct (u8_done l2) as (r & l3 & E3). rewrite (bind_done _ _ _ _ _ (unwrap_done _ _ _ _ E3)). destruct r; unfold ret; eauto. }
  destruct B as (r & l2 & B). rewrite (bind_done _ _ _ _ _ B). destruct r as [bad|e|p]; [|eauto|eauto].
  destruct bad; [left; cbn; unfold throw; eauto|]. cbv iota beta. destruct (u8_done l2) as (r & l3 & E3).
  destruct r as [v|e|p].
  - assert (E4 : unwrap_mapped decode_u8 l2 = Done (Ok v) l3) by (unfold unwrap_mapped; rewrite E3; reflexivity).
    rewrite (bind_done _ _ _ _ _ E4). left. destruct ((v <=? 1) || (5 <? v)); cbn; unfold ret, throw; eauto.
  - right. unfold bind at 1, unwrap_mapped. rewrite E3. cbn [finish map_err]. do 3 eexists. split; reflexivity.
  - assert (E4 : unwrap_mapped decode_u8 l2 = Done (Panic p) l3) by (unfold unwrap_mapped; rewrite E3; reflexivity).
    rewrite (bind_done _ _ _ _ _ E4). eauto.
Qed.
(** A call that would be accepted alone first reads the cell, and fails if it finds an error there. *)
Lemma reader_first file : welcome (reader file) -> exists k, reader file = Look k /\ forall e, exists l, k (Some e) = Done (Err e) l.
Proof.
  unfold reader, code_read. cbv zeta. intros W. unfold bind at 1 in W. unfold bind at 1.
  destruct (magic_cases code_new {| d_buf := file; d_pos := 0; d_code := code_new |}) as [(r & l & E)|(k & e & k' & E & E')]; rewrite E in W |- *.
  - cbn [finish] in W |- *. destruct r as [c|e|p]; [|destruct W as (? & ? & H); discriminate|destruct W as (? & ? & H); discriminate].
    unfold bind at 1 in W. unfold bind at 1.
    match type of W with welcome (finish _ ?G) => set (G0 := G) in W |- * end.
    destruct (welcome_counts G0 ltac:(intros p l' (x & y & H); cbn in H; discriminate) _ _ W) as (k & Ek & Hk).
    exists k. split; [exact Ek|]. intros e. destruct (Hk e) as (l' & H). exists l'. exact H.
  - exfalso. cbn [finish] in W. destruct W as (x & y & W). cbn [alone] in W. rewrite E' in W. cbn [finish] in W. eapply (welcome_put e). exists x, y. exact W.
Qed.
