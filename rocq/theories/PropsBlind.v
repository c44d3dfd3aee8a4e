(** Theorems C90: which functions have the same hash.  Model: HashModel.v.  Vocabulary: BlindSpec.v, FunHashSpec.v. *)
From Verif Require Import Prelude StdModel BrassTypes DecoderModel CodeModel FormatSpec ReaderSpec AcceptSpec HashModel HashSpec FunHashSpec BlindSpec.
From Verif Require Import CodeGenericProofs FormatProofs StringsProofs TypesProofs OpsProofs ReaderSizes ReaderTables AcceptProofs CrcProofs HashProofs HashAlloc HashPanics PropsModule PropsHash PropsFunHash.
From Coq Require Import Lia ZifyBool.

(** * Fixed-width words *)
Lemma enc_le_mod n v w : enc_le n v = enc_le n w -> v mod 256 ^ Z.of_nat n = w mod 256 ^ Z.of_nat n.
Proof.
  intros E. unfold enc_le in E. apply (f_equal from_le) in E.
  assert (P : 0 < 256 ^ Z.of_nat n) by (apply Z.pow_pos_nonneg; lia).
  rewrite !from_le_bytes in E by (apply Z.mod_pos_bound; auto). exact E.
Qed.
Lemma app_split {A} (a b t u : list A) : length a = length b -> a ++ t = b ++ u -> a = b /\ t = u.
Proof.
  revert b. induction a as [|x a IH]; intros [|y b] L E; try discriminate; [auto|].
  cbn [app length] in *. injection L as L. injection E as -> E. destruct (IH b L E) as [-> ->]. auto.
Qed.
Lemma enc_le_app n v w t u : enc_le n v ++ t = enc_le n w ++ u -> v mod 256 ^ Z.of_nat n = w mod 256 ^ Z.of_nat n /\ t = u.
Proof.
  intros E. apply app_split in E; [|unfold enc_le; now rewrite !le_bytes_length]. destruct E as [E ->].
  split; [now apply enc_le_mod|reflexivity].
Qed.
Lemma i32_mod n a b : (n = 4 \/ n = 8)%nat -> i32_range a -> i32_range b -> a mod 256 ^ Z.of_nat n = b mod 256 ^ Z.of_nat n -> a = b.
Proof.
  intros N A B. unfold i32_range in *. destruct N as [-> | ->]; [change (256 ^ Z.of_nat 4) with 4294967296|change (256 ^ Z.of_nat 8) with 18446744073709551616];
    intros E; Z.div_mod_to_equations; lia.
Qed.
Lemma float_to_i32_range b : i32_range (float_to_i32 b).
Proof. unfold float_to_i32, i32_range. cbv zeta. destruct (_ && _)%bool; lia. Qed.

(** * What an accepted module provides *)
Lemma utf8_entry ss n : Forall utf8 ss -> name_ok ss n -> bytes n.
Proof. intros F [->|I]; [constructor|]. rewrite Forall_forall in F. now apply Utf8Proofs.utf8_bytes, F. Qed.
Lemma type_named ss T t : Forall utf8 ss -> type_ok ss T t -> named t.
Proof.
  intros F. destruct t as [u [n|] [p|] k]; destruct u; cbn [type_ok named vt_union vt_abs_name]; unfold named; cbn [vt_union vt_abs_name]; try tauto.
  all: repeat match goal with |- match ?r with Some _ => _ | None => _ end -> _ => destruct r end; try tauto.
  - intros (_ & N). split; [auto|]. eapply utf8_entry; eauto.
  - intros (_ & N & _). split; [|auto]. eapply utf8_entry; eauto.
  - intros (_ & N & _ & C & _). split; [|auto]. split; [eapply utf8_entry; eauto|]. revert C. apply Forall_impl. intros a (N' & _). eapply utf8_entry; eauto.
Qed.
Lemma outer_range t : named t -> 0 <= outer_hash t < 2 ^ 32.
Proof. intros N. apply crc32_range, shape_bytes; auto. intros. apply enc_le_bytes. Qed.
Lemma signature_range t : named t -> 0 <= signature t < 2 ^ 32.
Proof.
  intros N. unfold signature. apply lxor_32; [now apply outer_range|]. apply crc32_range, bytes_flat_map. intros. apply enc_le_bytes.
Qed.

Section Modules.
Context (c : code) (CO : contents_ok c) (c' : code) (CO' : contents_ok c') (H H' : list Z).
Lemma pool_named (d : code) t : contents_ok d -> In t (declared d) \/ t = vt_default -> named t.
Proof.
  intros CO0 [I| ->]; [|split; cbn; auto]. destruct (declared_types d CO0 t I) as (_ & _ & _ & O).
  unfold contents_ok in CO0. eapply type_named; [|exact O]. tauto.
Qed.
Lemma entry_named (d : code) p : contents_ok d -> named (entry vt_default (c_types d) p).
Proof.
  intros CO0. apply (pool_named d); auto. destruct (types_table d CO0) as [ET _]. unfold entry. rewrite ET.
  destruct (nth_in_or_default (Z.to_nat p) (declared d ++ zrepeat vt_default (c_ntypes d)) vt_default) as [I|E]; [|auto].
  apply in_app_or in I as [I|I]; [auto|]. right. unfold zrepeat in I. now apply repeat_spec in I.
Qed.
Lemma entry_int (d : code) p : contents_ok d -> i32_range (entry 0 (c_ints d) p).
Proof.
  intros CO0. assert (F : Forall i32_range (c_ints d)) by (unfold contents_ok in CO0; tauto). rewrite Forall_forall in F. unfold entry.
  destruct (nth_in_or_default (Z.to_nat p) (c_ints d) 0) as [I| ->]; [auto|unfold i32_range; lia].
Qed.

(** * The byte stream can be decoded, but for strings *)
Definition wordy (x : role * Z) : Prop := fst x <> StringIndex /\ i32_range (snd x).
Lemma operand_inj x y t u : fst x = fst y -> wordy x -> wordy y ->
  operand_bytes c H x ++ t = operand_bytes c' H' y ++ u -> alike_operand c H c' H' x y /\ t = u.
Proof.
  destruct x as [r p], y as [r' q]. cbn [fst snd]. intros <- [Ns Rp] [_ Rq]. cbn [fst snd] in *. unfold operand_bytes, alike_operand. cbn [fst snd].
  destruct r; try congruence; intros E.
  - apply enc_le_app in E as [E ->]. repeat split. exact (i32_mod 4 p q (or_introl eq_refl) Rp Rq E).
  - apply enc_le_app in E as [E ->]. repeat split. exact (i32_mod 8 p q (or_intror eq_refl) Rp Rq E).
  - apply enc_le_app in E as [E ->]. repeat split. exact (i32_mod 4 _ _ (or_introl eq_refl) (entry_int c p CO) (entry_int c' q CO') E).
  - apply enc_le_app in E as [E ->]. repeat split. change (256 ^ Z.of_nat 4) with (2 ^ 32) in E.
    rewrite !Z.mod_small in E; auto; apply signature_range, entry_named; auto.
  - rewrite <- !app_assoc in E. apply enc_le_app in E as [E1 E]. apply enc_le_app in E as [E2 ->]. repeat split;
      [exact (i32_mod 4 _ _ (or_introl eq_refl) (float_to_i32_range _) (float_to_i32_range _) E1)|exact (i32_mod 4 _ _ (or_introl eq_refl) (float_to_i32_range _) (float_to_i32_range _) E2)].
  - apply enc_le_app in E as [E ->]. repeat split. exact E.
Qed.
Lemma operands_inj : forall xs ys t u, map fst xs = map fst ys -> Forall wordy xs -> Forall wordy ys ->
  flat_map (operand_bytes c H) xs ++ t = flat_map (operand_bytes c' H') ys ++ u -> Forall2 (alike_operand c H c' H') xs ys /\ t = u.
Proof.
  induction xs as [|x xs IH]; intros [|y ys] t u Em Wx Wy E; try discriminate; [split; [constructor|exact E]|].
  cbn [map] in Em. apply Forall_cons_iff in Wx as [Wx Wxs]. apply Forall_cons_iff in Wy as [Wy Wys].
  cbn [flat_map] in E. rewrite <- !app_assoc in E. assert (E1 : fst x = fst y) by congruence. assert (E2 : map fst xs = map fst ys) by congruence.
  apply operand_inj in E as [A E]; auto. apply IH in E as [As ->]; auto.
Qed.

Definition wordy_op (o : opcode) : Prop := ~ In (o_op o) [OString; ODynGet; ODynSet].
Lemma operand_wordy r p : r <> StringIndex -> (forall x, p = Some x -> i32_range x) -> Forall wordy (operand r p).
Proof. intros N R. destruct p; cbn [operand]; [|constructor]. constructor; [|constructor]. split; cbn [fst snd]; auto. Qed.
Lemma second_wordy o : wordy_op o -> second_role (o_op o) <> StringIndex.
Proof.
  unfold wordy_op, second_role. intros N. assert (E : one_of (o_op o) [OString; ODynSet] = false).
  { unfold one_of. cbn [existsb In] in *. lia. }
  rewrite E. repeat match goal with |- (if ?b then _ else _) <> _ => destruct b end; discriminate.
Qed.
Lemma third_wordy o : wordy_op o -> third_role (o_op o) <> StringIndex.
Proof.
  unfold wordy_op, third_role. intros N. destruct (Z.eqb_spec (o_op o) ODynGet) as [E|]; [|discriminate]. exfalso. apply N. cbn [In]. auto.
Qed.
Ltac wall := repeat first [apply Forall_nil | apply Forall_cons; [tauto|]].
Lemma firstn_incl {A} (l : list A) n x : In x (firstn n l) -> In x l.
Proof. intros I. rewrite <- (firstn_skipn n l). apply in_or_app. auto. Qed.
Lemma operands_wordy o : opcode_ok o -> wordy_op o -> Forall wordy (operands o).
Proof.
  intros (R & X & _) N. unfold operands. cbv zeta.
  assert (W1 : Forall wordy (operand Plain (o_p1 o))) by (apply operand_wordy; [discriminate|intros x E; apply R; rewrite E; cbn; auto]).
  assert (W2 : Forall wordy (operand (second_role (o_op o)) (o_p2 o))) by (apply operand_wordy; [now apply second_wordy|intros x E; apply R; rewrite E; cbn; auto]).
  assert (W3 : Forall wordy (operand (third_role (o_op o)) (o_p3 o))) by (apply operand_wordy; [now apply third_wordy|intros x E; apply R; rewrite E; cbn; auto]).
  assert (W4 : Forall wordy (map (pair Wide) (firstn (Z.to_nat (extra_count o)) (o_extra o)))).
  { apply Forall_forall. intros y Hy. apply in_map_iff in Hy as (x & <- & Hx). split; [discriminate|]. cbn [snd]. rewrite Forall_forall in X. apply X. eapply firstn_incl; eauto. }
  repeat (apply Forall_app; split; auto). destruct (o_op o =? OSwitch); apply Forall_app; auto.
Qed.
Lemma map_fst_wide l : map fst (map (pair Wide) l : list (role * Z)) = repeat Wide (length l).
Proof. induction l; cbn; congruence. Qed.
Lemma operand_role r p q : (p <> None <-> q <> None) -> map fst (operand r p) = map fst (operand r q).
Proof. destruct p, q; cbn; try reflexivity; intros [A B]; exfalso; [now apply A|now apply B]. Qed.
Lemma forall2_app_len {A B} (R : A -> B -> Prop) a b a' b' : length a = length a' -> Forall2 R (a ++ b) (a' ++ b') -> Forall2 R a a' /\ Forall2 R b b'.
Proof.
  revert a'. induction a as [|x a IH]; intros [|y a'] L F; try discriminate; [split; [constructor|exact F]|].
  inversion F; subst. apply IH in H5 as [F1 F2]; [|now injection L]. auto.
Qed.

Lemma op_inj o o' t u : opcode_ok o -> opcode_ok o' -> wordy_op o -> wordy_op o' ->
  op_bytes c H o ++ t = op_bytes c' H' o' ++ u -> alike_instruction c H c' H' o o' /\ t = u.
Proof.
  intros K K' N N' E. unfold op_bytes in E. cbn [app] in E. assert (Eo : o_op o = o_op o') by congruence.
  assert (Es : flat_map (operand_bytes c H) (operands o) ++ t = flat_map (operand_bytes c' H') (operands o') ++ u) by congruence. clear E.
  pose proof (operands_wordy o K N) as W. pose proof (operands_wordy o' K' N') as W'.
  assert (M : map fst (operands o) = map fst (operands o')).
  { destruct K as (_ & _ & S), K' as (_ & _ & S'). rewrite <- Eo in S'.
    destruct (arity (o_op o)) as [[n|]|] eqn:Ar; [| |destruct S].
    - destruct S as (P1 & P2 & P3 & L), S' as (P1' & P2' & P3' & L').
      unfold operands. cbv zeta. rewrite <- Eo.
      assert (Q1 : map fst (operand Plain (o_p1 o)) = map fst (operand Plain (o_p1 o'))) by (apply operand_role; tauto).
      assert (Q2 : map fst (operand (second_role (o_op o)) (o_p2 o)) = map fst (operand (second_role (o_op o)) (o_p2 o'))) by (apply operand_role; tauto).
      assert (Q3 : map fst (operand (third_role (o_op o)) (o_p3 o)) = map fst (operand (third_role (o_op o)) (o_p3 o'))) by (apply operand_role; tauto).
      assert (Q4 : map fst (map (pair Wide) (firstn (Z.to_nat (extra_count o)) (o_extra o))) = map fst (map (pair Wide) (firstn (Z.to_nat (extra_count o')) (o_extra o')))).
      { rewrite !map_fst_wide, !firstn_length. unfold extra_count. rewrite <- Eo, Ar. do 2 f_equal. unfold zlen in *. lia. }
      destruct (o_op o =? OSwitch); rewrite !map_app, Q1, Q2, Q3, Q4; reflexivity.
    - destruct S as (a & b & d & E1 & E2 & E3 & L), S' as (a' & b' & d' & E1' & E2' & E3' & L').
      assert (R2 : second_role (o_op o) = Plain \/ second_role (o_op o) = Callee).
      { destruct (arity_none _ Ar) as (_ & [-> |V]); [left; reflexivity|]. cbn in V. decompose [or] V; try contradiction; match goal with Q : _ = o_op o |- _ => rewrite <- Q end; cbn; auto. }
      assert (R3 : third_role (o_op o) = Plain).
      { destruct (arity_none _ Ar) as (_ & [-> |V]); [reflexivity|]. cbn in V. decompose [or] V; try contradiction; match goal with Q : _ = o_op o |- _ => rewrite <- Q end; reflexivity. }
      destruct (Z.eqb_spec (o_op o) OSwitch) as [Sw|Sw].
      + assert (R2' : second_role (o_op o) = Plain) by (rewrite Sw; reflexivity).
        assert (Eb : b = b').
        { unfold operands in W, W', Es. cbv zeta in W, W', Es. rewrite <- Eo in W', Es. rewrite ?R2', E1, E2 in W, Es. rewrite ?R2' in W'. rewrite E1', E2' in W', Es. cbn [operand app] in W, W', Es.
          rewrite Forall_cons_iff, Forall_cons_iff in W, W'.
          change (?x :: ?y :: ?z) with ([x; y] ++ z) in Es. rewrite !flat_map_app, <- !app_assoc in Es.
          apply operands_inj in Es as [F _]; [|reflexivity|wall|wall].
          inversion F as [|? ? ? ? _ F2]; subst. inversion F2 as [|? ? ? ? [_ G] _]; subst. exact G. }
        assert (X : extra_count o = b /\ extra_count o' = b).
        { unfold extra_count. rewrite <- Eo, Ar. rewrite (proj2 (Z.eqb_eq _ _) Sw), E2, E2', Eb. auto. }
        destruct X as [X X']. unfold operands. cbv zeta. rewrite <- Eo, X, X', E1, E2, E3, E1', E2', E3'. rewrite (proj2 (Z.eqb_eq _ _) Sw), !map_app, !map_fst_wide, !firstn_length. cbn [operand map fst].
        change 70 with OSwitch in L, L'. rewrite (proj2 (Z.eqb_eq _ _) Sw) in L, L'. do 2 f_equal. f_equal. f_equal. unfold zlen in *. lia.
      + assert (Ed : d = d').
        { unfold operands in W, W', Es. cbv zeta in W, W', Es. rewrite <- Eo in W', Es. rewrite (proj2 (Z.eqb_neq _ _) Sw), R3, E1, E2, E3 in W, Es.
          rewrite (proj2 (Z.eqb_neq _ _) Sw), R3 in W'. rewrite E1', E2', E3' in W', Es. cbn [operand app] in W, W', Es. rewrite !Forall_cons_iff in W, W'.
          change (?x :: ?y :: ?z :: ?l) with ([x; y; z] ++ l) in Es. rewrite !flat_map_app, <- !app_assoc in Es.
          apply operands_inj in Es as [F _]; [|reflexivity|wall|wall].
          inversion F as [|? ? ? ? _ F2]; subst. inversion F2 as [|? ? ? ? _ F3]; subst. inversion F3 as [|? ? ? ? [_ G] _]; subst. exact G. }
        assert (X : extra_count o = d /\ extra_count o' = d).
        { unfold extra_count. rewrite <- Eo, Ar. rewrite (proj2 (Z.eqb_neq _ _) Sw), E3, E3', Ed. auto. }
        destruct X as [X X']. unfold operands. cbv zeta. rewrite <- Eo, X, X', E1, E2, E3, E1', E2', E3'. rewrite (proj2 (Z.eqb_neq _ _) Sw), !map_app, !map_fst_wide, !firstn_length. cbn [operand map fst].
        change 70 with OSwitch in L, L'. rewrite (proj2 (Z.eqb_neq _ _) Sw) in L, L'. do 3 f_equal. f_equal. unfold zlen in *. lia. }
  destruct (operands_inj _ _ _ _ M W W' Es) as [F ->]. split; [|reflexivity]. split; auto.
Qed.
Lemma ops_inj : forall os os', Forall opcode_ok os -> Forall opcode_ok os' -> Forall wordy_op os -> Forall wordy_op os' ->
  flat_map (op_bytes c H) os = flat_map (op_bytes c' H') os' -> Forall2 (alike_instruction c H c' H') os os'.
Proof.
  induction os as [|o os IH]; intros [|o' os'] K K' N N' E; [constructor|discriminate|discriminate|].
  apply Forall_cons_iff in K as [K Ks], K' as [K' Ks'], N as [N Ns], N' as [N' Ns']. cbn [flat_map] in E.
  apply op_inj in E as [A E]; auto.
Qed.
Lemma regs_inj : forall rs rs' t u, length rs = length rs' -> Forall named rs -> Forall named rs' ->
  flat_map (fun t => enc_le 4 (signature t)) rs ++ t = flat_map (fun t => enc_le 4 (signature t)) rs' ++ u ->
  map signature rs = map signature rs' /\ t = u.
Proof.
  induction rs as [|r rs IH]; intros [|r' rs'] t u L N N' E; try discriminate; [auto|].
  apply Forall_cons_iff in N as [N Ns], N' as [N' Ns']. cbn [flat_map map] in *. rewrite <- !app_assoc in E.
  apply enc_le_app in E as [E1 E]. change (256 ^ Z.of_nat 4) with (2 ^ 32) in E1. rewrite !Z.mod_small in E1 by now apply signature_range.
  apply IH in E as [E ->]; auto. split; congruence.
Qed.
Lemma alike_bytes f f' : alike c H c' H' f f' -> fun_bytes c H f = fun_bytes c' H' f'.
Proof.
  intros [R O]. unfold fun_bytes. f_equal.
  - revert R. generalize (hf_regs f'). induction (hf_regs f) as [|r rs IH]; intros [|r' rs'] R; try discriminate; [reflexivity|].
    cbn [map flat_map] in *. injection R as E1 E2. rewrite E1. f_equal. auto.
  - induction O as [|o o' os os' [Eo F] _ IH]; [reflexivity|]. cbn [flat_map]. rewrite IH. f_equal. unfold op_bytes. rewrite Eo. f_equal.
    clear IH. induction F as [|x y xs ys [Er M] _ IH]; [reflexivity|]. cbn [flat_map]. rewrite IH. f_equal.
    destruct x as [r p], y as [r' q]. cbn [fst snd] in *. subst r'. unfold operand_bytes. cbn [fst snd].
    destruct r; try (rewrite M; reflexivity).
    + destruct M as [M1 M2]. now rewrite M1, M2.
    + unfold enc_le. change (256 ^ Z.of_nat 4) with (2 ^ 32). now rewrite M.
Qed.
End Modules.

Lemma fun_ok c f : contents_ok c -> In f (c_functions c) -> Forall named (hf_regs f) /\ Forall opcode_ok (hf_ops f).
Proof.
  intros CO I. assert (F : Forall (function_ok (declared c) (negb (c_hasdebug c =? 0)) (c_ndebugfiles c)) (c_functions c)) by (unfold contents_ok in CO; tauto).
  rewrite Forall_forall in F. destruct (F f I) as (_ & _ & _ & R & _ & O & _). split; [|exact O].
  revert R. apply Forall_impl. intros t It. apply (pool_named c); auto.
Qed.

(** * C90 *)
(** Two functions of accepted modules with the same number of registers and no string operand are fed to the CRC as the
    same bytes exactly if they are alike ... *)
Theorem C90_stream e0 e0' buf buf' c c' H H' f f' : bytes buf -> bytes buf' -> accepted e0 buf c -> accepted e0' buf' c' ->
  In f (c_functions c) -> In f' (c_functions c') -> length (hf_regs f) = length (hf_regs f') -> stringless f -> stringless f' ->
  fun_bytes c H f = fun_bytes c' H' f' <-> alike c H c' H' f f'.
Proof.
  intros B B' A A' I I' L S S'. destruct (accepted_alloc e0 buf c B A) as [CO _], (accepted_alloc e0' buf' c' B' A') as [CO' _].
  destruct (fun_ok c f CO I) as [N O], (fun_ok c' f' CO' I') as [N' O']. split; [|now apply alike_bytes]. intros E. unfold fun_bytes in E.
  apply regs_inj in E as [R E]; auto. split; [exact R|]. apply ops_inj in E; auto.
Qed.
(** ... so that, if they hash to the same value, they are alike, or two different byte strings have the same CRC-32. *)
Theorem C90_exact e0 e0' buf buf' c c' ch ch' H H' f f' h : bytes buf -> bytes buf' -> accepted e0 buf c -> accepted e0' buf' c' ->
  alloc c = Ok ch -> alloc c' = Ok ch' -> zlen H < 2 ^ 63 -> zlen H' < 2 ^ 63 -> In f (c_functions c) -> In f' (c_functions c') ->
  length (hf_regs f) = length (hf_regs f') -> stringless f -> stringless f' ->
  hash_fun (set_functions_hashes H ch) f = Ok h -> hash_fun (set_functions_hashes H' ch') f' = Ok h ->
  alike c H c' H' f f' \/ (fun_bytes c H f <> fun_bytes c' H' f' /\ crc32 (fun_bytes c H f) = crc32 (fun_bytes c' H' f')).
Proof.
  intros B B' A A' E E' L L' I I' Ln S S' Eh Eh'.
  apply (C58_exact e0 buf c ch H f h B A E L I) in Eh as [_ ->]. apply (C58_exact e0' buf' c' ch' H' f' _ B' A' E' L' I') in Eh' as [_ Ec].
  destruct (list_eq_dec Z.eq_dec (fun_bytes c H f) (fun_bytes c' H' f')) as [Q|Q]; [left|auto].
  apply (C90_stream e0 e0' buf buf' c c' H H' f f' B B' A A' I I' Ln S S'). exact Q.
Qed.
(** Alike functions have the same hash, with or without strings: types, findexes, debug information do not matter, ... *)
Theorem C90_alike e0 e0' buf buf' c c' ch ch' H H' f f' : bytes buf -> bytes buf' -> accepted e0 buf c -> accepted e0' buf' c' ->
  alloc c = Ok ch -> alloc c' = Ok ch' -> zlen H < 2 ^ 63 -> zlen H' < 2 ^ 63 -> In f (c_functions c) -> In f' (c_functions c') ->
  fun_hashable c H f -> fun_hashable c' H' f' -> alike c H c' H' f f' ->
  hash_fun (set_functions_hashes H ch) f = hash_fun (set_functions_hashes H' ch') f'.
Proof.
  intros B B' A A' E E' L L' I I' F F' X.
  rewrite (proj2 (C58_exact e0 buf c ch H f _ B A E L I) (conj F eq_refl)), (proj2 (C58_exact e0' buf' c' ch' H' f' _ B' A' E' L' I') (conj F' eq_refl)).
  do 2 f_equal. now apply alike_bytes.
Qed.
Lemma same_len {A B} (R : A -> B -> Prop) l k : Forall2 R l k -> length l = length k.
Proof. intros F. induction F; cbn; congruence. Qed.
Lemma no_extra {A} (l : list A) : zlen l = 0 -> l = [].
Proof. destruct l as [|x l]; [auto|]. intros E. rewrite zlen_cons in E. pose proof (zlen_nonneg l). lia. Qed.
Lemma same_stream e0 e0' buf buf' c c' ch ch' H H' f f' : bytes buf -> bytes buf' -> accepted e0 buf c -> accepted e0' buf' c' ->
  alloc c = Ok ch -> alloc c' = Ok ch' -> zlen H < 2 ^ 63 -> zlen H' < 2 ^ 63 -> In f (c_functions c) -> In f' (c_functions c') ->
  fun_hashable c H f -> fun_hashable c' H' f' -> fun_bytes c H f = fun_bytes c' H' f' ->
  hash_fun (set_functions_hashes H ch) f = hash_fun (set_functions_hashes H' ch') f'.
Proof.
  intros B B' A A' E E' L L' I I' F F' X.
  rewrite (proj2 (C58_exact e0 buf c ch H f _ B A E L I) (conj F eq_refl)), (proj2 (C58_exact e0' buf' c' ch' H' f' _ B' A' E' L' I') (conj F' eq_refl)).
  do 2 f_equal. exact X.
Qed.
Lemma alike_ops_bytes c H c' H' os os' : Forall2 (alike_instruction c H c' H') os os' -> flat_map (op_bytes c H) os = flat_map (op_bytes c' H') os'.
Proof.
  intros O. pose (f := mkFun vt_default 0 0 0 0 [] os [] None None). pose (f' := mkFun vt_default 0 0 0 0 [] os' [] None None).
  exact (alike_bytes c c' H H' f f' (conj eq_refl O)).
Qed.
(** ... nor do the types of registers, as far as they are primitive. *)
Theorem C90_primitive_refuted e0 e0' buf buf' c c' ch ch' H H' f f' : bytes buf -> bytes buf' -> accepted e0 buf c -> accepted e0' buf' c' ->
  alloc c = Ok ch -> alloc c' = Ok ch' -> zlen H < 2 ^ 63 -> zlen H' < 2 ^ 63 -> In f (c_functions c) -> In f' (c_functions c') ->
  fun_hashable c H f -> fun_hashable c' H' f' ->
  Forall2 (fun t u => t = u \/ (In (vt_kind t) prim_kinds /\ In (vt_kind u) prim_kinds)) (hf_regs f) (hf_regs f') ->
  Forall2 (same_instruction c H c' H') (hf_ops f) (hf_ops f') ->
  hash_fun (set_functions_hashes H ch) f = hash_fun (set_functions_hashes H' ch') f'.
Proof.
  intros B B' A A' E E' L L' I I' F F' R O. apply (same_stream e0 e0' buf buf' c c' ch ch' H H' f f'); auto. unfold fun_bytes. rewrite (same_instructions _ _ _ _ _ _ O). f_equal.
  induction R as [|t u ts us X _ IH]; [reflexivity|]. cbn [flat_map]. rewrite IH. do 2 f_equal.
  destruct X as [-> |[X Y]]; [reflexivity|]. destruct t as [tu ta tp tk], u as [uu ua up uk]. cbn [vt_kind] in *.
  destruct (C48_signature_refuted tu ta tp) as [S _], (C48_signature_refuted uu ua up) as [S' _]. now rewrite S, S'.
Qed.
(** The bytes of a string are not delimited: loading "...b" hashes like loading "..." followed by a [Nop] (opcode 98). *)
Theorem C90_string_refuted e0 e0' buf buf' c c' ch ch' H H' f f' pre pre' post post' o o' nop r p q : bytes buf -> bytes buf' -> accepted e0 buf c -> accepted e0' buf' c' ->
  alloc c = Ok ch -> alloc c' = Ok ch' -> zlen H < 2 ^ 63 -> zlen H' < 2 ^ 63 -> In f (c_functions c) -> In f' (c_functions c') ->
  hf_regs f = hf_regs f' -> hf_ops f = pre ++ o :: post -> hf_ops f' = pre' ++ o' :: nop :: post' ->
  Forall2 (same_instruction c H c' H') pre pre' -> Forall2 (same_instruction c H c' H') post post' ->
  o_op o = OString -> o_op o' = OString -> o_p1 o = Some r -> o_p1 o' = Some r -> o_p2 o = Some p -> o_p2 o' = Some q -> o_op nop = ONop ->
  entry [] (c_strings c) p = entry [] (c_strings c') q ++ [98] ->
  fun_hashable c H f -> fun_hashable c' H' f' ->
  hash_fun (set_functions_hashes H ch) f = hash_fun (set_functions_hashes H' ch') f' /\ ~ alike c H c' H' f f'.
Proof.
  intros B B' A A' E E' L L' I I' R O O' Pre Post Eo Eo' E1 E1' E2 E2' En Es F F'. split.
  - apply (same_stream e0 e0' buf buf' c c' ch ch' H H' f f'); auto. unfold fun_bytes. rewrite R, O, O'. f_equal. rewrite !flat_map_app. cbn [flat_map].
    rewrite (same_instructions _ _ _ _ _ _ Pre), (same_instructions _ _ _ _ _ _ Post).
    destruct (accepted_alloc e0 buf c B A) as [CO _], (accepted_alloc e0' buf' c' B' A') as [CO' _].
    destruct (fun_ok c f CO I) as [_ K], (fun_ok c' f' CO' I') as [_ K']. rewrite O in K. rewrite O' in K'.
    apply Forall_app in K as [_ K]. apply Forall_app in K' as [_ K']. apply Forall_cons_iff in K as [K _]. apply Forall_cons_iff in K' as [K1 K']. apply Forall_cons_iff in K' as [K2 _].
    assert (X : op_bytes c H o = OString :: enc_le 4 r ++ entry [] (c_strings c) p).
    { destruct K as (_ & _ & S). rewrite Eo in S. cbn in S. destruct S as (_ & _ & P3 & Lx). assert (o_p3 o = None) as N3 by (apply absent; intros Q; apply P3 in Q; lia).
      assert (o_extra o = []) as Nx by (apply no_extra; exact Lx).
      unfold op_bytes, operands. rewrite Eo, E1, E2, N3, Nx, firstn_nil. cbn. now rewrite !app_nil_r. }
    assert (X' : op_bytes c' H' o' = OString :: enc_le 4 r ++ entry [] (c_strings c') q).
    { destruct K1 as (_ & _ & S). rewrite Eo' in S. cbn in S. destruct S as (_ & _ & P3 & Lx). assert (o_p3 o' = None) as N3 by (apply absent; intros Q; apply P3 in Q; lia).
      assert (o_extra o' = []) as Nx by (apply no_extra; exact Lx).
      unfold op_bytes, operands. rewrite Eo', E1', E2', N3, Nx, firstn_nil. cbn. now rewrite !app_nil_r. }
    assert (Xn : op_bytes c' H' nop = [98]).
    { destruct K2 as (_ & _ & S). rewrite En in S. cbn in S. destruct S as (P1 & P2 & P3 & Lx).
      assert (o_p1 nop = None) as N1 by (apply absent; intros Q; apply P1 in Q; lia). assert (o_p2 nop = None) as N2 by (apply absent; intros Q; apply P2 in Q; lia).
      assert (o_p3 nop = None) as N3 by (apply absent; intros Q; apply P3 in Q; lia). assert (o_extra nop = []) as Nx by (apply no_extra; exact Lx).
      unfold op_bytes, operands. rewrite En, N1, N2, N3, Nx, firstn_nil. reflexivity. }
    rewrite X, X', Xn, Es. cbn [app]. do 2 f_equal. rewrite <- !app_assoc. reflexivity.
  - intros [_ X]. apply same_len in X. apply same_len in Pre. apply same_len in Post. rewrite O, O', !app_length in X. cbn [length] in X. lia.
Qed.
(** Registers are not delimited from instructions: nine more primitive registers hash like four more [Mov 0, 0] (opcode 0) up front. *)
Theorem C90_registers_refuted e0 e0' buf buf' c c' ch ch' H H' f f' ps mov : bytes buf -> bytes buf' -> accepted e0 buf c -> accepted e0' buf' c' ->
  alloc c = Ok ch -> alloc c' = Ok ch' -> zlen H < 2 ^ 63 -> zlen H' < 2 ^ 63 -> In f (c_functions c) -> In f' (c_functions c') ->
  hf_regs f = hf_regs f' ++ ps -> length ps = 9%nat -> Forall (fun t => In (vt_kind t) prim_kinds) ps ->
  o_op mov = 0 -> o_p1 mov = Some 0 -> o_p2 mov = Some 0 ->
  (exists os, hf_ops f' = [mov; mov; mov; mov] ++ os /\ Forall2 (same_instruction c H c' H') (hf_ops f) os) ->
  fun_hashable c H f -> fun_hashable c' H' f' ->
  hash_fun (set_functions_hashes H ch) f = hash_fun (set_functions_hashes H' ch') f' /\ ~ alike c H c' H' f f'.
Proof.
  intros B B' A A' E E' L L' I I' R Lp Fp Eo E1 E2 (os & O' & O) F F'. split.
  - apply (same_stream e0 e0' buf buf' c c' ch ch' H H' f f'); auto. unfold fun_bytes. rewrite R, O', !flat_map_app, <- !app_assoc. f_equal. rewrite (same_instructions _ _ _ _ _ _ O). f_equal.
    destruct (accepted_alloc e0' buf' c' B' A') as [CO' _]. destruct (fun_ok c' f' CO' I') as [_ K']. rewrite O' in K'. apply Forall_app in K' as [K' _]. apply Forall_cons_iff in K' as [K _].
    assert (X : op_bytes c' H' mov = 0 :: enc_le 4 0 ++ enc_le 4 0).
    { destruct K as (_ & _ & S). rewrite Eo in S. cbn in S. destruct S as (_ & _ & P3 & Lx). assert (o_p3 mov = None) as N3 by (apply absent; intros Q; apply P3 in Q; lia).
      assert (o_extra mov = []) as Nx by (apply no_extra; exact Lx).
      unfold op_bytes, operands. rewrite Eo, E1, E2, N3, Nx, firstn_nil. reflexivity. }
    cbn [flat_map]. rewrite X.
    assert (Y : forall l, Forall (fun t => In (vt_kind t) prim_kinds) l -> flat_map (fun t => enc_le 4 (signature t)) l = repeat 0 (4 * length l)).
    { clear. induction l as [|t l IH]; intros Fl; [reflexivity|]. apply Forall_cons_iff in Fl as [Ft Fl]. cbn [flat_map]. rewrite IH by auto.
      destruct t as [tu ta tp tk]. cbn [vt_kind] in Ft. destruct (C48_signature_refuted tu ta tp) as [S _]. rewrite (S tk Ft).
      replace (4 * length (VT tu ta tp tk :: l))%nat with (4 + 4 * length l)%nat by (cbn [length]; lia). reflexivity. }
    rewrite Y, Lp by auto. reflexivity.
  - intros [X _]. apply (f_equal (@length _)) in X. rewrite !map_length, R, app_length in X. lia.
Qed.

(** Modules whose second and third function are different but hash the same. *)
Definition ex_pair (regs1 regs2 : list Z) (ops1 ops2 : list aop) : amod := {|
  am_version := 5; am_debug := false; am_ints := [42; -7]; am_floats := [4614253070214989087; 4607182418800017408; 4615063718147915776; 4607182418800017410];
  am_strings := [[69]; [67]; [97; 98]; [97]]; am_bytes := []; am_bytes_pos := []; am_debugfiles := [];
  am_types := [APrim HVOID; APrim HI32; AFun false [] 0; AAbstract 2; APrim HF64];
  am_globals := [3]; am_natives := [(0, 1, 2, 1)];
  am_functions := [{| af_type := 2; af_findex := 2; af_regs := [1]; af_ops := [IFixed 67 [0]]; af_debug := []; af_assigns := [] |};
                   {| af_type := 2; af_findex := 0; af_regs := regs1; af_ops := ops1 ++ [IFixed 67 [0]]; af_debug := []; af_assigns := [] |};
                   {| af_type := 2; af_findex := 3; af_regs := regs2; af_ops := ops2 ++ [IFixed 67 [0]]; af_debug := []; af_assigns := [] |}];
  am_constants := []; am_entrypoint := 0 |}.
Definition ex_third (m : amod) : hl_function := nth 2 (c_functions (loaded m)) (mkFun vt_default 0 0 0 0 [] [] [] None None).
Definition ex_run3 (H : list Z) (m : amod) : R Z := hash_fun (set_functions_hashes H (hashed (loaded m))) (ex_third m).
Definition ex_string := ex_pair [1] [1] [IFixed 5 [0; 2]] [IFixed 5 [0; 3]; IFixed 98 []].
Definition ex_regs := ex_pair [3; 1; 1; 1; 1; 1; 1; 1; 1; 4] [3] [IFixed 1 [0; 1]] [IFixed 0 [0; 0]; IFixed 0 [0; 0]; IFixed 0 [0; 0]; IFixed 0 [0; 0]; IFixed 1 [0; 1]].
Definition ex_prim := ex_pair [1; 3] [4; 3] [IFixed 24 [0; 2]] [IFixed 24 [0; 2]].
(** 3.14 and 3.5, then 1.0 and just above it. *)
Definition ex_float := ex_pair [4; 1] [4; 1] [IFixed 2 [0; 0]] [IFixed 2 [0; 1]].
(** A pair of alike functions, and a pair that is not. *)
Definition ex_same := ex_pair [1; 3] [1; 3] [IFixed 1 [0; 1]; ISwitch 0 [1; 300] 2; ICall 29 0 2 [0; 1]] [IFixed 1 [0; 1]; ISwitch 0 [1; 300] 2; ICall 29 0 2 [0; 1]].
Definition ex_other := ex_pair [1; 3] [1; 3] [IFixed 1 [0; 1]; ISwitch 0 [1; 300] 2] [IFixed 1 [0; 1]; ISwitch 0 [1; 301] 2].
Example C90_met : Forall (fun m => bytes (enc_module m) /\ accepted None (enc_module m) (loaded m) /\ alloc (loaded m) = Ok (hashed (loaded m)) /\
    In (ex_second m) (c_functions (loaded m)) /\ In (ex_third m) (c_functions (loaded m)))
  [ex_string; ex_regs; ex_prim; ex_float; ex_same; ex_other].
Proof.
  repeat (constructor; [split; [apply byte_forallb; vm_compute; reflexivity|]; split; [vm_compute; reflexivity|]; split; [vm_compute; reflexivity|]; split; apply nth_In; apply Nat.ltb_lt; vm_compute; reflexivity|]). constructor.
Qed.
Example C90_ex : map (fun m => (ex_run [77; 0; 0] m, ex_run3 [77; 0; 0] m)) [ex_string; ex_regs; ex_prim; ex_float; ex_same; ex_other] =
  [(Ok 62322652, Ok 62322652); (Ok 413894119, Ok 413894119); (Ok 4040775205, Ok 4040775205); (Ok 534417317, Ok 534417317);
   (Ok 329088930, Ok 329088930); (Ok 2292104666, Ok 255358617)].
Proof. vm_compute. reflexivity. Qed.
Lemma stringless_dec f : forallb (fun o => negb (one_of (o_op o) [OString; ODynGet; ODynSet])) (hf_ops f) = true -> stringless f.
Proof.
  intros E. unfold stringless. apply Forall_forall. intros o Ho. rewrite forallb_forall in E. specialize (E o Ho). intros I.
  unfold one_of in E. cbn [existsb In] in *. lia.
Qed.
(** The hypotheses on the pairs. *)
Example C90_met_same : Forall (fun m => length (hf_regs (ex_second m)) = length (hf_regs (ex_third m)) /\ stringless (ex_second m) /\ stringless (ex_third m) /\
    ex_run [77; 0; 0] m = ex_run3 [77; 0; 0] m /\ ex_second m <> ex_third m) [ex_prim; ex_float; ex_same].
Proof.
  repeat (constructor; [split; [vm_compute; reflexivity|]; split; [apply stringless_dec; vm_compute; reflexivity|]; split; [apply stringless_dec; vm_compute; reflexivity|]; split; [vm_compute; reflexivity|vm_compute; discriminate]|]). constructor.
Qed.
Example C90_met_string : let f := ex_second ex_string in let f' := ex_third ex_string in let c := loaded ex_string in
  hf_regs f = hf_regs f' /\ entry [] (c_strings c) 2 = entry [] (c_strings c) 3 ++ [98] /\
  map (fun o => (o_op o, o_p1 o, o_p2 o)) (hf_ops f) = [(OString, Some 0, Some 2); (67, Some 0, None)] /\
  map (fun o => (o_op o, o_p1 o, o_p2 o)) (hf_ops f') = [(OString, Some 0, Some 3); (ONop, None, None); (67, Some 0, None)].
Proof. vm_compute. repeat split. Qed.
Example C90_met_regs : let f := ex_second ex_regs in let f' := ex_third ex_regs in
  map (@vt_kind) (hf_regs f) = map (@vt_kind) (hf_regs f') ++ [HI32; HI32; HI32; HI32; HI32; HI32; HI32; HI32; HF64] /\
  hf_regs f = hf_regs f' ++ skipn 1 (hf_regs f) /\ hf_ops f' = firstn 4 (hf_ops f') ++ hf_ops f /\ firstn 4 (hf_ops f') = repeat (nth 0 (hf_ops f') opcode_default) 4.
Proof. vm_compute. repeat split. Qed.
