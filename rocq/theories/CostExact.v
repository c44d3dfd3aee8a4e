(** A family of files on which the reader's copying is computed exactly (for C85). *)
From Verif Require Import Prelude StdModel BrassTypes DecoderModel CodeModel FormatSpec ReaderSpec ErrSpec.
From Verif Require Import CodeGenericProofs FormatProofs ErrProofs ErrExact CostProofs CostTurns CostCopies CostWhole.
From Verif Require CostModel.
Import CostModel(cost, turns, copied, filled, none, plus, entries).
From Coq Require Import Lia.
Local Open Scope Z_scope.

Lemma bind_cost A B (x : CostModel.M A) (y : A -> CostModel.M B) s a s1 t1 r s2 t2 : x s = ((Ok a, s1), t1) -> y a s1 = ((r, s2), t2) -> CostModel.bind x y s = ((r, s2), plus t1 t2).
Proof. intros E1 E2. unfold CostModel.bind. now rewrite E1, E2. Qed.
Lemma seq_cost A B (x : CostModel.M A) (y : A -> CostModel.M B) s a s1 r s2 n m : (exists t1, x s = ((Ok a, s1), t1) /\ copied t1 = n) -> (exists t2, y a s1 = ((r, s2), t2) /\ copied t2 = m) -> exists t, CostModel.bind x y s = ((r, s2), t) /\ copied t = n + m.
Proof. intros (t1 & E1 & <-) (t2 & E2 & <-). eexists. split; [eapply bind_cost; eauto|]. reflexivity. Qed.
(** a phase that clones nothing *)
Lemma still A (x : CostModel.M A) m s a s1 : same x m -> noclone x -> m s = (Ok a, s1) -> exists t, x s = ((Ok a, s1), t) /\ copied t = 0.
Proof. intros H N E. specialize (H s). destruct (x s) as [[r s'] t] eqn:X. cbn [fst] in H. rewrite E in H. injection H as -> ->. exists t. split; [reflexivity|]. eapply N, X. Qed.

(** types with the kind byte 0 *)
Definition cbody (i : Z) (c : code) : CostModel.M code :=
  CostModel.bind (CostModel.put_clone c) (fun _ => CostModel.bind CostModel.read_type (fun t => CostModel.bind CostModel.get_code (fun dc => CostModel.bind (CostModel.vec_insert (c_types dc) i t) (fun ts => CostModel.bind (CostModel.put_code (set_types ts dc)) (fun _ => CostModel.get_clone))))).
Lemma plain_cost rest p c l : exists t0 tt0, CostModel.read_type (S_ (0 :: rest) p c l) = ((Ok t0, S_ rest (p + 1) c l), tt0) /\ copied tt0 = 0.
Proof.
  unfold CostModel.read_type. unfold CostModel.bind at 1. unfold CostModel.unwrap at 1, CostModel.on at 1, CostModel.decode_u8, CostModel.free at 1, unwrap at 1. rewrite u8_S. cbv beta iota.
  change (HLAST <=? 0) with false. change ((0 =? HFUN) || (0 =? HMETHOD))%bool with false. change ((0 =? HOBJ) || (0 =? HSTRUCT))%bool with false. cbv iota.
  change (0 =? HREF) with false. change (0 =? HVIRTUAL) with false. change (0 =? HABSTRACT) with false. cbv iota.
  repeat match goal with |- context [0 =? ?k] => change (0 =? k) with false; cbv iota end.
  do 2 eexists. split; [reflexivity|reflexivity].
Qed.
Lemma types_entries c ts : entries (set_types ts c) = entries c - zlen (c_types c) + zlen ts.
Proof. unfold entries. destruct c. cbn. lia. Qed.
Lemma turn_cost i c rest p d l : 0 <= i <= zlen (c_types c) -> exists ts t, zlen ts = zlen (c_types c) + 1 /\
  cbody i c (S_ (0 :: rest) p d l) = ((Ok (set_types ts c), S_ rest (p + 1) (set_types ts c) l), t) /\ copied t = 2 * entries c + 1.
Proof.
  intros H. destruct (plain_cost rest p c l) as (t0 & tt0 & Rt & C0). destruct (StringsProofs.zinsert_some (c_types c) i t0 H) as (ts & Ei). exists ts. pose proof (StringsProofs.zinsert_len _ _ _ _ Ei) as Lt.
  enough (X : exists t, cbody i c (S_ (0 :: rest) p d l) = ((Ok (set_types ts c), S_ rest (p + 1) (set_types ts c) l), t) /\ copied t = entries c + (0 + (0 + (0 + (0 + entries (set_types ts c)))))).
  { destruct X as (t & X & C). exists t. split; [exact Lt|]. split; [exact X|]. rewrite C, types_entries. lia. }
  unfold cbody. eapply seq_cost; [eexists; split; [reflexivity|cbn [copied plus none]; apply Z.add_0_r]|].
  eapply seq_cost; [exists tt0; split; [exact Rt|exact C0]|].
  eapply seq_cost; [eexists; split; reflexivity|].
  eapply seq_cost; [eexists; split; [unfold CostModel.vec_insert, CostModel.free, vec_insert; cbn [d_code S_]; rewrite Ei; reflexivity|reflexivity]|].
  eapply seq_cost; [eexists; split; reflexivity|].
  eexists. split; [reflexivity|]. cbn [copied plus none d_code S_]. lia.
Qed.
Lemma types_cost n : forall i c rest p d l, 0 <= i <= zlen (c_types c) ->
  exists ts d' t, CostModel.for_loop n i cbody c (S_ (repeat 0 n ++ rest) p d l) = ((Ok (set_types ts c), S_ rest (p + Z.of_nat n) d' l), t) /\ copied t = 2 * entries c * Z.of_nat n + Z.of_nat n * Z.of_nat n.
Proof.
  induction n as [|n IH]; intros i c rest p d l H.
  - exists (c_types c), d. eexists. split; [cbn [CostModel.for_loop repeat app]; unfold CostModel.ret, CostModel.free, ret; rewrite Z.add_0_r; destruct c; reflexivity|]. cbn. lia.
  - cbn [repeat app CostModel.for_loop]. destruct (turn_cost i c (repeat 0 n ++ rest) p d l H) as (ts & t1 & Lt & E1 & C1).
    destruct (IH (i + 1) (set_types ts c) rest (p + 1) (set_types ts c) l) as (ts' & d' & t2 & E2 & C2). { change (c_types (set_types ts c)) with ts. lia. }
    exists ts', d'. rewrite types_entries in C2.
    enough (X : exists t, CostModel.bind CostModel.turn (fun _ => CostModel.bind (cbody i c) (fun a => CostModel.for_loop n (i + 1) cbody a)) (S_ (0 :: repeat 0 n ++ rest) p d l) = ((Ok (set_types ts' c), S_ rest (p + Z.of_nat (S n)) d' l), t) /\ copied t = 0 + (copied t1 + copied t2)).
    { destruct X as (t & X & C). exists t. split; [exact X|]. rewrite C, C1, C2, Lt. lia. }
    eapply seq_cost; [eexists; split; reflexivity|]. eapply seq_cost; [eexists; split; [exact E1|reflexivity]|].
    exists t2. split; [|reflexivity]. rewrite E2. replace (p + Z.of_nat (S n)) with (p + 1 + Z.of_nat n) by lia. destruct c; reflexivity.
Qed.
Lemma UINDEX_0 b p c l : bytes b -> UINDEX (S_ (0 :: b) p c l) = (Ok 0, S_ b (p + 1) c l).
Proof. intros B. change (0 :: b) with ([0] ++ b). rewrite (UINDEX_S [0] b 0); [|constructor; [unfold is_byte; lia|exact B]|reflexivity]. cbn. now rewrite app_nil_r. Qed.
(** the strings of a file that announces [n] and has one empty string *)
Lemma strings_one n b p : bytes b -> 0 < n -> read_strings n [] (S_ ([0; 0; 0; 0; 0] ++ b) p code_new []) = (Ok ([[]], [0]), S_ b (p + 5) code_new []).
Proof.
  intros B H. unfold read_strings. unfold bind at 1, unwrap.
  assert (R : decode_i32 (S_ ([0; 0; 0; 0] ++ 0 :: b) p code_new []) = (Ok 0, S_ (0 :: b) (p + 4) code_new [])).
  { unfold decode_i32, decode_signed, bind, read_bytes. cbn [d_buf S_]. assert (Q : zlen ([0; 0; 0; 0] ++ 0 :: b) <? 4 = false).
    { rewrite zlen_app. change (zlen [0; 0; 0; 0]) with 4. pose proof (zlen_nonneg (0 :: b)). lia. }
    rewrite Q. reflexivity. }
  change ([0; 0; 0; 0; 0] ++ b) with ([0; 0; 0; 0] ++ 0 :: b). rewrite R. cbv zeta. change (i32_as_usize 0) with 0. unfold bind at 1. cbn [d_buf S_]. pose proof (zlen_nonneg (0 :: b)).
  destruct (Z.ltb_spec (zlen (0 :: b)) 0); [lia|]. unfold bind at 1, advance. cbn [d_buf S_ d_pos d_code errs d_log]. destruct (Z.ltb_spec (zlen (0 :: b)) 0); [lia|].
  destruct (Z.to_nat n) as [|k] eqn:Q; [lia|]. cbn [Z.to_nat skipn firstn]. change (from_utf8_lossy []) with (@nil Z). cbn [strings_loop]. change (kept None []) with (@None derr).
  change {| d_buf := 0 :: b; d_pos := p + 4 + 0; d_code := code_new; errs := None; d_log := [] |} with (S_ (0 :: b) (p + 4 + 0) code_new []).
  unfold bind at 1, unwrap. rewrite UINDEX_0 by exact B. replace (p + 4 + 0 + 1) with (p + 5) by lia. reflexivity.
Qed.

(** empty sections *)
Definition goes {A} (x : CostModel.M A) s a := exists t, x s = ((Ok a, s), t) /\ copied t = 0.
Lemma no_globals c s : c_nglobals c = 0 -> errs s = None -> goes (CostModel.read_globals c) s (set_globals [] c).
Proof. intros H E. unfold goes, CostModel.read_globals. rewrite H. cbn. unfold CostModel.bind, CostModel.check_error, CostModel.free, check_error. cbn. rewrite E. cbn. eexists. split; reflexivity. Qed.
Lemma no_natives c s : c_nnatives c = 0 -> errs s = None -> goes (CostModel.read_natives c) s (set_natives [] c).
Proof. intros H E. unfold goes, CostModel.read_natives. rewrite H. cbn. unfold CostModel.bind, CostModel.check_error, CostModel.free, check_error. cbn. rewrite E. cbn. eexists. split; reflexivity. Qed.
Lemma no_functions c s : c_nfunctions c = 0 -> errs s = None -> goes (CostModel.read_functions c) s c.
Proof. intros H E. unfold goes, CostModel.read_functions. rewrite H. cbn. unfold CostModel.bind, CostModel.check_error, CostModel.free, check_error. cbn. rewrite E. cbn. eexists. split; reflexivity. Qed.
Lemma no_constants c s : c_nconstants c = 0 -> goes (CostModel.read_constants c) s c.
Proof. intros H. unfold goes, CostModel.read_constants. rewrite H. eexists. split; reflexivity. Qed.
Lemma no_debugfiles c s : c_hasdebug c = 0 -> goes (CostModel.read_debugfiles c) s c.
Proof. intros H. unfold goes, CostModel.read_debugfiles. rewrite H. eexists. split; reflexivity. Qed.
Lemma ends s : goes CostModel.get_code s (d_code s). Proof. eexists. split; reflexivity. Qed.

Lemma ustrings_entries c l : entries (set_ustrings l c) = entries c - zlen (c_ustrings c) + zlen l.
Proof. unfold entries. destruct c. cbn. lia. Qed.
Lemma lens_entries c l : entries (set_strings_lens l c) = entries c - zlen (c_strings_lens c) + zlen l.
Proof. unfold entries. destruct c. cbn. lia. Qed.
Lemma strings_entries c l : entries (set_strings l c) = entries c - zlen (c_strings c) + zlen l.
Proof. unfold entries. destruct c. cbn. lia. Qed.
Lemma floats_entries c l : entries (set_floats l c) = entries c - zlen (c_floats c) + zlen l.
Proof. unfold entries. destruct c. cbn. lia. Qed.
Lemma ints_entries c l : entries (set_ints l c) = entries c - zlen (c_ints c) + zlen l.
Proof. unfold entries. destruct c. cbn. lia. Qed.

(** version 4; [ns] strings announced, spelled [es], and one there; [nt] types of kind 0, spelled [et] *)
Definition copies_file (es et : list Z) (nt : nat) : list Z :=
  [72; 76; 66; 4] ++ concat [[0]; [0]; [0]; es; et; [0]; [0]; [0]; [0]; [0]] ++ [0; 0; 0; 0; 0] ++ repeat 0 nt.
Definition rest_read (c : code) : CostModel.M code := CostModel.bind (CostModel.read_types c) (fun c => CostModel.bind (CostModel.read_globals c) (fun c => CostModel.bind (CostModel.read_natives c) (fun c => CostModel.bind (CostModel.read_functions c) (fun c =>
  CostModel.bind (CostModel.read_constants c) (fun _ => CostModel.get_code))))).
Lemma copies_rest ns nt c p : c_ntypes c = Z.of_nat nt -> c_nglobals c = 0 -> c_nnatives c = 0 -> c_nfunctions c = 0 -> c_nconstants c = 0 -> zlen (c_types c) = 0 -> entries c = ns + 2 ->
  exists c' s t, rest_read c (S_ (repeat 0 nt) p code_new []) = ((Ok c', s), t) /\ copied t = 3 * Z.of_nat nt * Z.of_nat nt + 2 * Z.of_nat nt * (ns + 2).
Proof.
  intros J2 J3 J6 J7 J8 T0 J0.
  assert (Zt : zlen (zrepeat vt_default (Z.of_nat nt)) = Z.of_nat nt) by (apply zlen_repeat; lia).
  assert (Q : exists c4, c4 = set_types (zrepeat vt_default (Z.of_nat nt)) c) by (eexists; reflexivity). destruct Q as (c4 & Q).
  assert (E4 : entries c4 = ns + 2 + Z.of_nat nt) by (rewrite Q, types_entries; lia).
  assert (T4 : zlen (c_types c4) = Z.of_nat nt) by (rewrite Q; exact Zt).
  assert (K3 : c_nglobals c4 = 0) by (rewrite Q; exact J3). assert (K6 : c_nnatives c4 = 0) by (rewrite Q; exact J6). assert (K7 : c_nfunctions c4 = 0) by (rewrite Q; exact J7). assert (K8 : c_nconstants c4 = 0) by (rewrite Q; exact J8).
  destruct (types_cost nt 0 c4 [] p code_new []) as (ts & d' & t & E & C); [lia|].
  rewrite app_nil_r in E. rewrite E4 in C.
  assert (R : exists t, CostModel.read_types c (S_ (repeat 0 nt) p code_new []) = ((Ok (set_types ts c4), S_ [] (p + Z.of_nat nt) d' []), t) /\ copied t = 2 * (ns + 2 + Z.of_nat nt) * Z.of_nat nt + Z.of_nat nt * Z.of_nat nt).
  { unfold CostModel.read_types. rewrite J2. eexists. split; [eapply bind_cost; [reflexivity|]; unfold CostModel.for_range; rewrite Nat2Z.id; rewrite <- Q; exact E|]. cbn [copied plus]. lia. }
  assert (L3 : c_nglobals (set_types ts c4) = 0) by exact K3. assert (L6 : c_nnatives (set_types ts c4) = 0) by exact K6. assert (L7 : c_nfunctions (set_types ts c4) = 0) by exact K7. assert (L8 : c_nconstants (set_types ts c4) = 0) by exact K8.
  clear E C t. revert R L3 L6 L7 L8. generalize (set_types ts c4). intros c5 R L3 L6 L7 L8.
  assert (Es : errs (S_ [] (p + Z.of_nat nt) d' []) = None) by reflexivity. revert R Es. generalize (S_ [] (p + Z.of_nat nt) d' []). intros s5 R Es.
  enough (X : exists c' s t, rest_read c (S_ (repeat 0 nt) p code_new []) = ((Ok c', s), t) /\ copied t = (2 * (ns + 2 + Z.of_nat nt) * Z.of_nat nt + Z.of_nat nt * Z.of_nat nt) + (0 + (0 + (0 + (0 + 0))))).
  { destruct X as (c' & s & t' & X & C'). exists c', s, t'. split; [exact X|]. rewrite C'. lia. }
  exists (d_code s5), s5. unfold rest_read.
  eapply seq_cost; [exact R|].
  eapply seq_cost; [exact (no_globals c5 s5 L3 Es)|].
  eapply seq_cost; [exact (no_natives (set_globals [] c5) s5 L6 Es)|].
  eapply seq_cost; [exact (no_functions (set_natives [] (set_globals [] c5)) s5 L7 Es)|].
  eapply seq_cost; [exact (no_constants (set_natives [] (set_globals [] c5)) s5 L8)|].
  exact (ends s5).
Qed.
Lemma copies_front ns nt c p : 1 <= ns -> entries c = 0 -> c_nstrings c = ns -> c_nints c = 0 -> c_nfloats c = 0 -> c_strings_lens c = [] ->
  exists c3, (c <- read_ints c ;; c <- read_floats c ;; read_string_table c) (S_ ([0; 0; 0; 0; 0] ++ repeat 0 nt) p code_new []) = (Ok c3, S_ (repeat 0 nt) (p + 5) code_new []) /\
    c3 = set_ustrings (zrepeat None ns) (set_strings_lens [0] (set_strings [[]] (set_floats [] (set_ints [] c)))) /\ entries c3 = ns + 2 /\ zlen (c_types c3) = 0.
Proof.
  intros Hn H0 H2 H4 H5 H11. set (rest := [0; 0; 0; 0; 0] ++ repeat 0 nt).
  assert (R1 : read_ints c (S_ rest p code_new []) = (Ok (set_ints [] c), S_ rest p code_new [])) by (unfold read_ints; rewrite H4; reflexivity).
  assert (R2 : read_floats (set_ints [] c) (S_ rest p code_new []) = (Ok (set_floats [] (set_ints [] c)), S_ rest p code_new [])).
  { unfold read_floats. change (c_nfloats (set_ints [] c)) with (c_nfloats c). rewrite H5. reflexivity. }
  rewrite (bind_step _ _ _ _ _ R1), (bind_step _ _ _ _ _ R2). exists (set_ustrings (zrepeat None ns) (set_strings_lens [0] (set_strings [[]] (set_floats [] (set_ints [] c))))). split; [|split; [reflexivity|]].
  - unfold read_string_table. change (c_nstrings (set_floats [] (set_ints [] c))) with (c_nstrings c). rewrite H2.
    change (c_strings_lens (set_floats [] (set_ints [] c))) with (c_strings_lens c). rewrite H11. unfold bind at 1, ok_mapped. unfold rest. rewrite strings_one; [|apply Forall_forall; intros x Hx; apply repeat_spec in Hx; subst; unfold is_byte; lia|lia]. cbv iota zeta.
    change (c_nstrings (set_strings_lens [0] (set_strings [[]] (set_floats [] (set_ints [] c))))) with (c_nstrings c). rewrite H2. reflexivity.
  - assert (Zn : zlen (zrepeat (@None str) ns) = ns) by (apply zlen_repeat; lia). unfold entries in H0. repeat match type of H0 with context [zlen ?l] => lazymatch goal with HH : 0 <= zlen l |- _ => fail | _ => pose proof (zlen_nonneg l) end end.
    split; [|change (zlen (c_types c) = 0); lia]. rewrite ustrings_entries, lens_entries, strings_entries, floats_entries, ints_entries. change (zlen [0]) with 1. change (zlen [@nil Z]) with 1. repeat change (zlen []) with 0.
    cbn [c_ustrings c_strings_lens c_strings c_floats c_ints set_ustrings set_strings_lens set_strings set_floats set_ints].
    rewrite Zn. enough (entries c - zlen (c_ints c) - zlen (c_floats c) - zlen (c_strings c) - zlen (c_strings_lens c) - zlen (c_ustrings c) = 0) by lia. unfold entries. lia.
Qed.
Lemma front_cost c s c3 s3 : (c <- read_ints c ;; c <- read_floats c ;; read_string_table c) s = (Ok c3, s3) ->
  exists t, CostModel.bind (CostModel.read_ints c) (fun c => CostModel.bind (CostModel.read_floats c) CostModel.read_string_table) s = ((Ok c3, s3), t) /\ copied t = 0.
Proof.
  intros E. eapply still; [|apply nc_bind; [apply nc_ints|intros c1; apply nc_bind; [apply nc_floats|intros c2; apply nc_string_table]]|exact E].
  apply same_bind; [apply same_read_ints|intros c1]. apply same_bind; [apply same_read_floats|intros c2; apply same_read_string_table].
Qed.
Lemma cost_assoc A B C (x : CostModel.M A) (y : A -> CostModel.M B) (z : B -> CostModel.M C) s : CostModel.bind (CostModel.bind x y) z s = CostModel.bind x (fun a => CostModel.bind (y a) z) s.
Proof.
  unfold CostModel.bind. destruct (x s) as [[[a|e|p] s1] t1]; [|reflexivity|reflexivity]. destruct (y a s1) as [[[b|e|p] s2] t2]; [|reflexivity|reflexivity]. destruct (z b s2) as [r t3].
  f_equal. unfold plus. f_equal; cbn; lia.
Qed.
Lemma then_cost A B (x : CostModel.M A) (y : A -> CostModel.M B) s a s1 : (exists t1, x s = ((Ok a, s1), t1) /\ copied t1 = 0) -> forall r s2 n, (exists t2, y a s1 = ((r, s2), t2) /\ copied t2 = n) -> exists t, CostModel.bind x y s = ((r, s2), t) /\ copied t = n.
Proof. intros H r s2 n H2. exact (seq_cost _ _ _ _ _ _ _ _ _ 0 n H H2). Qed.
Lemma bind_ext A B (x : CostModel.M A) (y y' : A -> CostModel.M B) s : (forall a s, y a s = y' a s) -> CostModel.bind x y s = CostModel.bind x y' s.
Proof. intros H. unfold CostModel.bind. destruct (x s) as [[[a|e|p] s1] t1]; rewrite ?H; reflexivity. Qed.
Lemma code_read_parts s : CostModel.code_read s = CostModel.bind (CostModel.read_magic code_new) (fun c => CostModel.bind (CostModel.read_counts c) (fun c =>
  CostModel.bind (CostModel.bind (CostModel.read_ints c) (fun c => CostModel.bind (CostModel.read_floats c) CostModel.read_string_table)) (fun c => CostModel.bind (CostModel.read_bytes_section c) (fun c => CostModel.bind (CostModel.read_debugfiles c) rest_read)))) s.
Proof. unfold CostModel.code_read. cbv zeta. apply bind_ext. intros c1 s1. apply bind_ext. intros c2 s2. rewrite cost_assoc. apply bind_ext. intros c3 s3. rewrite cost_assoc. reflexivity. Qed.
Lemma copies_exact es et ns nt : bytes es -> bytes et -> index_value es = Some ns -> index_value et = Some (Z.of_nat nt) -> 1 <= ns ->
  exists c s t, CostModel.code_read (start None (copies_file es et nt)) = ((Ok c, s), t) /\ copied t = 3 * Z.of_nat nt * Z.of_nat nt + 2 * Z.of_nat nt * (ns + 2).
Proof.
  intros Be Bt Es Et Hn. set (encs := [[0]; [0]; [0]; es; et; [0]; [0]; [0]; [0]; [0]]). set (ks := [0; 0; 0; ns; Z.of_nat nt; 0; 0; 0; 0; 0]).
  assert (Ve : map index_value encs = map Some ks) by (cbn [encs ks map]; now rewrite Es, Et).
  set (rest := [0; 0; 0; 0; 0] ++ repeat 0 nt).
  assert (Bf : bytes (concat encs ++ rest)).
  { unfold bytes in *. apply Forall_app. split; [|apply Forall_app; split; [repeat constructor; lia|apply Forall_forall; intros x Hx; apply repeat_spec in Hx; subst; unfold is_byte; lia]].
    cbn [encs concat]. repeat (apply Forall_app; split); auto; repeat constructor; unfold is_byte; lia. }
  pose proof (magic_S 4 (concat encs ++ rest) ltac:(lia)) as M0. pose proof (counts_S 4 encs ks rest ltac:(lia) Bf Ve eq_refl) as M1.
  assert (NN : negs 4 encs = []) by (apply (negs_none encs ks Ve); unfold ks; repeat constructor; lia).
  rewrite NN, end_S in M1. cbn [kept] in M1.
  assert (HC : entries (header_code 4 ks) = 0 /\ c_ntypes (header_code 4 ks) = Z.of_nat nt /\ c_nstrings (header_code 4 ks) = ns /\ c_nglobals (header_code 4 ks) = 0 /\ c_nints (header_code 4 ks) = 0 /\ c_nfloats (header_code 4 ks) = 0 /\ c_version (header_code 4 ks) = 4 /\ c_hasdebug (header_code 4 ks) = 0 /\ c_nnatives (header_code 4 ks) = 0 /\ c_nfunctions (header_code 4 ks) = 0 /\ c_nconstants (header_code 4 ks) = 0 /\ c_strings_lens (header_code 4 ks) = []).
  { split; [vm_compute; reflexivity|]. cbv [header_code ks nth Nat.add Z.leb Z.compare Pos.compare Pos.compare_cont]. cbn [c_ntypes c_nglobals c_nints c_nfloats c_nstrings c_version c_hasdebug c_nnatives c_nfunctions c_nconstants c_strings_lens set_hasdebug set_entrypoint set_nconstants set_nfunctions set_nnatives set_nglobals set_ntypes set_nstrings set_nfloats set_nints set_version].
    repeat split; lia. }
  revert M1 HC. generalize (header_code 4 ks). generalize (4 + zlen (concat encs)). intros p c M1 (H0 & H1 & H2 & H3 & H4 & H5 & H6 & H7 & H8 & H9 & H10 & H11).
  destruct (copies_front ns nt c p Hn H0 H2 H4 H5 H11) as (c3 & R3 & Q & E3 & T3). fold rest in R3.
  assert (J : c_ntypes c3 = Z.of_nat nt /\ c_nglobals c3 = 0 /\ c_nnatives c3 = 0 /\ c_nfunctions c3 = 0 /\ c_nconstants c3 = 0 /\ c_version c3 = 4 /\ c_hasdebug c3 = 0) by (rewrite Q; repeat split; assumption).
  clear Q. destruct J as (J2 & J3 & J6 & J7 & J8 & J9 & J10).
  destruct (copies_rest ns nt c3 (p + 5) J2 J3 J6 J7 J8 T3 E3) as (c' & s & t & X & C). exists c', s.
  assert (R4 : read_bytes_section c3 (S_ (repeat 0 nt) (p + 5) code_new []) = (Ok c3, S_ (repeat 0 nt) (p + 5) code_new [])) by (unfold read_bytes_section; rewrite J9; reflexivity).
  rewrite code_read_parts. unfold copies_file. fold encs rest.
  eapply then_cost; [eapply (still _ _ _ _ _ _ (same_free _ _) (nc_free _ _) M0)|].
  eapply then_cost; [eapply (still _ _ _ _ _ _ (same_free _ _) (nc_free _ _) M1)|].
  eapply then_cost; [exact (front_cost _ _ _ _ R3)|].
  eapply then_cost; [exact (still _ _ _ _ _ _ (same_read_bytes_section _) (nc_bytes_section _) R4)|].
  eapply then_cost; [exact (no_debugfiles _ _ J10)|]. exists t. auto.
Qed.
