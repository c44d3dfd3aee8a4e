(** Theorems C86: how many entries the reader writes with [vec![x; n]].  Model: CostModel.v (the reader of CodeModel.v with counters of its cost). *)
From Verif Require Import Prelude StdModel BrassTypes DecoderModel CodeModel FormatSpec ReaderSpec ErrSpec.
From Verif Require Import CodeGenericProofs FormatProofs ErrProofs PropsModule PropsGrammar PropsTurns PropsCopies ReaderPost CostProofs CostTurns CostWhole CostExact CostFill CostCrash.
From Verif Require CostModel.
Import CostModel(cost, turns, copied, filled, none, plus).
From Coq Require Import Lia.
Local Open Scope Z_scope.

(** * proofs *)
Definition grows {A} (x : CostModel.M A) : Prop := forall s r s' t, x s = ((r, s'), t) -> 0 <= filled t.
Lemma gr_nf A (x : CostModel.M A) : nofill x -> grows x. Proof. intros H s r s' t E. rewrite (H _ _ _ _ E). lia. Qed.
Lemma gr_free A (m : M A) : grows (CostModel.free m). Proof. apply gr_nf, nf_free. Qed.
Lemma gr_fill n : grows (CostModel.fill n). Proof. intros s r s' t E. injection E as _ _ <-. cbn [filled]. lia. Qed.
Lemma gr_bind A B (x : CostModel.M A) (y : A -> CostModel.M B) : grows x -> (forall a, grows (y a)) -> grows (CostModel.bind x y).
Proof.
  intros N1 N2 s r s' t E. unfold CostModel.bind in E. destruct (x s) as [[[a|e|q] s1] t1] eqn:E1; pose proof (N1 _ _ _ _ E1) as X1.
  - destruct (y a s1) as [[r2 s2] t2] eqn:E2. pose proof (N2 _ _ _ _ _ E2). injection E as <- <- <-. cbn [plus filled]. lia.
  - now injection E as <- <- <-.
  - now injection E as <- <- <-.
Qed.
Lemma gr_on A B (f : M A -> M B) x : grows x -> grows (CostModel.on f x).
Proof. intros N s r s' t E. unfold CostModel.on in E. destruct (x s) as [[r1 s1] t1] eqn:E1. injection E as _ <-. eauto. Qed.
Lemma gr_loop A n : forall i (b : Z -> A -> CostModel.M A) acc, (forall i a, grows (b i a)) -> grows (CostModel.for_loop n i b acc).
Proof. induction n as [|n IH]; intros i b acc H; cbn [CostModel.for_loop]; [apply gr_free|]. apply gr_bind; [apply gr_nf, nf_turn|intros _]. apply gr_bind; auto. Qed.
Lemma gr_for A n (b : Z -> A -> CostModel.M A) acc : (forall i a, grows (b i a)) -> grows (CostModel.for_range n b acc). Proof. apply gr_loop. Qed.
Lemma gr_debug n : grows (CostModel.debug_infos n).
Proof. intros s. unfold CostModel.debug_infos. generalize (S (length (d_buf s))). intros k. revert s. change (grows (CostModel.bind (CostModel.fill (2 * n)) (fun _ => CostModel.debug_loop k n 0 (-1) 0 (zrepeat 0 (2 * n))))). apply gr_bind; [apply gr_fill|intros; apply gr_nf, nf_debug_loop]. Qed.
Ltac gr := repeat first [apply gr_fill|apply gr_debug|apply gr_nf, nf_read_type|apply gr_nf, nf_strings_loop|apply gr_nf, nf_put|apply gr_nf, nf_get|apply gr_free|apply gr_nf, nf_copy|apply gr_bind; [|intros ?]|apply gr_on|apply gr_for; intros ? ?|match goal with |- grows (match ?x with _ => _ end) => destruct x end|progress cbv zeta].
Definition later (c : code) : CostModel.M code := CostModel.bind (CostModel.read_bytes_section c) (fun c =>
  CostModel.bind (CostModel.read_debugfiles c) (fun c => CostModel.bind (CostModel.read_types c) (fun c => CostModel.bind (CostModel.read_globals c) (fun c => CostModel.bind (CostModel.read_natives c) (fun c => CostModel.bind (CostModel.read_functions c) (fun c =>
  CostModel.bind (CostModel.read_constants c) (fun _ => CostModel.get_code))))))).
Lemma gr_later c : grows (later c).
Proof.
  unfold later, CostModel.read_bytes_section, CostModel.read_debugfiles, CostModel.read_types, CostModel.read_globals, CostModel.read_natives, CostModel.read_functions, CostModel.read_function_entry, CostModel.read_constants, CostModel.skip_assigns, CostModel.read_function, CostModel.read_opcode. gr.
Qed.
Lemma writes_later c : writes (later c).
Proof.
  unfold later. apply writes_bind; [apply writes_bytes|intros]. apply writes_bind; [apply writes_debugfiles|intros]. apply writes_bind; [apply writes_types|intros]. apply writes_bind; [apply writes_globals|intros].
  apply writes_bind; [apply writes_natives|intros]. apply writes_bind; [apply writes_functions|intros]. apply writes_bind; [apply writes_constants|intros]. apply wget.
Qed.
Lemma caps_later c : okc c -> caps (later c) okc.
Proof.
  intros H. unfold later. eapply caps_bind; [apply writes_bytes|now apply caps_bytes|intros ? ?]. eapply caps_bind; [apply writes_debugfiles|now apply caps_debugfiles|intros ? ?]. eapply caps_bind; [apply writes_types|now apply caps_types|intros ? ?].
  eapply caps_bind; [apply writes_globals|now apply caps_globals|intros ? ?]. eapply caps_bind; [apply writes_natives|now apply caps_natives|intros ? ?]. eapply caps_bind; [apply writes_functions|now apply caps_functions|intros ? ?].
  eapply caps_bind; [apply writes_constants|now apply caps_constants|intros ? ?]. apply cget.
Qed.
Definition first_ (c : code) : CostModel.M code := CostModel.bind (CostModel.read_ints c) (fun c => CostModel.read_floats c).
Lemma code_read_fill s : CostModel.code_read s = CostModel.bind (CostModel.read_magic code_new) (fun c => CostModel.bind (CostModel.read_counts c) (fun c => CostModel.bind (first_ c) (fun c => CostModel.bind (CostModel.read_string_table c) later))) s.
Proof. unfold CostModel.code_read. cbv zeta. apply bind_ext. intros c1 s1. apply bind_ext. intros c2 s2. unfold first_. rewrite cost_assoc. reflexivity. Qed.
Lemma table_fill c s r s' t : CostModel.read_string_table c s = ((r, s'), t) -> filled t = match r with Ok _ => Z.max 0 (c_nstrings c) | _ => 0 end.
Proof.
  unfold CostModel.read_string_table. intros E. unfold CostModel.bind at 1 in E. match type of E with (match ?x with _ => _ end) = _ => destruct x as [[[o|e|q] s1] t1] eqn:E1 end.
  - assert (F1 : filled t1 = 0) by (revert E1; apply nf_on, nf_strings). cbv zeta in E. unfold CostModel.bind, CostModel.check_error, CostModel.free, CostModel.fill, CostModel.ret, check_error in E.
    destruct (errs s1); injection E as <- <- <-; cbn [plus filled none]; rewrite F1; [reflexivity|]. destruct o as [[ss ls]|]; cbn [c_nstrings set_strings set_strings_lens]; lia.
  - assert (F1 : filled t1 = 0) by (revert E1; apply nf_on, nf_strings). now injection E as <- <- <-.
  - assert (F1 : filled t1 = 0) by (revert E1; apply nf_on, nf_strings). now injection E as <- <- <-.
Qed.
Lemma first_strings c s r s' t : bytes (d_buf s) -> first_ c s = ((r, s'), t) -> bytes (d_buf s') /\ zlen (d_buf s') <= zlen (d_buf s) /\ filled t = 0 /\ match r with Ok c' => c_nstrings c' = c_nstrings c | _ => True end.
Proof.
  intros B E. assert (S1 : same (first_ c) (bind (read_ints c) read_floats)) by (apply same_bind; [apply same_read_ints|intros; apply same_read_floats]).
  assert (N : nofill (first_ c)) by (unfold first_, CostModel.read_ints, CostModel.read_floats, CostModel.read_table; nf).
  assert (G : Good true (bind (read_ints c) read_floats)) by good.
  pose proof (S1 s) as X. rewrite E in X. cbn [fst] in X. symmetry in X. destruct (good_len _ _ _ _ _ G B X) as (B1 & L1). split; [exact B1|]. split; [exact L1|]. split; [exact (N _ _ _ _ E)|]. destruct r as [c'|e|q]; [|exact I|exact I].
  apply bind_ok in X. destruct X as (c1 & s1 & E1 & E2). unfold read_ints in E1. apply bind_ok in E1. destruct E1 as (l1 & s2 & _ & E1). apply bind_ok in E1. destruct E1 as (u1 & s3 & _ & E1). injection E1 as <- <-.
  unfold read_floats in E2. apply bind_ok in E2. destruct E2 as (l2 & s4 & _ & E2). apply bind_ok in E2. destruct E2 as (u2 & s5 & _ & E2). injection E2 as <- <-. reflexivity.
Qed.
Lemma inv_first c : okc c -> inv (bind (read_ints c) read_floats) okc.
Proof. intros H. eapply inv_bind; [good|now apply inv_ints|]. intros a Ha. now apply inv_floats. Qed.
Lemma bind_out A B (x : CostModel.M A) (y : A -> CostModel.M B) s r s' t : CostModel.bind x y s = ((r, s'), t) ->
  (exists a s1 t1 t2, x s = ((Ok a, s1), t1) /\ y a s1 = ((r, s'), t2) /\ filled t = filled t1 + filled t2) \/
  (match r with Ok _ => False | _ => True end /\ exists r1 t1, x s = ((r1, s'), t1) /\ filled t = filled t1 /\ match r1 with Ok _ => False | Err _ => match r with Err _ => True | _ => False end | Panic _ => match r with Panic _ => True | _ => False end end).
Proof.
  unfold CostModel.bind. destruct (x s) as [[[a|e|q] s1] t1].
  - destruct (y a s1) as [[r2 s2] t2] eqn:E2. intros E. injection E as <- <- <-. left. exists a, s1, t1, t2. auto.
  - intros E. injection E as <- <- <-. right. split; [exact I|]. eauto 6.
  - intros E. injection E as <- <- <-. right. split; [exact I|]. eauto 6.
Qed.
Lemma free_out A (m : M A) s r s' t : CostModel.free m s = ((r, s'), t) -> m s = (r, s') /\ filled t = 0.
Proof. unfold CostModel.free. intros E. injection E as E <-. auto. Qed.
Lemma fill_found e0 file r s t : bytes file -> CostModel.code_read (start e0 file) = ((r, s), t) -> 0 <= filled t /\
  ((filled t = 0 /\ match r with Ok _ => False | _ => True end) \/
   exists k, declares_strings file k /\ zlen (d_buf s) <= zlen file /\ (match r with Ok _ => k <= filled t | _ => True end) /\ filled t <= k + 2 * (zlen file - zlen (d_buf s)) + match r with Panic _ => 2 * I32_MAX | _ => 0 end).
Proof.
  intros B E. rewrite code_read_fill in E. apply bind_out in E.
  destruct E as [(c0 & s0 & t0 & tr & E0 & E & Et)|(N & r1 & t1 & E0 & Et & _)]; apply free_out in E0; destruct E0 as (E0 & Z0); [|split; [lia|left; split; [lia|exact N]]].
  apply bind_out in E. destruct E as [(c1 & s1 & t1 & tr1 & E1 & E & Et1)|(N & r1 & t1 & E1 & Et1 & _)]; apply free_out in E1; destruct E1 as (E1 & Z1); [|split; [lia|left; split; [lia|exact N]]].
  destruct (header_read file e0 B _ _ _ _ E0 E1) as (_ & D & L & B1 & K).
  assert (O1 : okc c1).
  { pose proof (magic_st file B _ _ _ E0) as Y. cbn beta iota in Y. destruct Y as (v & Hv & -> & H0). destruct H0 as (_ & HC & encs & F0 & Me).
    assert (Ov : forall x, okc (set_version x code_new)) by (intros; split; [unfold I32_MAX; cbn; lia|split; [unfold I32_MAX; cbn; lia|constructor]]).
    assert (Bs : bytes (d_buf s0)) by (rewrite F0 in B; unfold bytes in *; apply Forall_app in B; destruct B as (_ & B'); apply Forall_app in B'; apply B').
    assert (On : okc (d_code s0)) by (rewrite HC; split; [unfold I32_MAX; cbn; lia|split; [unfold I32_MAX; cbn; lia|constructor]]).
    exact (proj2 (inv_counts _ (Ov v) _ _ _ Bs On E1)). }
  assert (On : okc (d_code s1)) by (rewrite D; split; [unfold I32_MAX; cbn; lia|split; [unfold I32_MAX; cbn; lia|constructor]]).
  apply bind_out in E. destruct E as [(c2 & s2 & t2 & tr2 & E2 & E & Et2)|(N & r2 & t2 & E2 & Et2 & _)]; destruct (first_strings _ _ _ _ _ B1 E2) as (B2 & L2 & Z2 & K2); [|split; [lia|left; split; [lia|exact N]]].
  assert (X2 : okc (d_code s2) /\ okc c2).
  { assert (S1 : same (first_ c1) (bind (read_ints c1) read_floats)) by (apply same_bind; [apply same_read_ints|intros; apply same_read_floats]). pose proof (S1 s1) as X. rewrite E2 in X. cbn [fst] in X. symmetry in X. exact (inv_first _ O1 _ _ _ B1 On X). }
  destruct X2 as (I2 & O2). apply bind_out in E.
  destruct E as [(c3 & s3 & t3 & tr3 & E3 & E & Et3)|(N & r3 & t3 & E3 & Et3 & N3)]; pose proof (table_fill _ _ _ _ _ E3) as Z3; pose proof (same_read_string_table c2 s2) as X3; rewrite E3 in X3; cbn [fst] in X3; symmetry in X3.
  2:{ split; [destruct r3; [destruct N3|lia|lia]|left]. split; [destruct r3; [destruct N3|lia|lia]|exact N]. }
  assert (G3 : Good true (read_string_table c2)) by good. destruct (good_len _ _ _ _ _ G3 B2 X3) as (B3 & L3). destruct (inv_table _ O2 _ _ _ B2 I2 X3) as (I3 & O3).
  pose proof (gr_later _ _ _ _ _ E) as Gr. destruct (writes_later _ _ _ _ _ B3 E) as (_ & L4 & W4). destruct (caps_later _ O3 _ _ _ _ B3 I3 E) as (_ & C4).
  rewrite K2 in Z3. split; [lia|]. right. exists (c_nstrings c1). split; [exact K|]. assert (Kp : 0 <= c_nstrings c1) by (destruct K as (? & ? & ? & _ & _ & ->); lia). split; [lia|]. split; [destruct r; [lia|exact I|exact I]|]. destruct r; lia.
Qed.
Lemma strings_unique file k k' : declares_strings file k -> declares_strings file k' -> k = k'.
Proof.
  intros (v & ks & a & (encs & rest & F & V) & Za & ->) (v' & ks' & a' & (encs' & rest' & F' & V') & Za' & ->). rewrite F in F'. injection F' as <- E. now rewrite (counts_prefix _ _ _ _ _ _ E V V' _ _ _ Za Za').
Qed.

(** * theorems *)
(** A file that announces [k] strings: however the read ends, the entries written are at most [k] and two for each byte consumed, and, if the reader
    crashed, those of one more vector. *)
Theorem C86_filled e0 file r s t k : bytes file -> declares_strings file k -> CostModel.code_read (start e0 file) = ((r, s), t) ->
  0 <= filled t <= k + 2 * (zlen file - zlen (d_buf s)) + match r with Panic _ => 2 * I32_MAX | _ => 0 end.
Proof.
  intros B K E. destruct (fill_found _ _ _ _ _ B E) as (N & [(Z0 & Nr)|(k' & K' & L & _ & X)]).
  - split; [exact N|]. pose proof (C78_same e0 file) as S1. rewrite E in S1. cbn [fst] in S1. symmetry in S1. destruct (good_len _ _ _ _ _ (good_code_read true) (B : bytes (d_buf (start e0 file))) S1) as (_ & Ld). cbn [start d_buf] in Ld.
    assert (0 <= k) by (destruct K as (? & ? & ? & _ & _ & ->); lia). unfold I32_MAX. destruct r; lia.
  - rewrite <- (strings_unique _ _ _ K K') in X. auto.
Qed.
(** A file whose header is not complete: none, and the read fails. *)
Theorem C86_undeclared e0 file r s t : bytes file -> ~ (exists k, declares_strings file k) -> CostModel.code_read (start e0 file) = ((r, s), t) -> filled t = 0 /\ match r with Ok _ => False | _ => True end.
Proof. intros B A E. destruct (fill_found _ _ _ _ _ B E) as (N & [(Z0 & Nr)|(k' & K' & _)]); [auto|]. exfalso. eauto. Qed.
(** An accepted file: the announced strings are all written, whether or not they are in the file. *)
Theorem C86_accepted e0 file c s t k : bytes file -> declares_strings file k -> CostModel.code_read (start e0 file) = ((Ok c, s), t) ->
  k <= filled t <= k + 2 * (zlen file - zlen (d_buf s)).
Proof.
  intros B K E. destruct (fill_found _ _ _ _ _ B E) as (N & [(Z0 & Nr)|(k' & K' & L & Y & X)]); [destruct Nr|]. rewrite <- (strings_unique _ _ _ K K') in X, Y. lia.
Qed.
(** So for any file whatever: *)
Theorem C86_uniform e0 file r s t : bytes file -> CostModel.code_read (start e0 file) = ((r, s), t) -> 0 <= filled t <= 2 * zlen file + match r with Panic _ => 3 * I32_MAX | _ => I32_MAX end.
Proof.
  intros B E. pose proof (zlen_nonneg file). destruct (fill_found _ _ _ _ _ B E) as (N & [(Z0 & Nr)|(k & K & L & _ & X)]).
  - split; [exact N|]. rewrite Z0. unfold I32_MAX. destruct r; lia.
  - split; [exact N|]. pose proof (zlen_nonneg (d_buf s)). assert (k <= I32_MAX). { destruct K as (v & ks & a & HC & Za & ->). exact (count_small file B v ks HC 3 a Za). }
    unfold I32_MAX in *. destruct r; lia.
Qed.
(** The strings need not be there: 26 bytes, accepted, and 2147483647 entries. *)
Theorem C86_size_refuted : exists file c s t, bytes file /\ zlen file = 26 /\ CostModel.code_read (start None file) = ((Ok c, s), t) /\ 2147483647 <= filled t.
Proof.
  destruct C71_cache_refuted as (c & A & L & _). apply accepted_run in A. destruct A as (s & A). exists bomb, c, s. pose proof (C78_same None bomb) as S1.
  destruct (CostModel.code_read (start None bomb)) as [rs t] eqn:E. cbn [fst] in S1. rewrite A in S1. subst rs. exists t. assert (B : bytes bomb) by (unfold bytes, is_byte, bomb; repeat constructor; lia).
  split; [exact B|]. split; [exact L|]. split; [reflexivity|]. refine (proj1 (C86_accepted None bomb c s t 2147483647 B _ E)).
  exists 2, [1; 0; 0; 2147483647], 2147483647. split; [|split; reflexivity]. exists [[1]; [0]; [0]; [255; 255; 255; 127]], (skipn 11 bomb). split; reflexivity.
Qed.

(** The vector of a crash is counted in full: a function announced with 2147483647 operations, and debug information. *)
Definition crash_file : list Z := [72; 76; 66; 2; 1; 0; 0; 0; 1; 0; 0; 1; 0] ++ [0; 0; 0; 0] ++ [0; 0; 0; 0; 0] ++ [0] ++ [0; 160; 1; 0; 255; 255; 255; 127].
Lemma debug_crash n s : 1 <= n -> d_buf s = [] -> CostModel.debug_infos n s = ((Panic PUnwrap, s), {| turns := 1; copied := 0; filled := 2 * n |}).
Proof.
  intros Hn Hb. destruct s as [buf p c e l]. cbn [d_buf] in Hb. subst buf. unfold CostModel.debug_infos. generalize (zrepeat 0 (2 * n)). intros zs. cbn [length DecoderModel.d_buf CostModel.debug_loop].
  rewrite (proj2 (Z.ltb_lt 0 n)) by lia. change ((Panic PUnwrap, {| d_buf := []; d_pos := p; d_code := c; errs := e; d_log := l |}, plus {| turns := 0; copied := 0; filled := Z.max 0 (2 * n) |} {| turns := 1; copied := 0; filled := 0 |}) = (@Panic derr (list Z) PUnwrap, {| d_buf := []; d_pos := p; d_code := c; errs := e; d_log := l |}, {| turns := 1; copied := 0; filled := 2 * n |})).
  unfold plus. cbn [turns copied filled]. do 2 f_equal. lia.
Qed.
Lemma bind_goes A B (x : CostModel.M A) (y : A -> CostModel.M B) s a s1 t1 q s' t2 : x s = ((Ok a, s1), t1) -> y a s1 = ((Panic q, s'), t2) -> CostModel.bind x y s = ((Panic q, s'), plus t1 t2).
Proof. intros E1 E2. unfold CostModel.bind. now rewrite E1, E2. Qed.
Lemma bind_stops A B (x : CostModel.M A) (y : A -> CostModel.M B) s q s' t : x s = ((Panic q, s'), t) -> CostModel.bind x y s = ((Panic q, s'), t).
Proof. intros E. unfold CostModel.bind. now rewrite E. Qed.
Lemma panic_loop A (x : Z -> A -> CostModel.M A) acc s q s' t : x 0 acc s = ((Panic q, s'), t) -> CostModel.for_range 1 x acc s = ((Panic q, s'), plus {| turns := 1; copied := 0; filled := 0 |} t).
Proof. intros E. unfold CostModel.for_range. change (Z.to_nat 1) with 1%nat. cbn [CostModel.for_loop]. eapply bind_goes; [reflexivity|]. now apply bind_stops. Qed.
Lemma panic_mapped A (x : CostModel.M A) s q s' t : x s = ((Panic q, s'), t) -> CostModel.ok_mapped x s = ((Panic q, s'), t).
Proof. intros E. unfold CostModel.ok_mapped, CostModel.on, ok_mapped. now rewrite E. Qed.
Theorem C86_crash : bytes crash_file /\ zlen crash_file = 31 /\ declares_strings crash_file 0 /\
  exists q s t, CostModel.code_read (start None crash_file) = ((Panic q, s), t) /\ filled t = 4294967295.
Proof.
  split; [unfold bytes, is_byte, crash_file; repeat constructor; lia|]. split; [reflexivity|]. split.
  { exists 2, [1; 0; 0; 0], 0. split; [|split; reflexivity]. exists [[1]; [0]; [0]; [0]], (skipn 8 crash_file). split; reflexivity. }
  eexists _, _, _. split.
  { unfold CostModel.code_read. cbv zeta. do 7 (eapply bind_goes; [vm_compute; reflexivity|]). do 3 (eapply bind_goes; [vm_compute; reflexivity|]).
    eapply bind_stops. unfold CostModel.read_functions. eapply bind_stops. eapply panic_loop. unfold CostModel.read_function_entry. do 5 (eapply bind_goes; [vm_compute; reflexivity|]). eapply bind_stops.
    match goal with |- context [negb ?b] => change b with false end. cbn [negb]. eapply bind_goes; [vm_compute; reflexivity|]. eapply bind_stops. eapply panic_mapped. apply debug_crash; [vm_compute; discriminate|reflexivity]. }
  vm_compute. reflexivity.
Qed.
Example C86_ex : exists c s t, CostModel.code_read (start None (enc_module ex_mod)) = ((Ok c, s), t) /\ declares_strings (enc_module ex_mod) 3 /\ zlen (enc_module ex_mod) - zlen (d_buf s) = 131 /\ filled t = 21.
Proof.
  do 3 eexists. split; [vm_compute; reflexivity|]. split; [|split; vm_compute; reflexivity].
  exists 5, [1; 2; 1; 3], 3. split; [|split; reflexivity]. exists (map (fun b => [b]) [1; 2; 1; 3]), (skipn 8 (enc_module ex_mod)). split; vm_compute; reflexivity.
Qed.
