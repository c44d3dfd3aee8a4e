(** C83: functions whose type or registers do not exist. *)
From Verif Require Import Prelude StdModel BrassTypes DecoderModel CodeModel FormatSpec ReaderSpec ErrSpec GrammarSpec.
From Verif Require Import CodeGenericProofs FormatProofs StringsProofs ReaderPost ErrProofs ErrExact GrammarDen GrammarTypes GrammarNames GrammarPhases GrammarPhases2 GrammarCode BadSpec BadProofs BadHead PropsBad.
From Coq Require Import Lia ZifyBool.

Lemma head_legal head m ss fs s4 t1 t2 rest : spell_head head m ss fs -> many spell_type s4 (rm_types m) -> many ix t1 (rm_globals m) -> many spell_native t2 (rm_natives m) ->
  let ns := rs_count (rm_strings m) in let nt := zlen (rm_types m) in
  legal_types ns nt 0 (rm_types m) -> Forall (fun k => 0 <= k < nt) (rm_globals m) ->
  Forall (fun n => let '(lib, name, t, fi) := n in 0 <= lib < zlen ss /\ 0 <= name < zlen ss /\ 0 <= t < nt) (rm_natives m) ->
  let file := head ++ s4 ++ t1 ++ t2 ++ rest in bytes file -> zlen file < 2 ^ 63 ->
  exists c d, code_read (start None file) = (c <- read_functions c ;; c <- read_constants c ;; get_code) (S_ rest (zlen (head ++ s4 ++ t1 ++ t2)) d []) /\
    base (c_types c) nt ns c /\ c_strings c = ss /\ nt <= zlen (c_types c) /\ ns <= zlen (c_ustrings c) /\ nt <= I32_MAX /\ 0 <= ns <= I32_MAX /\ c_ndebugfiles c = rs_count (rm_debugfiles m) /\ rs_count (rm_debugfiles m) <= I32_MAX /\
    c_functions c = [] /\ c_nfunctions c = zlen (rm_functions m) /\ c_version c = rm_version m /\ negb (c_hasdebug c =? 0) = rm_debug m.
Proof.
  intros H M8 M9 M10 ns nt F8 F9 F10 file B L. destruct (head_front head m ss fs H) as (b1 & b2 & c6 & -> & F & D & Q1 & Q2 & Q3 & Q4 & Q5 & Q6 & Q7 & Q8 & Q9). fold ns nt in Q1, Q2, Q6.
  unfold file in *. clear file. rewrite <- app_assoc in B, L |- *.
  assert (Bb : bytes b1) by (now apply Forall_app in B). destruct (front_ready _ _ Bb F) as (Rd & E1). set (n := rs_count (rm_debugfiles m)) in *.
  assert (Hn : n <= I32_MAX). { apply (debug_part_range c6 b2) in D; auto. apply bytes_tail in B. now apply Forall_app in B. }
  assert (C : clean (start None (b1 ++ b2 ++ s4 ++ t1 ++ t2 ++ rest))) by (split; auto).
  set (ats := rm_types m) in *. set (ks := rm_globals m) in *. set (nl := rm_natives m) in *.
  assert (N0 : 0 <= zlen ks) by apply zlen_nonneg. assert (N1 : 0 <= zlen nl) by apply zlen_nonneg.
  rewrite code_read_front. rewrite (step_from _ _ _ _ _ _ _ b1 (b2 ++ s4 ++ t1 ++ t2 ++ rest) c6 code_new (den_front (fun d => d = code_new))); auto; [|split; auto].
  unfold read_back. pose proof (clean_fin _ b1 (b2 ++ s4 ++ t1 ++ t2 ++ rest) code_new C eq_refl) as C6. set (s6 := fin _ _ _ _) in *.
  rewrite (step_from _ _ _ _ _ _ s6 b2 (s4 ++ t1 ++ t2 ++ rest) (m7 c6 n fs) (dec7 c6 n fs) (den7 c6 Rd E1)); auto; [|eauto 10].
  pose proof (clean_fin s6 b2 (s4 ++ t1 ++ t2 ++ rest) (dec7 c6 n fs) C6 eq_refl) as C7. set (s7 := fin s6 _ _ _) in *.
  rewrite (step_from _ _ _ _ _ _ s7 s4 (t1 ++ t2 ++ rest) (m8 c6 n fs ats) (dec8 c6 n fs ats) (den8 c6 Rd n fs)); auto; [|exists ats; rewrite Q1, Q2; auto].
  pose proof (clean_fin s7 s4 (t1 ++ t2 ++ rest) (dec8 c6 n fs ats) C7 eq_refl) as C8. set (s8 := fin s7 _ _ _) in *.
  rewrite (step_from _ _ _ _ _ _ s8 t1 (t2 ++ rest) (m9 c6 n fs ats ks) (dec9 c6 n fs ats ks) (den9 c6 Rd n fs ats)); auto; [|exists ks; rewrite Q2, Q3; repeat split; auto; lia].
  pose proof (clean_fin s8 t1 (t2 ++ rest) (dec9 c6 n fs ats ks) C8 eq_refl) as C9. set (s9 := fin s8 _ _ _) in *.
  rewrite (step_from _ _ _ _ _ _ s9 t2 rest (m10 c6 n fs ats ks nl) (dec10 c6 n fs ats ks nl) (den10 c6 Rd E1 n fs ats ks ltac:(now rewrite Q2) ltac:(rewrite Q3; lia) ltac:(now rewrite Q2))); auto.
  2:{ exists nl. rewrite Q4. split; [lia|]. split; [auto|]. split; [|auto]. eapply Forall_impl; [|exact F10]. intros [[[a b] c] d]. unfold natR. rewrite Q1, Q2, Q5. destruct H as (? & ? & ? & ? & _ & _ & _ & _ & _ & _ & _ & _ & (Nn & T) & _). apply cuts_len in T. rewrite Z2Nat.id in T by auto. fold ns in T. lia. }
  exists (m10 c6 n fs ats ks nl), (dec10 c6 n fs ats ks nl).
  split. { f_equal. subst s9 s8 s7 s6. rewrite !fin_fin, !zlen_app. unfold fin, S_. cbn. f_equal. lia. }
  destruct (m8_parts c6 Rd n fs ats) as (P1 & P2 & P3 & P4 & P5 & P6 & P7 & P8 & P9 & P10 & P11 & P12 & P13 & P14 & P15). pose proof (ts_len c6 Rd ats) as TL.
  rewrite Q1 in P2. rewrite Q2 in P1, TL. destruct Rd as (U & R1 & R2 & _). rewrite Q1 in R1. rewrite Q2 in R2.
  assert (UL : ns <= zlen (c_ustrings (m10 c6 n fs ats ks nl))).
  { change (c_ustrings (m10 c6 n fs ats ks nl)) with (c_ustrings (m8 c6 n fs ats)). unfold m8, mk_types. destruct (mean_types (c_strings c6) [] [] ats) as [ts ins]. cbn [c_ustrings set_ustrings]. rewrite cache_len by lia. rewrite Q1. pose proof (zlen_nonneg ins). lia. }
  change (c_types (m10 c6 n fs ats ks nl)) with (c_types (m8 c6 n fs ats)). rewrite Q2 in P4. 
  split; [repeat split; auto|]. split; [change (c_strings (m10 c6 n fs ats ks nl)) with (c_strings (m8 c6 n fs ats)); congruence|].
  split; [rewrite P4; exact TL|]. split; [exact UL|]. split; [lia|]. split; [lia|]. split; [exact P5|]. split; [exact Hn|]. split; [exact P14|].
  split; [change (c_nfunctions (m10 c6 n fs ats ks nl)) with (c_nfunctions (m8 c6 n fs ats)); congruence|].
  split; [change (c_version (m10 c6 n fs ats ks nl)) with (c_version (m8 c6 n fs ats)); congruence|].
  change (c_hasdebug (m10 c6 n fs ats ks nl)) with (c_hasdebug (m8 c6 n fs ats)). congruence.
Qed.
Lemma pre_funs ts nt ns nf : nt <= zlen ts -> nt <= I32_MAX -> nf <= I32_MAX -> forall pre q c d p rest dbg, base ts nt ns c -> c_ndebugfiles c = nf -> negb (c_hasdebug c =? 0) = dbg ->
  many (spell_fun (c_version c) dbg) q pre -> Forall (legal_fun nt nf dbg) pre -> bytes (q ++ rest) -> zlen (q ++ rest) < 2 ^ 63 ->
  exists c' d', for_loop (length pre) (zlen (c_functions c)) read_function_entry c (S_ (q ++ rest) p d []) = (Ok c', S_ rest (p + zlen q) d' []) /\
    exists fs, c' = set_functions fs c /\ zlen fs = zlen (c_functions c) + zlen pre.
Proof.
  intros T1 T2 T3. induction pre as [|f pre IH]; intros q c d p rest dbg Bc Hf Hd M F By L.
  - inversion M; subst q. exists c, d. cbn [length for_loop app]. change (zlen (@nil Z)) with 0. rewrite Z.add_0_r. split; [reflexivity|]. exists (c_functions c). split; [now destruct c|]. change (zlen (@nil rfun)) with 0. lia.
  - inversion M as [|b bs x xs M1 M2]; subst. inversion F as [|x xs F1 F2]; subst. rewrite <- app_assoc in *. cbn [length for_loop].
    assert (C : clean (S_ (b ++ bs ++ rest) p d [])) by (split; [exact By|split; [exact L|reflexivity]]).
    set (c1 := set_functions (c_functions c ++ [mean_fun (c_ndebugfiles c) (negb (c_hasdebug c =? 0)) ts f]) c).
    rewrite (step_from _ _ _ _ _ _ _ b (bs ++ rest) c1 c1 (den_function_entry ts nt ns _ (fun _ => True) (zlen (c_functions c)) c T1 T2 T3 Bc eq_refl eq_refl)); auto; [|eauto 6].
    assert (L1 : zlen (c_functions c1) = zlen (c_functions c) + 1) by (unfold c1; cbn [c_functions set_functions]; rewrite zlen_app; reflexivity).
    destruct (IH bs c1 c1 (p + zlen b) rest (negb (c_hasdebug c =? 0))) as (c' & d' & R & fs & -> & Lf); auto; [now apply bytes_tail in By|rewrite zlen_app in L; pose proof (zlen_nonneg b); lia|].
    rewrite L1 in R. exists (set_functions fs c1), d'. split; [|exists fs; split; [reflexivity|rewrite Lf, L1, zlen_cons; lia]].
    rewrite zlen_app, Z.add_assoc. exact R.
Qed.
Lemma runs_regs ns nt h T l ks : 0 < nt <= I32_MAX -> manym (one Ref) l ks -> runs ns nt h T (for_range (zlen ks) (fun i regs => t <- unwrap_mapped get_type ;; vec_insert regs i t) []) l (fun _ => True).
Proof.
  intros Hnt M. apply (runs_range ns nt h T _ _ _ _ 1) with (2 := M). intros i acc l' x Hi H L.
  eapply runs_bind_r; [apply runs_unwrap_mapped, (runs_type ns nt h Hnt _ _ _ H)|intros t _]. eapply runs_weak; [apply runs_insert; lia|]. intros; cbv beta in *; lia.
Qed.
(** The last function of a module without debug information has a type or registers that do not exist,
    everything before it is fine: refused, with the last of them. *)
Theorem C83_function head m ss fs s4 t1 t2 t3 pre f lf rest : spell_head head m ss fs -> rm_debug m = false ->
  many spell_type s4 (rm_types m) -> many ix t1 (rm_globals m) -> many spell_native t2 (rm_natives m) ->
  let ns := rs_count (rm_strings m) in let nt := zlen (rm_types m) in 0 < nt ->
  legal_types ns nt 0 (rm_types m) -> Forall (fun k => 0 <= k < nt) (rm_globals m) ->
  Forall (fun n => let '(lib, name, t, fi) := n in 0 <= lib < zlen ss /\ 0 <= name < zlen ss /\ 0 <= t < nt) (rm_natives m) ->
  rm_functions m = pre ++ [f] -> many (spell_fun (rm_version m) false) t3 pre -> Forall (legal_fun nt (rs_count (rm_debugfiles m)) false) pre ->
  mark_fun lf f ->
  let before := head ++ s4 ++ t1 ++ t2 ++ t3 in let file := before ++ text_of lf ++ rest in bytes file -> zlen file < 2 ^ 63 ->
  faults ns nt (zlen before) lf <> [] ->
  exists e, last_of (faults ns nt (zlen before) lf) = Some e /\ read_module None file = (Err e, Some e).
Proof.
  intros Hh Hd M8 M9 M10 ns nt Ht F8 F9 F10 Ef M11 F11 (l1 & l2 & l3 & l4 & l5 & El & H1 & H2 & H3 & H4 & H5) before file B L NE.
  assert (E : file = head ++ s4 ++ t1 ++ t2 ++ t3 ++ text_of lf ++ rest) by (unfold file, before; now rewrite <- !app_assoc). rewrite E in B, L.
  destruct (head_legal head m ss fs s4 t1 t2 (t3 ++ text_of lf ++ rest) Hh M8 M9 M10 F8 F9 F10 B L) as (c & d & R & Bc & Cs & Tl & Ul & N1 & N2 & Nf & N3 & Ff & Nn & Nv & Nd). fold ns nt in Bc, Tl, Ul, N1, N2. rewrite <- E in R.
  set (p0 := zlen (head ++ s4 ++ t1 ++ t2)) in *. do 4 apply bytes_tail in B.
  assert (L3 : zlen (t3 ++ text_of lf ++ rest) < 2 ^ 63). { rewrite (zlen_app head), (zlen_app s4), (zlen_app t1), (zlen_app t2) in L. pose proof (zlen_nonneg head). pose proof (zlen_nonneg s4). pose proof (zlen_nonneg t1). pose proof (zlen_nonneg t2). lia. }
  rewrite Hd in Nd. rewrite <- Nv in M11. rewrite <- Nf in F11. destruct (pre_funs (c_types c) nt ns (c_ndebugfiles c) Tl N1 ltac:(lia) pre t3 c d p0 (text_of lf ++ rest) false Bc eq_refl Nd) as (c' & d' & R' & fl & -> & Lf); auto.
  rewrite Ff in R'. change (zlen (@nil hl_function)) with 0 in R'. apply bytes_tail in B. set (p1 := p0 + zlen t3) in *.
  assert (Ep : zlen before = p1) by (unfold before, p1, p0; rewrite !zlen_app; lia). rewrite Ep in NE |- *.
  set (c1 := set_functions fl c) in *. destruct Bc as (_ & Bn & Bs).
  assert (K : okc ns nt (zlen ss) (zlen (c_types c)) c1) by (repeat split; auto; change (c_strings c1) with (c_strings c); now rewrite Cs).
  destruct (last_some _ NE) as (e & Ee). exists e. split; [exact Ee|].
  assert (RF : exists h u, read_function (S_ (text_of lf ++ rest) p1 c1 []) = (Ok h, S_ rest (p1 + zlen (text_of lf)) (set_ustrings u c1) (faults ns nt p1 lf))).
  { assert (RR : runs ns nt (zlen ss) (zlen (c_types c)) (t <- unwrap get_type ;; findex <- unwrap UINDEX ;; nregs <- unwrap UINDEX ;; nops <- unwrap UINDEX ;;
       regs <- for_range nregs (fun i regs => t <- unwrap_mapped get_type ;; vec_insert regs i t) [] ;; ret (t, findex, nregs, nops, regs)) lf (fun _ => True)).
    { rewrite El. eapply runs_bind; [apply runs_unwrap, (runs_type _ _ _ (conj Ht N1) _ _ _ H1)|intros t _]. eapply runs_bind; [apply runs_unwrap, (runs_UINDEX _ _ _ _ _ _ H2)|intros fi _].
      eapply runs_bind; [apply runs_unwrap, (runs_UINDEX _ _ _ _ _ _ H3)|intros nr ->]. eapply runs_bind; [apply runs_unwrap, (runs_UINDEX _ _ _ _ _ _ H4)|intros no _].
      eapply runs_bind_r; [apply (runs_regs _ _ _ _ _ _ (conj Ht N1) H5)|intros rg _]. now apply runs_ret. }
    destruct (RR c1 p1 [] rest K B) as (x & u & Ex & _ & _). cbn [app] in Ex. unfold read_function. revert Ex. unfold bind.
    destruct (unwrap get_type _) as [[t|?|?] s1]; [|discriminate..]. destruct (unwrap UINDEX s1) as [[fi|?|?] s2]; [|discriminate..]. destruct (unwrap UINDEX s2) as [[nr|?|?] s3]; [|discriminate..].
    destruct (unwrap UINDEX s3) as [[no|?|?] s5]; [|discriminate..]. destruct (for_range nr _ [] s5) as [[rg|?|?] s6]; [|discriminate..]. unfold ret at 1. intros Ex.
    assert (E6 : s6 = S_ rest (p1 + zlen (text_of lf)) (set_ustrings u c1) (faults ns nt p1 lf)) by congruence. clear Ex. subst s6. unfold ok, check_error. cbn [errs S_]. rewrite kept_faults, Ee. eexists _, u. reflexivity. }
  destruct RF as (h & u & RF). unfold read_module. rewrite R. unfold bind at 1. unfold read_functions, for_range. rewrite Nn, to_nat_zlen, Ef, app_length. cbn [length].
  assert (W : exists c2 d2, for_loop (length pre + 1) 0 read_function_entry c (S_ (t3 ++ text_of lf ++ rest) p0 d []) = (Ok c2, S_ rest (p1 + zlen (text_of lf)) d2 (faults ns nt p1 lf))).
  { rewrite for_split. rewrite (bind_step _ _ _ _ _ R'). cbn [for_loop]. unfold bind at 1. unfold read_function_entry at 1. unfold bind at 1. rewrite put_S. unfold bind at 1, unwrap_mapped. rewrite RF.
    unfold bind at 1, get_code at 1. cbn [d_code S_]. unfold bind at 1. rewrite put_S. unfold bind at 1, get_code at 1. cbn [d_code S_].
    match goal with |- context [c_hasdebug ?x] => change (c_hasdebug x) with (c_hasdebug c) end. rewrite Nd. unfold bind at 1, ret at 1. unfold get_code at 1, ret. eexists _, _. reflexivity. }
  destruct W as (c2 & d2 & W). rewrite (bind_step _ _ _ _ _ W). rewrite end_S, kept_faults, Ee. cbn [errs S_]. now rewrite kept_faults, Ee.
Qed.

(** * Cases *)
Definition bad_mod (ats : list atype) (ks : list Z) (nl : list (Z * Z * Z * Z)) (fns : list rfun) : rmod :=
  {| rm_version := 4; rm_flags := 0; rm_ints := []; rm_floats := []; rm_strings := {| rs_count := 1; rs_text := [97; 0]; rs_sizes := [1] |}; rm_bytes := []; rm_bytes_pos := [];
     rm_debugfiles := no_strings; rm_types := ats; rm_globals := ks; rm_natives := nl; rm_functions := fns; rm_constants := []; rm_entrypoint := 0 |}.
Definition bad_head (ats : list atype) (ks : list Z) (nl : list (Z * Z * Z * Z)) (fns : list rfun) : list Z :=
  [72; 76; 66; 4; 0; 0; 0; 1; zlen ats; zlen ks; zlen nl; zlen fns; 0; 0; 2; 0; 0; 0; 97; 0; 1].
Lemma small_ix n : 0 <= n < 128 -> uix [n] n.
Proof. intros H. split; [|lia]. unfold index_value. destruct (Z.ltb_spec n 128); [reflexivity|lia]. Qed.
Lemma ascii_utf8 s : Forall (fun c => 0 <= c < 128) s -> utf8 s.
Proof.
  intros F. exists s. split; [eapply Forall_impl; [|exact F]; unfold scalar; intros; lia|]. induction F as [|c s H F IH]; [reflexivity|]. cbn [flat_map]. rewrite <- IH. unfold utf8_char. destruct (Z.ltb_spec c 128); [reflexivity|lia].
Qed.
Lemma bad_spelled ats ks nl fns : zlen ats < 128 -> zlen ks < 128 -> zlen nl < 128 -> zlen fns < 128 -> spell_head (bad_head ats ks nl fns) (bad_mod ats ks nl fns) [[97]] [].
Proof.
  intros H1 H2 H3 H4. pose proof (zlen_nonneg ats). pose proof (zlen_nonneg ks). pose proof (zlen_nonneg nl). pose proof (zlen_nonneg fns).
  exists [72; 76; 66; 4; 0; 0; 0; 1; zlen ats; zlen ks; zlen nl; zlen fns; 0; 0], [2; 0; 0; 0; 97; 0; 1], [], []. split; [reflexivity|]. split.
  { exists [0], [0], [0], [1], [], [zlen ats], [zlen ks], [zlen nl], [zlen fns], [0], [0]. cbn - [uix zlen]. split; [reflexivity|].
    repeat split; try (apply small_ix; auto; lia); cbn; lia. }
  split; [constructor|]. split; [constructor|]. split; [exists [1]; split; [reflexivity|]; split; [reflexivity|]; change [1] with ([1] ++ []) at 1; constructor; [apply small_ix; lia|constructor]|].
  split; [reflexivity|]. split; [split; reflexivity|]. split; [cbn; lia|]. split; [|split; [cbn; lia|exact I]].
  split; [cbn; lia|]. cbn. split; [|exact I]. exists [], [0]. repeat split; try reflexivity; apply ascii_utf8; repeat constructor; lia.
Qed.
Definition pc (g : mark) (n : Z) : mark * list Z := (g, [n]).
Lemma one_small g n : 0 <= n < 128 -> one g [pc g n] n. Proof. intros H. exists [n]. split; [reflexivity|]. apply small_ix. exact H. Qed.
Lemma count_small n : 0 <= n < 128 -> count [pc Plain n] n. Proof. intros H. exists [n]. split; [reflexivity|]. now apply small_ix. Qed.
(** two types, an object called string 5 with a field of type 9, and void; one global of type 7 *)
Definition bad_obj : atype := AObj false 5 (Some 0) 0 [(0, 9)] [] [].
Definition bad_obj_marks : marked := [pc Plain 11; pc Name 5; pc Plain 0; pc Plain 0; pc Plain 1; pc Plain 0; pc Plain 0; pc Name 0; pc Ref 9].
Lemma bad_obj_marked : mark_type bad_obj_marks bad_obj.
Proof.
  exists [pc Name 5], [pc Plain 0], [pc Plain 0], [pc Plain 1], [pc Plain 0], [pc Plain 0], [pc Name 0; pc Ref 9], [], []. split; [reflexivity|]. split; [now apply one_small|].
  split; [exists [0]; split; [reflexivity|]; exists 0; split; [reflexivity|reflexivity]|]. do 4 (split; [now apply count_small|]).
  split; [|split; constructor]. change [pc Name 0; pc Ref 9] with ([pc Name 0; pc Ref 9] ++ []). constructor; [|constructor]. exists [pc Name 0], [pc Ref 9]. split; [reflexivity|]. split; now apply one_small.
Qed.
Lemma void_marked : mark_type [pc Plain 0] (APrim 0). Proof. split; [reflexivity|]. unfold prim_kinds. cbn. auto. Qed.
Example C83_ex : let m := bad_mod [bad_obj; APrim 0] [7] [] [] in let lt := bad_obj_marks ++ [pc Plain 0] in
  manym mark_type lt (rm_types m) /\ supers_exist 2 0 (rm_types m) /\ manym (one Ref) [pc Ref 7] (rm_globals m) /\
  faults 1 2 21 (lt ++ [pc Ref 7]) = [err InvalidStringIndex 23; err InvalidTypeIndex 30; err InvalidTypeIndex 32] /\
  forall rest, bytes rest -> zlen rest < 2 ^ 62 ->
    read_module None (bad_head (rm_types m) [7] [] [] ++ text_of (lt ++ [pc Ref 7]) ++ rest) = (Err (err InvalidTypeIndex 32), Some (err InvalidTypeIndex 32)).
Proof.
  intros m lt. assert (H1 : manym mark_type lt (rm_types m)).
  { unfold lt. constructor; [apply bad_obj_marked|]. change [pc Plain 0] with ([pc Plain 0] ++ []). constructor; [apply void_marked|constructor]. }
  assert (H2 : supers_exist 2 0 (rm_types m)) by (cbn; lia). assert (H3 : manym (one Ref) [pc Ref 7] (rm_globals m)).
  { change [pc Ref 7] with ([pc Ref 7] ++ []). constructor; [now apply one_small|constructor]. }
  assert (H4 : faults 1 2 21 (lt ++ [pc Ref 7]) = [err InvalidStringIndex 23; err InvalidTypeIndex 30; err InvalidTypeIndex 32]) by reflexivity.
  split; [exact H1|]. split; [exact H2|]. split; [exact H3|]. split; [exact H4|]. intros rest B L.
  destruct (C83_refs (bad_head (rm_types m) [7] [] []) m [[97]] [] (bad_spelled [bad_obj; APrim 0] [7] [] [] eq_refl eq_refl eq_refl eq_refl) ltac:(reflexivity) lt [pc Ref 7] rest H1 H2 H3) as (e & E & R).
  - apply Forall_app. split; [|apply Forall_app; split; [|exact B]]; unfold is_byte; repeat constructor; cbn; lia.
  - rewrite !zlen_app. cbn - [Z.pow zlen]. unfold bad_head. repeat (rewrite zlen_cons). change (zlen (@nil Z)) with 0. lia.
  - change (faults 1 2 21 (lt ++ [pc Ref 7]) <> []). now rewrite H4.
  - change (last_of (faults 1 2 21 (lt ++ [pc Ref 7])) = Some e) in E. rewrite H4 in E. injection E as <-. exact R.
Qed.
(** The object of C83_ex with super type 2, the first index past the placeholders: a crash, and the bad name is left. *)
Example C83_super_ex : let m := bad_mod [bad_obj; APrim 0] [7] [] [] in
  forall rest, bytes rest -> zlen rest < 2 ^ 62 ->
    read_module None (bad_head (rm_types m) [7] [] [] ++ [11; 5] ++ [2] ++ rest) = (Panic PUnwrap, Some (err InvalidStringIndex 23)).
Proof.
  intros m rest B L. pose proof (C83_super (bad_head (rm_types m) [7] [] []) m [[97]] [] (bad_spelled [bad_obj; APrim 0] [7] [] [] eq_refl eq_refl eq_refl eq_refl) ltac:(reflexivity)
    [] [] [APrim 0] bad_obj false [pc Name 5] 5 [2] 2 rest eq_refl (manym_nil _) I (one_small Name 5 ltac:(lia)) eq_refl ltac:(cbn; lia)) as H.
  apply H.
  - unfold bytes. rewrite !Forall_app. split; [|split; [|split; [|exact B]]]; (match goal with |- Forall _ ?l => let l' := eval vm_compute in l in change l with l' end); repeat (apply Forall_cons; [unfold is_byte; lia|]); apply Forall_nil.
  - rewrite !zlen_app. cbn - [Z.pow zlen]. unfold bad_head. repeat (rewrite zlen_cons). change (zlen (@nil Z)) with 0. lia.
Qed.
(** A native of library 0 and name 1, the first index past the one string. *)
Example C83_natives_ex : let m := bad_mod [APrim 0] [] [(0, 1, 0, 3)] [] in
  forall rest, bytes rest -> zlen rest < 2 ^ 62 ->
    read_module None (bad_head [APrim 0] [] [(0, 1, 0, 3)] [] ++ [0; 0; 1; 0; 3] ++ rest) = (Err (err InvalidStringIndex 24), Some (err InvalidStringIndex 24)).
Proof.
  intros m rest B L. destruct (C83_natives (bad_head [APrim 0] [] [(0, 1, 0, 3)] []) m [[97]] [] (bad_spelled [APrim 0] [] [(0, 1, 0, 3)] [] eq_refl eq_refl eq_refl eq_refl) ltac:(reflexivity)
    [pc Plain 0] [] [pc Name 0; pc Name 1; pc Ref 0; pc Plain 3] rest) as (e & E & R).
  - change [pc Plain 0] with ([pc Plain 0] ++ []). constructor; [apply void_marked|constructor].
  - constructor.
  - change [pc Name 0; pc Name 1; pc Ref 0; pc Plain 3] with ([pc Name 0; pc Name 1; pc Ref 0; pc Plain 3] ++ []). constructor; [|constructor].
    exists [pc Name 0; pc Name 1; pc Ref 0], [pc Plain 3]. split; [reflexivity|]. split; [|now apply count_small]. exists [pc Name 0; pc Name 1], [pc Ref 0]. split; [reflexivity|]. split; [|now apply one_small].
    exists [pc Name 0], [pc Name 1]. split; [reflexivity|]. split; now apply one_small.
  - cbn. repeat split; constructor.
  - constructor.
  - reflexivity.
  - apply Forall_app. split; [|apply Forall_app; split; [|exact B]]; unfold is_byte; repeat constructor; cbn; lia.
  - rewrite !zlen_app. cbn - [Z.pow zlen]. unfold bad_head. repeat (rewrite zlen_cons). change (zlen (@nil Z)) with 0. lia.
  - discriminate.
  - injection E as <-. exact R.
Qed.
(** The last function has a register of type 3; there is one type. *)
Definition bad_fun : rfun := {| rf_type := 0; rf_findex := 0; rf_regs := [3]; rf_ops := [IFixed 66 []]; rf_debug := []; rf_assigns := [] |}.
Example C83_function_ex : let m := bad_mod [APrim 0] [] [] [bad_fun] in
  forall rest, bytes rest -> zlen rest < 2 ^ 62 ->
    read_module None (bad_head [APrim 0] [] [] [bad_fun] ++ [0; 0; 0; 1; 1; 3] ++ rest) = (Err (err InvalidTypeIndex 27), Some (err InvalidTypeIndex 27)).
Proof.
  intros m rest B L. destruct (C83_function (bad_head [APrim 0] [] [] [bad_fun]) m [[97]] [] [0] [] [] [] [] bad_fun [pc Ref 0; pc Plain 0; pc Plain 1; pc Plain 1; pc Ref 3] rest) as (e & E & R).
  - now apply bad_spelled.
  - reflexivity.
  - change [0] with ([0] ++ []). constructor; [split; [reflexivity|cbn; auto]|constructor].
  - constructor.
  - constructor.
  - reflexivity.
  - cbn. repeat split; constructor.
  - constructor.
  - constructor.
  - reflexivity.
  - constructor.
  - constructor.
  - exists [pc Ref 0], [pc Plain 0], [pc Plain 1], [pc Plain 1], [pc Ref 3]. split; [reflexivity|]. split; [now apply one_small|]. do 3 (split; [now apply count_small|]). change [pc Ref 3] with ([pc Ref 3] ++ []). constructor; [now apply one_small|constructor].
  - apply Forall_app. split; [|apply Forall_app; split; [|exact B]]; unfold is_byte; repeat constructor; cbn; lia.
  - rewrite !zlen_app. cbn - [Z.pow zlen]. unfold bad_head. repeat (rewrite zlen_cons). change (zlen (@nil Z)) with 0. lia.
  - discriminate.
  - injection E as <-. exact R.
Qed.
(** When another function follows, its bytes are not read where they are: the instructions of the bad
    function are taken for the next function.  Two functions of one instruction and of none; with register
    type 0 the file is accepted, with register type 3 the reader crashes. *)
Definition two_funs (r : Z) : list Z := bad_head [APrim 0] [] [] [bad_fun; bad_fun] ++ [0] ++ [0; 0; 1; 1; r; 66] ++ [0; 100; 0; 0].
Theorem C83_function_refuted :
  (forall r, 0 <= r < 128 -> exists f g, many (spell_fun 4 false) ([0; 0; 1; 1; r; 66] ++ [0; 100; 0; 0]) [f; g] /\ rf_regs f = [r]) /\
  (exists c, read_module None (two_funs 0) = (Ok c, None)) /\
  (exists e, read_module None (two_funs 3) = (Panic PUnwrap, Some e)).
Proof.
  split; [|split; eexists; vm_compute; reflexivity].
  intros r H. exists {| rf_type := 0; rf_findex := 0; rf_regs := [r]; rf_ops := [IFixed 66 []]; rf_debug := []; rf_assigns := [] |}, {| rf_type := 0; rf_findex := 100; rf_regs := []; rf_ops := []; rf_debug := []; rf_assigns := [] |}.
  split; [|reflexivity]. constructor; [|change [0; 100; 0; 0] with ([0; 100; 0; 0] ++ []); constructor; [|constructor]].
  - exists [0], [0], [1], [1], [r], [66], []. split; [reflexivity|]. split; [reflexivity|]. split; [now apply small_ix|]. split; [now apply small_ix|]. split; [now apply small_ix|].
    split; [change [r] with ([r] ++ []) at 1; constructor; [now apply small_ix|constructor]|]. split; [|auto]. change [66] with ([66] ++ []) at 1. constructor; [|constructor]. exists []. split; [reflexivity|]. split; [reflexivity|constructor].
  - exists [0], [100], [0], [0], [], [], []. split; [reflexivity|]. split; [reflexivity|]. split; [now apply small_ix|]. split; [now apply small_ix|]. split; [now apply small_ix|]. split; [constructor|]. split; [constructor|auto].
Qed.
