(** Theorem C81: the build profile (overflow checks on or off) does not change what a reader returns.
    Models: CodeModel.v (checks on), ReleaseModel.v (checks off). *)
From Verif Require Import Prelude StdModel BrassTypes DecoderModel CodeModel ReleaseModel FormatSpec ReaderSpec.
From Verif Require Import CodeGenericProofs PropsModule PropsErr.
From Coq Require Import Lia ZifyBool.

(** Without overflow, the release build does the same. *)
Definition Sim {A} (m m' : M A) : Prop := forall s, bytes (d_buf s) -> (exists s', m s = (Panic POverflow, s')) \/ m' s = m s.

Lemma sim_refl {A} (m : M A) : Sim m m. Proof. intros s _. now right. Qed.
Lemma sim_bind {A B} (P : A -> Prop) (m m' : M A) (k k' : A -> M B) :
  (forall s a s', bytes (d_buf s) -> m s = (Ok a, s') -> bytes (d_buf s') /\ P a) -> Sim m m' -> (forall a, P a -> Sim (k a) (k' a)) -> Sim (bind m k) (bind m' k').
Proof.
  intros G S K s Bs. unfold bind. destruct (S s Bs) as [(s' & E)|E]; [rewrite E; eauto|]. rewrite E.
  destruct (m s) as [[a|e|p] s1] eqn:Em; [|now right|now right]. destruct (G _ _ _ Bs Em) as [B1 Pa]. exact (K a Pa s1 B1).
Qed.
Lemma good_post {A} w (m : M A) : Good w m -> forall s a s', bytes (d_buf s) -> m s = (Ok a, s') -> bytes (d_buf s') /\ True.
Proof. intros G s a s' B E. split; [|exact I]. eapply fwd_bytes; eauto. eapply g_fwd; eauto. Qed.
(** The same action first. *)
Lemma sim_same {A B} (m : M A) (k k' : A -> M B) : Good true m -> (forall a, Sim (k a) (k' a)) -> Sim (bind m k) (bind m k').
Proof. intros G K. eapply sim_bind; [apply (good_post _ _ G)|apply sim_refl|auto]. Qed.
Lemma sim_ok_mapped {A} (m m' : M A) : Sim m m' -> Sim (ok_mapped m) (ok_mapped m').
Proof. intros S s B. unfold ok_mapped. destruct (S s B) as [(s' & E)|E]; rewrite E; eauto. Qed.
Lemma sim_for_loop {A} n : forall i (body body' : Z -> A -> M A) acc, (forall i a, Good true (body i a)) -> (forall i a, Sim (body i a) (body' i a)) ->
  Sim (for_loop n i body acc) (for_loop n i body' acc).
Proof.
  induction n as [|n IH]; intros i body body' acc G S; cbn [for_loop]; [apply sim_refl|].
  eapply sim_bind; [apply (good_post true); auto|auto|auto].
Qed.

Lemma u8_byte s a s' : bytes (d_buf s) -> unwrap decode_u8 s = (Ok a, s') -> bytes (d_buf s') /\ 0 <= a < 256.
Proof.
  intros B. unfold unwrap, decode_u8, decode_unsigned, bind, read_bytes. destruct (d_buf s) as [|b r] eqn:Eb; [discriminate|].
  replace (zlen (b :: r) <? 1) with false by (unfold zlen; cbn [length]; lia). cbn -[Z.mul]. intros E. inversion E; subst. cbn. inversion B; subst.
  split; [assumption|]. unfold is_byte in *. lia.
Qed.
Lemma wrapping_add x y : 0 <= x + y -> x + y <= I32_MAX -> i32_wrapping_add x y = x + y.
Proof.
  unfold I32_MAX. intros H0 H. unfold i32_wrapping_add. rewrite Z.mod_small by lia. change (2 ^ 31) with 2147483648. now replace (x + y <? 2147483648) with true by lia.
Qed.

Lemma sim_add {A} x y (k : Z -> M A) (k' : Z -> M A) : 0 <= x + y -> Sim (k (x + y)) (k' (x + y)) -> Sim (bind (i32_add x y) k) (k' (i32_wrapping_add x y)).
Proof.
  intros H S s B. unfold i32_add, bind. destruct (Z.ltb_spec I32_MAX (x + y)) as [O|O]; [left; cbn; eauto|]. rewrite wrapping_add by lia. now apply S.
Qed.
Lemma sim_debug_loop fuel : forall nops i f l d, 0 <= l ->
  Sim (debug_loop fuel nops i f l d) (release_debug_loop fuel nops i f l d).
Proof.
  induction fuel as [|fuel IH]; intros nops i f l d Hl; cbn [debug_loop release_debug_loop]; [apply sim_refl|].
  destruct (i <? nops); [|apply sim_refl].
  eapply sim_bind with (P := fun a => 0 <= a < 256); [apply u8_byte|apply sim_refl|]. intros c Hc.
  destruct (negb (Z.land c 1 =? 0)).
  { repeat (apply sim_same; [good|intros]). apply IH. exact Hl. }
  destruct (negb (Z.land c 2 =? 0)).
  { assert (0 <= Z.shiftr c 6) by (apply Z.shiftr_nonneg; lia). cbv zeta. repeat (apply sim_same; [solve [good]|intros]).
    apply (sim_add l (Z.shiftr c 6) _ (fun x => release_debug_loop fuel nops i f x d)); [lia|]. apply IH. lia. }
  destruct (negb (Z.land c 4 =? 0)).
  { assert (0 <= Z.shiftr c 3) by (apply Z.shiftr_nonneg; lia). cbv zeta.
    apply (sim_add l (Z.shiftr c 3) _ (fun x => bind (debug_store d i f x) (fun d' => release_debug_loop fuel nops (i + 1) f x d'))); [lia|].
    apply sim_same; [apply good_debug_store|]. intros d'. apply IH. lia. }
  eapply sim_bind with (P := fun a => 0 <= a < 256); [apply u8_byte|apply sim_refl|]. intros b2 H2.
  eapply sim_bind with (P := fun a => 0 <= a < 256); [apply u8_byte|apply sim_refl|]. intros b3 H3.
  apply sim_same; [apply good_debug_store|]. intros d'. apply IH.
  rewrite !Z.lor_nonneg. repeat split; [apply Z.shiftr_nonneg; lia| |lia]. apply Z.mod_pos_bound. lia.
Qed.
Lemma sim_debug_infos n : Sim (debug_infos n) (release_debug_infos n).
Proof. intros s B. apply sim_debug_loop; [lia|exact B]. Qed.
Lemma sim_function_entry i c : Sim (read_function_entry i c) (release_function_entry i c).
Proof.
  unfold read_function_entry, release_function_entry.
  apply sim_same; [good|intros _]. apply sim_same; [apply good_unwrap_mapped, good_read_function|intros f].
  apply sim_same; [good|intros dc]. apply sim_same; [good|intros _]. apply sim_same; [good|intros dc'].
  destruct (negb (c_hasdebug dc' =? 0)); [|apply sim_refl].
  eapply sim_bind with (P := fun _ => True); [| |intros; apply sim_refl].
  - apply (good_post true). apply good_bind; [good|intros fi]. apply good_bind; [apply good_ok_mapped, good_debug_infos|intros r]. destruct r; good; apply good_skip_assigns.
  - apply sim_same; [good|intros fi].
    eapply sim_bind with (P := fun _ => True); [apply (good_post true), good_ok_mapped, good_debug_infos|apply sim_ok_mapped, sim_debug_infos|intros; apply sim_refl].
Qed.
Lemma sim_functions c : Sim (read_functions c) (release_functions c).
Proof.
  unfold read_functions, release_functions. eapply sim_bind with (P := fun _ => True); [| |intros; apply sim_refl].
  - apply (good_post true). apply good_for_range. intros. apply good_read_function_entry.
  - unfold for_range. apply sim_for_loop; intros; [apply good_read_function_entry|apply sim_function_entry].
Qed.
Lemma sim_code_read : Sim code_read release_code_read.
Proof.
  unfold code_read, release_code_read. cbv zeta.
  apply sim_same; [apply good_read_magic|intros]. apply sim_same; [apply good_read_counts|intros]. apply sim_same; [apply good_read_ints|intros].
  apply sim_same; [apply good_read_floats|intros]. apply sim_same; [apply good_read_string_table|intros]. apply sim_same; [apply good_read_bytes_section|intros].
  apply sim_same; [apply good_read_debugfiles|intros]. apply sim_same; [apply good_read_types|intros]. apply sim_same; [apply good_read_globals|intros].
  apply sim_same; [apply good_read_natives|intros].
  eapply sim_bind with (P := fun _ => True); [apply (good_post true), good_read_functions|apply sim_functions|intros; apply sim_refl].
Qed.

(** * C81 *)
(** Whatever the checked build does other than crash with an arithmetic overflow, the unchecked build does the same ... *)
Theorem C81_profile old file : bytes file -> fst (read_module old file) = Panic POverflow \/ release_read_module old file = read_module old file.
Proof.
  intros B. unfold read_module, release_read_module. destruct (sim_code_read (start old file) B) as [(s' & E)|E]; rewrite E; auto.
Qed.
(** ... so for files below 64 MiB the profile does not matter, ... *)
Theorem C81_small old file : bytes file -> zlen file < 2 ^ 26 -> release_read_module old file = read_module old file.
Proof.
  intros B L. destruct (C81_profile old file B) as [P|]; [|auto]. exfalso. destruct (read_module old file) as [r cell] eqn:E. cbn in P. subst r.
  destruct (C64_kinds old file POverflow cell B E) as [?|[?|[[? _]|[_ ?]]]]; try discriminate. lia.
Qed.
(** ... and no accepted module changes, whatever the size of its file. *)
Theorem C81_accepted old file c : bytes file -> fst (read_module old file) = Ok c -> release_read_module old file = read_module old file.
Proof. intros B A. destruct (C81_profile old file B) as [P|]; [congruence|auto]. Qed.

(** Above that size it does: here is a file, for every [n], with one type, one function of one instruction, and [n] debug records
    of one byte that each advance the line by three. *)
Definition long_debug_head : list Z :=
  [72; 76; 66; 2] ++ [1; 0; 0; 0; 1; 0; 0; 1; 0] (* debug flag, one type, one function *)
  ++ [0; 0; 0; 0] (* no strings *) ++ [0; 0; 0; 0; 0] (* no debug files *) ++ [0] (* type 0: void *).
Definition long_debug_function : list Z := [0; 0; 0; 1] ++ [66] (* one instruction: label *).
Definition long_debug_file (n : Z) : list Z := long_debug_head ++ long_debug_function ++ zrepeat 194 n ++ [4].

Lemma u8_cons b r p c e lg : unwrap decode_u8 {| d_buf := b :: r; d_pos := p; d_code := c; errs := e; d_log := lg |}
  = (Ok b, {| d_buf := r; d_pos := p + 1; d_code := c; errs := e; d_log := lg |}).
Proof.
  unfold unwrap, decode_u8, decode_unsigned, bind, read_bytes. cbn [d_buf d_pos d_code errs d_log].
  replace (zlen (b :: r) <? 1) with false by (unfold zlen; cbn [length]; lia). change (Z.to_nat 1) with 1%nat. cbn [firstn skipn ret from_le]. now rewrite Z.mul_0_r, Z.add_0_r.
Qed.
Lemma long_checked k : forall fuel l d tail p c, 0 <= l <= I32_MAX -> I32_MAX < l + 3 * Z.of_nat k -> (k < fuel)%nat ->
  exists s', debug_loop fuel 1 0 (-1) l d (mk (repeat 194 k ++ tail) p c) = (Panic POverflow, s').
Proof.
  induction k as [|k IH]; intros fuel l d tail p c Hl Hk Hf; [lia|]. destruct fuel as [|fuel]; [lia|]. cbn [debug_loop repeat app].
  change (0 <? 1) with true. cbv iota. unfold mk, bind at 1. rewrite u8_cons.
  change (negb (Z.land 194 1 =? 0)) with false. change (negb (Z.land 194 2 =? 0)) with true. cbv iota zeta.
  change (Z.shiftr 194 6) with 3. change (1 <? 0 + Z.land (Z.shiftr 194 2) 15) with false. cbv iota.
  unfold get_pos, ret, bind, i32_add. destruct (Z.ltb_spec I32_MAX (l + 3)) as [O|O]; [cbn; eauto|].
  apply IH; lia.
Qed.
Lemma long_unchecked k : forall fuel l d tail p c, 0 <= l -> 0 <= l + 3 * Z.of_nat k < 2 ^ 32 -> (k < fuel)%nat ->
  release_debug_loop fuel 1 0 (-1) (i32_wrapping_add l 0) d (mk (repeat 194 k ++ tail) p c)
  = release_debug_loop (fuel - k) 1 0 (-1) (i32_wrapping_add l (3 * Z.of_nat k)) d (mk tail (p + Z.of_nat k) c).
Proof.
  induction k as [|k IH]; intros fuel l d tail p c Hl Hk Hf.
  { cbn [repeat app]. rewrite Nat.sub_0_r. now rewrite Z.mul_0_r, Z.add_0_r. }
  destruct fuel as [|fuel]; [lia|]. cbn [release_debug_loop repeat app].
  change (0 <? 1) with true. cbv iota. unfold mk, bind at 1. rewrite u8_cons.
  change (negb (Z.land 194 1 =? 0)) with false. change (negb (Z.land 194 2 =? 0)) with true. cbv iota zeta.
  change (Z.shiftr 194 6) with 3. change (1 <? 0 + Z.land (Z.shiftr 194 2) 15) with false. cbv iota.
  unfold get_pos, ret at 1, bind at 1 2. cbn [d_pos].
  replace (i32_wrapping_add (i32_wrapping_add l 0) 3) with (i32_wrapping_add (l + 3) 0).
  2:{ unfold i32_wrapping_add. rewrite !Z.add_0_r. change (2 ^ 32) with 4294967296. change (2 ^ 31) with 2147483648.
      rewrite (Z.mod_small l) by lia. rewrite (Z.mod_small (l + 3)) by lia. destruct (Z.ltb_spec l 2147483648).
      - now rewrite Z.mod_small by lia.
      - replace (l - 4294967296 + 3) with (l + 3 + (-1) * 4294967296) by lia. rewrite Z_mod_plus_full, Z.mod_small by lia. reflexivity. }
  cbn [Nat.sub]. change {| d_buf := repeat 194 k ++ tail; d_pos := p + 1; d_code := c; errs := None; d_log := [] |} with (mk (repeat 194 k ++ tail) (p + 1) c).
  etransitivity; [exact (IH fuel (l + 3) d tail (p + 1) c ltac:(lia) ltac:(lia) ltac:(lia))|].
  replace (p + 1 + Z.of_nat k) with (p + Z.of_nat (S k)) by lia. replace (l + 3 + 3 * Z.of_nat k) with (l + 3 * Z.of_nat (S k)) by lia.
  unfold i32_wrapping_add at 1. unfold i32_wrapping_add. now replace (l + 3 + 3 * Z.of_nat k) with (l + 3 * Z.of_nat (S k)) by lia.
Qed.

(** The phases before the functions, and the function itself. *)
Definition head_phases : M code :=
  c <- read_magic code_new ;; c <- read_counts c ;; c <- read_ints c ;; c <- read_floats c ;; c <- read_string_table c ;;
  c <- read_bytes_section c ;; c <- read_debugfiles c ;; c <- read_types c ;; c <- read_globals c ;; c <- read_natives c ;; ret c.
Definition function_phase (c : code) : M code :=
  put_code c ;;; f <- unwrap_mapped read_function ;; dc <- get_code ;; put_code (set_functions (c_functions dc ++ [f]) dc) ;;; get_code.
Lemma good_head_phases : Good true head_phases. Proof. unfold head_phases. good. Qed.
Lemma good_function_phase c : Good true (function_phase c). Proof. unfold function_phase. good. Qed.
Ltac phase := match goal with |- context [match ?m with pair _ _ => _ end] => lazymatch m with context [match _ with _ => _ end] => fail | _ => destruct m as [[?|?|?] ?] end end.
Lemma code_read_split s : code_read s = bind head_phases (fun c => c <- read_functions c ;; c <- read_constants c ;; get_code) s.
Proof. unfold code_read, head_phases. cbv zeta. unfold bind, ret. repeat phase; reflexivity. Qed.
Lemma release_split s : release_code_read s = bind head_phases (fun c => c <- release_functions c ;; c <- read_constants c ;; get_code) s.
Proof. unfold release_code_read, head_phases. cbv zeta. unfold bind, ret. repeat phase; reflexivity. Qed.

Definition head_code : code := match fst (head_phases (start None long_debug_head)) with Ok c => c | _ => code_new end.
Definition fun_code : code := match fst (function_phase head_code (mk long_debug_function 23 head_code)) with Ok c => c | _ => code_new end.
Lemma run_suffix {A} (m : M A) pre p c a c' ext : Good true m -> bytes pre -> bytes ext -> m (mk pre p c) = (Ok a, mk [] (p + zlen pre) c') ->
  m (mk (pre ++ ext) p c) = (Ok a, mk ext (p + zlen pre) c').
Proof.
  intros G B1 B2 E. destruct (g_local _ _ G (mk pre p c) _ _ B1 E eq_refl) as (u & U & L). cbn [d_buf mk] in U. rewrite app_nil_r in U. subst u.
  exact (L ext B2).
Qed.
Lemma phase_split {B} c (k : code -> M B) s :
  (put_code c ;;; f <- unwrap_mapped read_function ;; dc <- get_code ;; put_code (set_functions (c_functions dc ++ [f]) dc) ;;; dc <- get_code ;; k dc) s
  = bind (function_phase c) k s.
Proof. unfold function_phase, bind, put_code, get_code. destruct (unwrap_mapped read_function _) as [[f|e|p] s']; reflexivity. Qed.
Lemma entry_split i c s : read_function_entry i c s = bind (function_phase c) (fun dc =>
  (if negb (c_hasdebug dc =? 0) then
     fi <- expect PIndex (znth (c_functions dc) i) ;;
     r <- ok_mapped (debug_infos (hf_nops fi)) ;;
     (match r with
      | Some d => dc <- get_code ;; fi <- expect PIndex (znth (c_functions dc) i) ;;
                  fs <- expect PIndex (zset (c_functions dc) i (hf_set_debug fi d)) ;; put_code (set_functions fs dc)
      | None => ret tt
      end) ;;;
     (if 3 <=? c_version dc then skip_assigns else ret tt)
   else ret tt) ;;; get_code) s.
Proof. unfold read_function_entry. now rewrite <- phase_split. Qed.
Lemma release_entry_split i c s : release_function_entry i c s = bind (function_phase c) (fun dc =>
  (if negb (c_hasdebug dc =? 0) then
     fi <- expect PIndex (znth (c_functions dc) i) ;;
     r <- ok_mapped (release_debug_infos (hf_nops fi)) ;;
     (match r with
      | Some d => dc <- get_code ;; fi <- expect PIndex (znth (c_functions dc) i) ;;
                  fs <- expect PIndex (zset (c_functions dc) i (hf_set_debug fi d)) ;; put_code (set_functions fs dc)
      | None => ret tt
      end) ;;;
     (if 3 <=? c_version dc then skip_assigns else ret tt)
   else ret tt) ;;; get_code) s.
Proof. unfold release_function_entry. now rewrite <- phase_split. Qed.

Lemma bytes_long n : bytes (zrepeat 194 n ++ [4]).
Proof. apply Forall_app. split; [|repeat constructor; unfold is_byte; lia]. apply Forall_forall. intros x H. apply repeat_spec in H. subst. unfold is_byte; lia. Qed.
Lemma bytes_fun n : bytes (long_debug_function ++ zrepeat 194 n ++ [4]).
Proof. apply Forall_app. split; [repeat constructor; unfold is_byte; lia|apply bytes_long]. Qed.
Lemma run_head n : head_phases (start None (long_debug_file n)) = (Ok head_code, mk (long_debug_function ++ zrepeat 194 n ++ [4]) 23 head_code).
Proof.
  change (start None (long_debug_file n)) with (mk (long_debug_head ++ long_debug_function ++ zrepeat 194 n ++ [4]) 0 code_new).
  apply (run_suffix head_phases long_debug_head 0 code_new); [apply good_head_phases|repeat constructor; unfold is_byte; lia|apply bytes_fun|vm_compute; reflexivity].
Qed.
Lemma run_function n : function_phase head_code (mk (long_debug_function ++ zrepeat 194 n ++ [4]) 23 head_code) = (Ok fun_code, mk (zrepeat 194 n ++ [4]) 28 fun_code).
Proof.
  apply (run_suffix (function_phase head_code) long_debug_function 23 head_code); [apply good_function_phase|repeat constructor; unfold is_byte; lia|apply bytes_long|vm_compute; reflexivity].
Qed.

(** The checked build crashes on it as soon as the line number overflows ... *)
Theorem C81_overflow_refuted n : 2 ^ 31 <= 3 * n -> fst (read_module None (long_debug_file n)) = Panic POverflow.
Proof.
  intros H. change (2 ^ 31) with 2147483648 in H. unfold read_module. rewrite code_read_split. unfold bind at 1. rewrite run_head. unfold read_functions, for_range.
  change (Z.to_nat (c_nfunctions head_code)) with 1%nat. cbn [for_loop]. unfold bind at 1 2 3. rewrite entry_split. unfold bind at 1. rewrite run_function.
  change (negb (c_hasdebug fun_code =? 0)) with true. cbv iota.
  destruct (long_checked (Z.to_nat n) (S (length (zrepeat 194 n ++ [4]))) 0 (zrepeat 0 (2 * 1)) [4] 28 fun_code) as (s' & E);
    [unfold I32_MAX; lia|unfold I32_MAX; lia|unfold zrepeat; rewrite app_length, repeat_length; lia|].
  assert (D : exists s', ok_mapped (debug_infos 1) (mk (zrepeat 194 n ++ [4]) 28 fun_code) = (Panic POverflow, s')).
  { exists s'. unfold ok_mapped, debug_infos. cbn [d_buf mk]. unfold zrepeat in E |- *. rewrite E. reflexivity. }
  clear E. destruct D as (s2 & D).
  change (expect PIndex (znth (c_functions fun_code) 0)) with (@ret hl_function (hd (mkFun vt_default 0 0 0 0 [] [] [] None None) (c_functions fun_code))).
  unfold bind at 1 2 3, ret at 1. change (hf_nops (hd (mkFun vt_default 0 0 0 0 [] [] [] None None) (c_functions fun_code))) with 1. unfold bind at 1. rewrite D. reflexivity.
Qed.
(** ... while the unchecked build accepts it with a negative line number. *)
Theorem C81_wrap_refuted n : 2 ^ 31 <= 3 * n < 2 ^ 32 ->
  exists c, release_read_module None (long_debug_file n) = (Ok c, None) /\ map hf_debug (c_functions c) = [[-1; 3 * n - 2 ^ 32]].
Proof.
  intros H. change (2 ^ 31) with 2147483648 in H. change (2 ^ 32) with 4294967296 in *.
  set (v := 3 * n - 4294967296).
  assert (D : release_debug_infos 1 (mk (zrepeat 194 n ++ [4]) 28 fun_code) = (Ok [-1; v], mk [] (28 + n + 1) fun_code)).
  { unfold release_debug_infos. cbn [d_buf mk].
    pose proof (long_unchecked (Z.to_nat n) (S (length (zrepeat 194 n ++ [4]))) 0 (zrepeat 0 (2 * 1)) [4] 28 fun_code ltac:(lia) ltac:(change (2 ^ 32) with 4294967296; lia)
      ltac:(unfold zrepeat; rewrite app_length, repeat_length; lia)) as E.
    change (i32_wrapping_add 0 0) with 0 in E. unfold zrepeat in *. etransitivity; [exact E|]. clear E.
    rewrite app_length, repeat_length. cbn [length]. replace (S (Z.to_nat n + 1) - Z.to_nat n)%nat with 2%nat by lia. rewrite Z2Nat.id by lia.
    replace (i32_wrapping_add 0 (3 * n)) with v.
    2:{ unfold i32_wrapping_add, v. rewrite Z.add_0_l. change (2 ^ 32) with 4294967296. change (2 ^ 31) with 2147483648. rewrite Z.mod_small by lia.
        now replace (3 * n <? 2147483648) with false by lia. }
    cbn [release_debug_loop]. change (0 <? 1) with true. cbv iota. unfold mk, bind at 1. rewrite u8_cons.
    change (negb (Z.land 4 1 =? 0)) with false. change (negb (Z.land 4 2 =? 0)) with false. change (negb (Z.land 4 4 =? 0)) with true. cbv iota zeta.
    change (Z.shiftr 4 3) with 0.
    replace (i32_wrapping_add v 0) with v.
    2:{ unfold i32_wrapping_add, v. rewrite Z.add_0_r. change (2 ^ 32) with 4294967296. change (2 ^ 31) with 2147483648.
        replace (3 * n - 4294967296) with (3 * n + (-1) * 4294967296) by lia. rewrite Z_mod_plus_full, Z.mod_small by lia. now replace (3 * n <? 2147483648) with false by lia. }
    reflexivity. }
  unfold release_read_module. rewrite release_split. unfold bind at 1. rewrite run_head. unfold release_functions, for_range.
  change (Z.to_nat (c_nfunctions head_code)) with 1%nat. cbn [for_loop].
  assert (F : exists c s', release_function_entry 0 head_code (mk (long_debug_function ++ zrepeat 194 n ++ [4]) 23 head_code) = (Ok c, s')
     /\ d_code s' = c /\ errs s' = None /\ c_nconstants c = 0 /\ map hf_debug (c_functions c) = [[-1; v]]).
  { rewrite release_entry_split. unfold bind at 1. rewrite run_function.
    change (negb (c_hasdebug fun_code =? 0)) with true. cbv iota.
    change (expect PIndex (znth (c_functions fun_code) 0)) with (@ret hl_function (hd (mkFun vt_default 0 0 0 0 [] [] [] None None) (c_functions fun_code))).
    unfold bind at 1 2, ret at 1. change (hf_nops (hd (mkFun vt_default 0 0 0 0 [] [] [] None None) (c_functions fun_code))) with 1. unfold bind at 1, ok_mapped.
    rewrite D. change (3 <=? c_version fun_code) with false. clearbody v. clear. 
    do 2 eexists. split; [vm_compute; reflexivity|]. repeat split. }
  destruct F as (c & s' & F & E1 & E2 & E3 & E4). exists c. unfold bind, ret. rewrite F. unfold check_error. rewrite E2.
  unfold read_constants, for_range. rewrite E3. cbn. now rewrite E1, E2.
Qed.
(** The hypotheses are met, and a smaller file of the same shape is read alike by both builds. *)
Example C81_ex : (2 ^ 31 <= 3 * 715827883 < 2 ^ 32) /\ (let f := long_debug_file 40 in
  release_read_module None f = read_module None f /\ exists c, fst (read_module None f) = Ok c /\ map hf_debug (c_functions c) = [[-1; 120]]).
Proof. split; [lia|]. vm_compute. split; [reflexivity|]. eexists. split; reflexivity. Qed.
