(** Theorem C78, in general: how often the reader's loops turn, for every file.  Model: CostModel.v (the reader of CodeModel.v with a
    counter of turns). *)
From Verif Require Import Prelude StdModel BrassTypes DecoderModel CodeModel FormatSpec ReaderSpec ErrSpec.
From Verif Require Import CodeGenericProofs FormatProofs PropsModule PropsCost CostProofs CostTurns CostQuiet.
From Verif Require CostModel.
Import CostModel(cost, turns, copied, filled, none, plus).
From Coq Require Import Lia.

(** Counts the records of missing data in a list of recorded errors. *)
Definition missing (log : list derr) : Z := zlen (filter (fun e => match e_kind e with NoMoreData => true | _ => false end) log).

(** each turn records at most one *)
Definition owes {A} (x : CostModel.M A) : Prop := forall s r s' t, bytes (d_buf s) -> x s = ((r, s'), t) -> shorts (d_log s') <= shorts (d_log s) + turns t + late r.
Lemma owes_quiet k f A (x : CostModel.M A) m : same x m -> pays k f x -> quiet m -> owes x.
Proof.
  intros S P Q s r s' t B E. destruct (P _ _ _ _ B E) as (_ & N & _). pose proof (S s) as X. rewrite E in X. cbn [fst] in X. symmetry in X. apply Q in X. lia.
Qed.
Lemma owes_bind k f A B (x : CostModel.M A) (y : A -> CostModel.M B) : pays k f x -> owes x -> (forall a, owes (y a)) -> owes (CostModel.bind x y).
Proof.
  intros P O1 O2 s r s' t Bs E. unfold CostModel.bind in E. destruct (x s) as [[[a|e|q] s1] t1] eqn:E1; destruct (P _ _ _ _ Bs E1) as (B1 & N1 & _); pose proof (O1 _ _ _ _ Bs E1) as X1.
  - destruct (y a s1) as [[r2 s2] t2] eqn:E2. pose proof (O2 a _ _ _ _ B1 E2) as X2. injection E as <- <- <-. cbn [plus turns late] in *. lia.
  - injection E as <- <- <-. exact X1.
  - injection E as <- <- <-. exact X1.
Qed.
Lemma owes_number n (dec : M Z) i l : 0 < n -> dec = decode_signed n \/ dec = decode_unsigned n ->
  owes (CostModel.bind CostModel.turn (fun _ => CostModel.bind (CostModel.ok_mapped (CostModel.free dec)) (fun r => match r with Some x => CostModel.vec_insert l i x | None => CostModel.ret l end))).
Proof.
  intros N D s r s' t B E. unfold CostModel.bind, CostModel.turn, CostModel.ok_mapped, CostModel.on, CostModel.free, ok_mapped in E.
  assert (X : (exists v s1, dec s = (Ok v, s1) /\ d_log s1 = d_log s) \/ dec s = (Err (with_info NoMoreData (d_pos s)), s)).
  { destruct D as [-> | ->]; unfold decode_signed, decode_unsigned, bind, read_bytes; destruct (Z.ltb_spec (zlen (d_buf s)) n); [right; reflexivity|left|right; reflexivity|left]; do 2 eexists; (split; reflexivity). }
  destruct X as [(v & s1 & X & El)|X]; rewrite X in E; cbn [fst snd map_err] in E.
  - unfold CostModel.vec_insert, CostModel.free, vec_insert, expect in E. destruct (zinsert l i v); injection E as <- <- <-; cbn [plus turns none late]; rewrite El; lia.
  - injection E as <- <- <-. cbn [plus turns none late d_log]. rewrite shorts_app. pose proof (shorts_one (with_info NoMoreData (d_pos s))). lia.
Qed.
Lemma owes_ret A (a : A) : owes (CostModel.ret a). Proof. apply (owes_quiet 0 0 _ _ (ret a)); [apply same_free|apply p_ret|apply q_ret]. Qed.
Lemma owes_for n (dec : M Z) : 0 < n -> dec = decode_signed n \/ dec = decode_unsigned n -> forall k i l,
  owes (CostModel.for_loop k i (fun i l => CostModel.bind (CostModel.ok_mapped (CostModel.free dec)) (fun r => match r with Some x => CostModel.vec_insert l i x | None => CostModel.ret l end)) l).
Proof.
  intros N D. induction k as [|k IH]; intros i l; cbn [CostModel.for_loop]; [apply owes_ret|].
  set (body := CostModel.bind (CostModel.ok_mapped (CostModel.free dec)) (fun r => match r with Some x => CostModel.vec_insert l i x | None => CostModel.ret l end)).
  assert (W : forall (u : unit), pays 1 0 body) by (intros _; unfold body; apply bind_c; [now apply (c_number n)|intros [x|]; mb]).
  intros s r s' t B E. apply (owes_bind 0 1 _ _ (CostModel.bind CostModel.turn (fun _ => body)) (fun l' => CostModel.for_loop k (i + 1) (fun i l => CostModel.bind (CostModel.ok_mapped (CostModel.free dec)) (fun r => match r with Some x => CostModel.vec_insert l i x | None => CostModel.ret l end)) l')) with (4 := B) (r := r) (s' := s') (t := t).
  - apply turn_b. now apply W.
  - apply (owes_number n); auto.
  - intros l'. apply IH.
  - rewrite <- E. unfold CostModel.bind, CostModel.turn. destruct (body s) as [[[a|e|q] s1] t1]; [|reflexivity|reflexivity].
    destruct (CostModel.for_loop k _ _ a s1) as [[r2 s2] t2]. f_equal. unfold plus. cbn [turns copied filled]. f_equal; lia.
Qed.
Lemma owes_ints c : owes (CostModel.read_ints c).
Proof.
  unfold CostModel.read_ints. apply (owes_bind 0 1); [apply (b_read_table 4); [lia|now left]|apply (owes_for 4); [lia|now left]|].
  intros l. apply (owes_quiet 0 1 _ _ (bind check_error (fun _ => ret (set_ints l c)))); [same|mb|q].
Qed.
Lemma owes_floats c : owes (CostModel.read_floats c).
Proof.
  unfold CostModel.read_floats. apply (owes_bind 0 1); [apply (b_read_table 8); [lia|now right]|apply (owes_for 8); [lia|now right]|].
  intros l. apply (owes_quiet 0 1 _ _ (bind check_error (fun _ => ret (set_floats l c)))); [same|mb|q].
Qed.
Lemma owes_code_read : owes CostModel.code_read.
Proof.
  unfold CostModel.code_read. cbv zeta.
  apply (owes_bind 0 1); [mb|apply (owes_quiet 0 1 _ _ (read_magic code_new)); [same|mb|q]|]. intros c1.
  apply (owes_bind 0 1); [mb|apply (owes_quiet 0 1 _ _ (read_counts c1)); [same|mb|q]|]. intros c2.
  apply (owes_bind 0 1); [mb|apply owes_ints|]. intros c3. apply (owes_bind 0 1); [mb|apply owes_floats|]. intros c4.
  apply (owes_quiet 0 1 _ _ (c <- read_string_table c4 ;; c <- read_bytes_section c ;; c <- read_debugfiles c ;; c <- read_types c ;; c <- read_globals c ;; c <- read_natives c ;; c <- read_functions c ;; c <- read_constants c ;; get_code)); [same|mb|q].
Qed.

(** * C78 *)
(** Counting does not change the reader. *)
Theorem C78_same e0 file : fst (CostModel.code_read (start e0 file)) = code_read (start e0 file).
Proof. apply same_code_read. Qed.
(** Every file whatever, read in any process: its loops turn at most once per byte read, and once per missing number, and once more if the
    reading fails; and at least once per missing number (all but one, if the reading crashes). *)
Theorem C78_turns e0 file r s t : bytes file -> CostModel.code_read (start e0 file) = ((r, s), t) ->
  0 <= turns t /\
  turns t <= (zlen file - zlen (d_buf s)) + missing (d_log s) + (match r with Ok _ => 0 | _ => 1 end) /\
  missing (d_log s) <= turns t + (match r with Panic _ => 1 | _ => 0 end).
Proof.
  intros B E. destruct (b_code_read (start e0 file) _ _ _ B E) as (_ & N & X). pose proof (owes_code_read (start e0 file) _ _ _ B E) as O.
  change (shorts (d_log (start e0 file))) with 0 in O. unfold gain in X. change (shorts (d_log (start e0 file))) with 0 in X. change (d_buf (start e0 file)) with file in X.
  change (missing (d_log s)) with (shorts (d_log s)). split; [exact N|]. unfold late in O. destruct r; lia.
Qed.
(** In a process without an earlier error, only a file cut inside a number table can make the reader turn more often than the file has bytes:
    unless it is refused with NoMoreData, at most two turns more; if it is accepted, none. *)
Theorem C78_turns_bounded file r s t : bytes file -> CostModel.code_read (start None file) = ((r, s), t) ->
  match r with
  | Ok _ => turns t <= zlen file
  | Err e => e_kind e = NoMoreData \/ turns t <= zlen file + 1
  | Panic _ => turns t <= zlen file + 2
  end.
Proof.
  intros B E. destruct (C78_turns _ _ _ _ _ B E) as (N & U & _). pose proof (C78_same None file) as S. rewrite E in S. cbn [fst] in S. symmetry in S. apply missing_told in S.
  change (shorts (d_log s)) with (missing (d_log s)) in S. pose proof (zlen_nonneg (d_buf s)). destruct r; [|destruct S|]; auto; lia.
Qed.
Lemma missing_repeat p n : missing (repeat {| e_kind := NoMoreData; e_pos := p |} n) = Z.of_nat n.
Proof. unfold missing. induction n as [|n IH]; [reflexivity|]. cbn [repeat filter e_kind]. rewrite zlen_cons, IH. lia. Qed.
(** The excess is real, and as large as a count can be: 16 bytes, at least [n] turns. *)
Theorem C78_turns_refuted b x y z : 192 <= b < 256 -> is_byte x -> is_byte y -> 0 <= z < 128 ->
  let n := b + 256 * x + 65536 * y + 16777216 * z in
  let file := small_bomb b x y z in
  exists s t, CostModel.code_read (start None file) = ((Err {| e_kind := NoMoreData; e_pos := 16 |}, s), t) /\ zlen file = 16 /\ n <= turns t <= n + 17.
Proof.
  intros Hb Hx Hy Hz. cbv zeta. assert (Bf : bytes (small_bomb b x y z)) by (unfold small_bomb, bytes; unfold is_byte in *; repeat constructor; lia).
  destruct (C78_cut_integers 2 [[0]; [b; x; y; z]; [0]; [0]; [0]; [0]; [0]; [0]; [0]] [0; b + 256 * x + 65536 * y + 16777216 * z; 0; 0; 0; 0; 0; 0; 0] (b + 256 * x + 65536 * y + 16777216 * z) []) as (s & R & Ls).
  - lia.
  - unfold small_bomb in Bf. unfold bytes in *. cbn [concat app]. now do 4 (apply Forall_inv_tail in Bf).
  - cbn [map]. unfold is_byte in *. assert (V : index_value [b; x; y; z] = Some (b + 256 * x + 65536 * y + 16777216 * z)).
    { unfold index_value. destruct (Z.leb_spec 192 b); [|lia]. cbv zeta. destruct (Z.ltb_spec (b + 256 * x + 65536 * y + 16777216 * z) 2147483648); [reflexivity|lia]. }
    rewrite V. reflexivity.
  - reflexivity.
  - unfold is_byte in *. repeat constructor; lia.
  - reflexivity.
  - unfold is_byte in *. change (zlen (@nil Z)) with 0. lia.
  - pose proof (C78_same None (small_bomb b x y z)) as S. destruct (CostModel.code_read (start None (small_bomb b x y z))) as [[r s1] t] eqn:E. cbn [fst] in S.
    change ([72; 76; 66; 2] ++ concat [[0]; [b; x; y; z]; [0]; [0]; [0]; [0]; [0]; [0]; [0]] ++ []) with (small_bomb b x y z) in R. rewrite R in S. injection S as -> ->.
    destruct (C78_turns None _ _ _ _ Bf E) as (N & U & O). cbv beta iota in U, O. rewrite Ls, missing_repeat in U, O. change (zlen (@nil Z) / 4) with 0 in U, O. change (zlen (small_bomb b x y z)) with 16 in U. pose proof (zlen_nonneg (d_buf s)).
    exists s, t. split; [reflexivity|]. split; [reflexivity|]. unfold is_byte in *. lia.
Qed.
(** An accepted file, and its turns. *)
Example C78_turns_ex : exists c s t, CostModel.code_read (start None (enc_module ex_mod)) = ((Ok c, s), t) /\ 0 < turns t <= zlen (enc_module ex_mod).
Proof.
  destruct (CostModel.code_read (start None (enc_module ex_mod))) as [[r s] t] eqn:E. vm_compute in E. injection E as <- <- <-. do 3 eexists. split; [reflexivity|]. vm_compute. split; [reflexivity|discriminate].
Qed.
