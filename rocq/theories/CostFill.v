(** Entries written by [vec![x; n]] are paid for by bytes of the file, unless the reader crashes (C86). *)
From Verif Require Import Prelude StdModel BrassTypes DecoderModel CodeModel ReaderSpec CodeGenericProofs FormatProofs CostProofs CostTurns CostWhole CostExact.
From Verif Require CostModel.
Import CostModel(cost, turns, copied, filled, none, plus).
From Coq Require Import Lia.
Local Open Scope Z_scope.
Notation len s := (zlen (d_buf s)).

(** * reading *)
Definition takes (n : Z) {A} (m : M A) : Prop := forall s a s', bytes (d_buf s) -> m s = (Ok a, s') -> n <= len s - len s'.
Lemma takes_good A (m : M A) : Good true m -> takes 0 m.
Proof. intros G s a s' B E. destruct (good_len _ _ _ _ _ G B E) as (_ & L). lia. Qed.
Lemma takes_eats A (m : M A) : eats1 m -> takes 1 m.
Proof. intros G s a s' B E. apply G in E. unfold zlen. lia. Qed.
Lemma takes_bind A B (m : M A) (k : A -> M B) n1 n2 : Good true m -> takes n1 m -> (forall a, takes n2 (k a)) -> takes (n1 + n2) (bind m k).
Proof.
  intros G T1 T2 s b s' Bs E. unfold bind in E. destruct (m s) as [[a|e|q] s1] eqn:E1; [|discriminate|discriminate].
  destruct (good_len _ _ _ _ _ G Bs E1) as (B1 & _). pose proof (T1 _ _ _ Bs E1). pose proof (T2 _ _ _ _ B1 E). lia.
Qed.
Lemma takes_first A B (m : M A) (k : A -> M B) n : Good true m -> takes n m -> (forall a, Good true (k a)) -> takes n (bind m k).
Proof. intros G T1 T2. rewrite <- (Z.add_0_r n). apply takes_bind; auto. intros a. apply takes_good, T2. Qed.
Lemma takes_then A B (m : M A) (k : A -> M B) n : Good true m -> (forall a, takes n (k a)) -> takes n (bind m k).
Proof. intros G T2. change n with (0 + n). apply takes_bind; auto. apply takes_good, G. Qed.
Lemma takes_unwrap A n (m : M A) : takes n m -> takes n (unwrap m).
Proof. intros H s a s' B E. unfold unwrap in E. destruct (m s) as [[x|e|q] s1] eqn:E1; try discriminate. injection E as <- <-. eauto. Qed.
Lemma takes_unwrap_mapped A n (m : M A) : takes n m -> takes n (unwrap_mapped m).
Proof. intros H s a s' B E. unfold unwrap_mapped in E. destruct (m s) as [[x|e|q] s1] eqn:E1; try discriminate. injection E as <- <-. eauto. Qed.
Lemma takes_ok_mapped A n (m : M A) : noerr m -> takes n m -> takes n (ok_mapped m).
Proof. intros Ne H s a s' B E. unfold ok_mapped in E. destruct (m s) as [[x|e|q] s1] eqn:E1; try discriminate. { injection E as <- <-. eauto. } exfalso. eapply Ne, E1. Qed.
Lemma takes_for A n : forall i (x : Z -> A -> M A) acc, (forall i a, Good true (x i a)) -> (forall i a, takes 1 (x i a)) -> takes (Z.of_nat n) (for_loop n i x acc).
Proof.
  induction n as [|n IH]; intros i x acc G H; cbn [for_loop]; [apply takes_good, good_ret|].
  replace (Z.of_nat (S n)) with (1 + Z.of_nat n) by lia. apply takes_bind; auto.
Qed.
Lemma takes_range A n (x : Z -> A -> M A) acc : (forall i a, Good true (x i a)) -> (forall i a, takes 1 (x i a)) -> takes n (for_range n x acc).
Proof. intros G H s a s' B E. unfold for_range in E. pose proof (takes_for _ _ _ _ _ G H _ _ _ B E). lia. Qed.
Lemma takes_INDEX : takes 1 INDEX. Proof. apply takes_eats, eats1_INDEX. Qed.
Lemma takes_UINDEX : takes 1 UINDEX. Proof. apply takes_eats, eats1_UINDEX. Qed.
Lemma takes_u8 : takes 1 decode_u8. Proof. apply takes_eats. now apply eats1_u. Qed.
Lemma takes_get_type : takes 1 get_type.
Proof. unfold get_type. apply takes_first; [good|apply takes_unwrap, takes_INDEX|intros; good]. Qed.
Lemma takes_read_type : takes 1 read_type.
Proof. unfold read_type. apply takes_first; [good|apply takes_unwrap, takes_u8|intros; good]. Qed.
Lemma takes_debug fuel : forall nops i cf cl d, takes (nops - i) (debug_loop fuel nops i cf cl d).
Proof.
  induction fuel as [|fuel IH]; intros nops i cf cl d; cbn [debug_loop]; [intros s a s' B E; discriminate|].
  destruct (Z.ltb_spec i nops) as [L|L]; [|intros s a s' B E; injection E as <- <-; lia].
  replace (nops - i) with (1 + (nops - (i + 1))) by lia. apply takes_bind; [good|apply takes_unwrap, takes_u8|]. intros b. cbv zeta.
  assert (W : forall A (m : M A), takes (nops - i) m -> takes (nops - (i + 1)) m) by (intros A m H s a s' B E; pose proof (H _ _ _ B E); lia).
  destruct (negb (Z.land b 1 =? 0)); [|destruct (negb (Z.land b 2 =? 0)); [|destruct (negb (Z.land b 4 =? 0))]].
  - repeat (apply takes_then; [good|intros ?]). apply W, IH.
  - repeat (apply takes_then; [good|intros ?]). apply W, IH.
  - repeat (apply takes_then; [good|intros ?]). apply IH.
  - repeat (apply takes_then; [good|intros ?]). apply IH.
Qed.

(** * writing *)
Definition nofill {A} (x : CostModel.M A) : Prop := forall s r s' t, x s = ((r, s'), t) -> filled t = 0.
Lemma nf_free A (m : M A) : nofill (CostModel.free m). Proof. intros s r s' t E. unfold CostModel.free in E. now injection E as _ <-. Qed.
Lemma nf_copy n : nofill (CostModel.copy n). Proof. intros s r s' t E. now injection E as _ _ <-. Qed.
Lemma nf_turn : nofill CostModel.turn. Proof. intros s r s' t E. now injection E as _ _ <-. Qed.
Lemma nf_bind A B (x : CostModel.M A) (y : A -> CostModel.M B) : nofill x -> (forall a, nofill (y a)) -> nofill (CostModel.bind x y).
Proof.
  intros N1 N2 s r s' t E. unfold CostModel.bind in E. destruct (x s) as [[[a|e|q] s1] t1] eqn:E1; pose proof (N1 _ _ _ _ E1) as X1.
  - destruct (y a s1) as [[r2 s2] t2] eqn:E2. pose proof (N2 _ _ _ _ _ E2). injection E as <- <- <-. cbn [plus filled]. lia.
  - now injection E as <- <- <-.
  - now injection E as <- <- <-.
Qed.
Lemma nf_on A B (f : M A -> M B) x : nofill x -> nofill (CostModel.on f x).
Proof. intros N s r s' t E. unfold CostModel.on in E. destruct (x s) as [[r1 s1] t1] eqn:E1. injection E as _ <-. eauto. Qed.
Lemma nf_loop A n : forall i (b : Z -> A -> CostModel.M A) acc, (forall i a, nofill (b i a)) -> nofill (CostModel.for_loop n i b acc).
Proof. induction n as [|n IH]; intros i b acc H; cbn [CostModel.for_loop]; [apply nf_free|]. apply nf_bind; [apply nf_turn|intros _]. apply nf_bind; auto. Qed.
Lemma nf_for A n (b : Z -> A -> CostModel.M A) acc : (forall i a, nofill (b i a)) -> nofill (CostModel.for_range n b acc). Proof. apply nf_loop. Qed.
Lemma nf_put c : nofill (CostModel.put_clone c). Proof. apply nf_bind; [apply nf_copy|intros; apply nf_free]. Qed.
Lemma nf_get : nofill CostModel.get_clone. Proof. apply nf_bind; [apply nf_free|intros]. apply nf_bind; [apply nf_copy|intros; apply nf_free]. Qed.
Ltac nf := repeat first [apply nf_copy|apply nf_put|apply nf_get|apply nf_turn|apply nf_free|apply nf_bind; [|intros ?]|apply nf_on|apply nf_for; intros ? ?|match goal with |- nofill (match ?x with _ => _ end) => destruct x end|progress cbv zeta].
Lemma nf_read_string : nofill CostModel.read_string. Proof. unfold CostModel.read_string. nf. Qed.
Lemma nf_read_ustring : nofill CostModel.read_ustring. Proof. unfold CostModel.read_ustring. nf. Qed.
Lemma nf_get_type : nofill CostModel.get_type. Proof. unfold CostModel.get_type. nf. Qed.
Ltac nf' := repeat first [apply nf_read_string|apply nf_read_ustring|apply nf_get_type|progress nf].
Lemma nf_read_type : nofill CostModel.read_type.
Proof. unfold CostModel.read_type, CostModel.read_fields, CostModel.read_protos, CostModel.read_bindings, CostModel.read_constructs, CostModel.read_type_refs. nf'. Qed.
Lemma nf_strings_loop n : forall text cur ss ls, nofill (CostModel.strings_loop n text cur ss ls).
Proof. induction n as [|n IH]; intros; cbn [CostModel.strings_loop]; nf. apply IH. Qed.
Lemma nf_strings n l : nofill (CostModel.read_strings n l). Proof. unfold CostModel.read_strings. nf. apply nf_strings_loop. Qed.
Lemma nf_debug_loop n : forall nops i f l d, nofill (CostModel.debug_loop n nops i f l d).
Proof. induction n as [|n IH]; intros; cbn [CostModel.debug_loop]; nf; apply IH. Qed.

Definition writes {A} (x : CostModel.M A) : Prop := forall s r s' t, bytes (d_buf s) -> x s = ((r, s'), t) ->
  bytes (d_buf s') /\ len s' <= len s /\ match r with Panic _ => True | _ => filled t <= 2 * (len s - len s') end.
Lemma writes_bind A B (x : CostModel.M A) (y : A -> CostModel.M B) : writes x -> (forall a, writes (y a)) -> writes (CostModel.bind x y).
Proof.
  intros W1 W2 s r s' t Bs E. unfold CostModel.bind in E. destruct (x s) as [[[a|e|q] s1] t1] eqn:E1; destruct (W1 _ _ _ _ Bs E1) as (B1 & L1 & X1).
  - destruct (y a s1) as [[r2 s2] t2] eqn:E2. destruct (W2 _ _ _ _ _ B1 E2) as (B2 & L2 & X2). injection E as <- <- <-. split; [exact B2|]. split; [lia|]. cbn [plus filled]. destruct r2; auto; lia.
  - injection E as <- <- <-. auto.
  - injection E as <- <- <-. auto.
Qed.
Lemma writes_none A (x : CostModel.M A) m : same x m -> Good true m -> nofill x -> writes x.
Proof.
  intros H G N s r s' t B E. pose proof (H s) as Es. rewrite E in Es. cbn [fst] in Es. symmetry in Es. destruct (good_len _ _ _ _ _ G B Es) as (B1 & L1).
  split; [exact B1|]. split; [exact L1|]. rewrite (N _ _ _ _ E). destruct r; auto; lia.
Qed.
Lemma writes_free A (m : M A) : Good true m -> writes (CostModel.free m).
Proof. intros G. eapply writes_none; [apply same_free|exact G|apply nf_free]. Qed.
(** a vector of [n] entries, and then a loop that reads them *)
Lemma writes_fill A n (y : CostModel.M A) m : same y m -> Good true m -> nofill y -> noerr m -> (forall s a s', bytes (d_buf s) -> m s = (Ok a, s') -> n <= 2 * (len s - len s')) -> writes (CostModel.bind (CostModel.fill n) (fun _ => y)).
Proof.
  intros H G N Ne T s r s' t B E. unfold CostModel.bind, CostModel.fill in E. destruct (y s) as [[r2 s2] t2] eqn:E2. injection E as <- <- <-.
  pose proof (H s) as Es. rewrite E2 in Es. cbn [fst] in Es. symmetry in Es. destruct (good_len _ _ _ _ _ G B Es) as (B1 & L1). split; [exact B1|]. split; [exact L1|].
  cbn [plus filled]. rewrite (N _ _ _ _ E2). destruct r2 as [a|e|q]; auto; [|exfalso; eapply Ne; eauto]. pose proof (T _ _ _ B Es). lia.
Qed.
Lemma writes_loop A n : forall i (x : Z -> A -> CostModel.M A) acc, (forall i a, writes (x i a)) -> writes (CostModel.for_loop n i x acc).
Proof.
  induction n as [|n IH]; intros i x acc H; cbn [CostModel.for_loop]; [apply writes_free, good_ret|]. apply writes_bind; [|intros _; apply writes_bind; auto].
  intros s r s' t B E. injection E as <- <- <-. cbn [filled]. split; [exact B|]. lia.
Qed.
Lemma writes_range A n (x : Z -> A -> CostModel.M A) acc : (forall i a, writes (x i a)) -> writes (CostModel.for_range n x acc). Proof. apply writes_loop. Qed.
Lemma writes_unwrap A (x : CostModel.M A) : writes x -> writes (CostModel.unwrap x).
Proof. intros W s r s' t B E. unfold CostModel.unwrap, CostModel.on, unwrap in E. destruct (x s) as [[[a|e|q] s1] t1] eqn:E1; destruct (W _ _ _ _ B E1) as (B1 & L1 & X1); injection E as <- <- <-; auto. Qed.
Lemma writes_unwrap_mapped A (x : CostModel.M A) : writes x -> writes (CostModel.unwrap_mapped x).
Proof. intros W s r s' t B E. unfold CostModel.unwrap_mapped, CostModel.on, unwrap_mapped in E. destruct (x s) as [[[a|e|q] s1] t1] eqn:E1; destruct (W _ _ _ _ B E1) as (B1 & L1 & X1); injection E as <- <- <-; auto. Qed.
Lemma writes_ok_mapped A (x : CostModel.M A) m : same x m -> noerr m -> writes x -> writes (CostModel.ok_mapped x).
Proof.
  intros H Ne W s r s' t B E. unfold CostModel.ok_mapped, CostModel.on, ok_mapped in E. pose proof (H s) as Es. destruct (x s) as [[[a|e|q] s1] t1] eqn:E1; destruct (W _ _ _ _ B E1) as (B1 & L1 & X1); cbn [fst] in Es.
  - injection E as <- <- <-; auto.
  - exfalso. eapply Ne. symmetry. exact Es.
  - injection E as <- <- <-; auto.
Qed.
Lemma writes_same A (x y : CostModel.M A) : (forall s, x s = y s) -> writes y -> writes x.
Proof. intros H W s r s' t B E. rewrite H in E. eauto. Qed.

(** * the functions *)
Lemma noerr_mapped A (m : M A) : noerr (ok_mapped m). Proof. intros s e s' E. unfold ok_mapped in E. destruct (m s) as [[a|x|q] s1]; discriminate. Qed.
Lemma noerr_unwrap_mapped A (m : M A) : noerr (unwrap_mapped m). Proof. intros s e s' E. unfold unwrap_mapped in E. destruct (m s) as [[a|x|q] s1]; discriminate. Qed.
Lemma noerr_loop A n : forall i (b : Z -> A -> M A) acc, (forall i a, noerr (b i a)) -> noerr (for_loop n i b acc).
Proof. induction n as [|n IH]; intros i b acc H; cbn [for_loop]; [apply noerr_ret|]. apply noerr_bind; auto. Qed.
Lemma noerr_range A n (b : Z -> A -> M A) acc : (forall i a, noerr (b i a)) -> noerr (for_range n b acc). Proof. apply noerr_loop. Qed.
Lemma noerr_insert A (l : list A) i x : noerr (vec_insert l i x). Proof. apply noerr_expect. Qed.
Lemma noerr_put c : noerr (put_code c). Proof. intros s e s' E. discriminate. Qed.
Lemma noerr_map e0 : noerr (map_err e0). Proof. intros s e s' E. discriminate. Qed.
Lemma noerr_lift c i : noerr (lift (get_ustring c i)).
Proof. intros s e s' E. unfold lift, get_ustring in E. repeat match type of E with context [match ?x with _ => _ end] => destruct x end; discriminate. Qed.
Lemma noerr_to_i32 x : noerr (to_i32 x). Proof. unfold to_i32. ne. Qed.
Ltac ne' := repeat first [progress ne|apply noerr_to_i32|apply noerr_unwrap_mapped|apply noerr_mapped|apply noerr_range; intros ? ?|apply noerr_insert|apply noerr_put|apply noerr_map|apply noerr_lift|progress cbv zeta].
Lemma noerr_read_type : noerr read_type.
Proof. unfold read_type, read_fields, read_protos, read_bindings, read_constructs, read_type_refs. ne'. Qed.
Lemma writes_extra x m n : same x m -> Good true m -> nofill x -> takes 1 m -> writes (CostModel.read_extra x n).
Proof.
  intros H G N T. unfold CostModel.read_extra. eapply (writes_fill _ n _ (for_range n (fun i l => x <- unwrap m ;; vec_insert l i x) (zrepeat 0 n))).
  - apply same_range. intros i a. apply same_bind; [apply same_unwrap, H|intros; apply same_free].
  - good.
  - apply nf_for. intros. apply nf_bind; [apply nf_on, N|intros; apply nf_free].
  - ne'.
  - intros s a s' B E. assert (T2 : takes n (for_range n (fun i l => x <- unwrap m ;; vec_insert l i x) (zrepeat 0 n))) by (apply takes_range; [intros; good|intros; apply takes_first; [good|apply takes_unwrap, T|intros; good]]).
    pose proof (T2 _ _ _ B E). match type of E with ?m0 s = _ => assert (Gm : Good true m0) by good end. destruct (good_len _ _ _ _ _ Gm B E). lia.
Qed.
Ltac we := match goal with |- writes (CostModel.read_extra (CostModel.INDEX) _) => apply (writes_extra _ INDEX); [apply same_free|good|apply nf_free|apply takes_INDEX] | |- writes (CostModel.read_extra (CostModel.UINDEX) _) => apply (writes_extra _ UINDEX); [apply same_free|good|apply nf_free|apply takes_UINDEX] end.
Ltac wr := repeat first [we|apply writes_unwrap|apply writes_unwrap_mapped|apply writes_bind; [|intros ?]|apply writes_range; intros ? ?|(apply writes_free; good; fail)|match goal with |- writes (match ?x with _ => _ end) => destruct x end|progress cbv zeta].
Lemma writes_opcode : writes CostModel.read_opcode.
Proof. unfold CostModel.read_opcode. wr; try (apply writes_free; good). Qed.
Lemma writes_get_type : writes CostModel.get_type. Proof. eapply writes_none; [apply same_get_type|good|apply nf_get_type]. Qed.
Lemma writes_read_string : writes CostModel.read_string. Proof. eapply writes_none; [apply same_read_string|good|apply nf_read_string]. Qed.
Lemma writes_ok_check : writes (CostModel.ok CostModel.check_error).
Proof. intros s r s' t B E. unfold CostModel.ok, CostModel.on, CostModel.check_error, CostModel.free, ok, check_error in E. destruct (errs s); injection E as <- <- <-; cbn [filled none]; split; auto; lia. Qed.
Lemma writes_function : writes CostModel.read_function.
Proof.
  unfold CostModel.read_function. repeat first [apply writes_get_type|apply writes_ok_check|apply writes_opcode|apply writes_unwrap|apply writes_unwrap_mapped|(apply writes_free; good; fail)|apply writes_bind; [|intros ?]|apply writes_range; intros ? ?|match goal with |- writes (match ?x with _ => _ end) => destruct x end].
Qed.
Lemma writes_debug n : writes (CostModel.debug_infos n).
Proof.
  intros s. unfold CostModel.debug_infos. generalize (S (length (d_buf s))). intros k. revert s.
  change (writes (CostModel.bind (CostModel.fill (2 * n)) (fun _ => CostModel.debug_loop k n 0 (-1) 0 (zrepeat 0 (2 * n))))).
  eapply writes_fill; [apply same_debug_loop|apply good_debug_loop_true|apply nf_debug_loop|apply noerr_debug_loop|]. intros s a s' B E. pose proof (takes_debug _ _ _ _ _ _ _ _ _ B E). lia.
Qed.
Lemma writes_put c : writes (CostModel.put_clone c). Proof. eapply writes_none; [apply same_put|good|apply nf_put]. Qed.
Lemma writes_get : writes CostModel.get_clone. Proof. eapply writes_none; [apply same_get|good|apply nf_get]. Qed.
Lemma writes_assigns : writes CostModel.skip_assigns. Proof. eapply writes_none; [apply same_skip_assigns|unfold skip_assigns; good|unfold CostModel.skip_assigns; nf]. Qed.
Lemma writes_entry i c : writes (CostModel.read_function_entry i c).
Proof.
  unfold CostModel.read_function_entry. repeat first [apply writes_put|apply writes_get|apply writes_function|apply writes_assigns|(eapply writes_ok_mapped; [apply same_debug_infos|apply noerr_debug_infos|apply writes_debug])|apply writes_unwrap|apply writes_unwrap_mapped|(apply writes_free; good; fail)|apply writes_bind; [|intros ?]|apply writes_range; intros ? ?|match goal with |- writes (match ?x with _ => _ end) => destruct x end|progress cbv zeta].
Qed.
Lemma writes_functions c : writes (CostModel.read_functions c).
Proof. unfold CostModel.read_functions. apply writes_bind; [apply writes_range; intros; apply writes_entry|intros; wr]. Qed.
Lemma writes_types c : writes (CostModel.read_types c).
Proof.
  unfold CostModel.read_types. eapply (writes_fill _ _ _ (for_range (c_ntypes c) _ _)).
  - apply same_range. intros i a. eapply same_bind; [apply same_put|intros]. eapply same_bind; [apply same_read_type|intros]. eapply same_bind; [apply same_free|intros]. eapply same_bind; [apply same_free|intros]. eapply same_bind; [apply same_free|intros; apply same_get].
  - good.
  - nf; try apply nf_read_type.
  - ne'; try apply noerr_read_type.
  - intros s a s' B E. match type of E with ?m s = _ => assert (T : takes (c_ntypes c) m) end.
    { apply takes_range; [intros; good|intros]. apply takes_then; [good|intros]. apply takes_first; [good|apply takes_read_type|intros; good]. }
    pose proof (T _ _ _ B E). match type of E with ?m0 s = _ => assert (Gm : Good true m0) by good end. destruct (good_len _ _ _ _ _ Gm B E). lia.
Qed.
Lemma writes_globals c : writes (CostModel.read_globals c).
Proof.
  unfold CostModel.read_globals. eapply writes_same; [intros s; symmetry; apply cost_assoc|]. apply writes_bind; [|intros; wr].
  eapply (writes_fill _ _ _ (for_range (c_nglobals c) (fun i c => put_code c ;;; r <- ok_mapped get_type ;; (match r with Some t => dc <- get_code ;; gs <- vec_insert (c_globals dc) i t ;; put_code (set_globals gs dc) | None => ret tt end) ;;; get_code) _)).
  - apply same_range. intros i a. apply same_bind; [apply same_put|intros]. apply same_bind; [apply same_ok_mapped, same_get_type|intros r]. apply same_bind; [destruct r; [|apply same_free]|intros; apply same_get]. repeat (apply same_bind; [apply same_free|intros]). apply same_free.
  - good.
  - nf; try apply nf_get_type.
  - ne'. match goal with |- noerr (match ?x with _ => _ end) => destruct x end; ne'.
  - intros s a s' B E. match type of E with ?m s = _ => assert (T : takes (c_nglobals c) m) end.
    { apply takes_range; [intros; good|intros]. apply takes_then; [good|intros]. apply takes_first; [good|apply takes_ok_mapped; [apply noerr_get_type|apply takes_get_type]|intros; good]. }
    pose proof (T _ _ _ B E). match type of E with ?m0 s = _ => assert (Gm : Good true m0) by good end. destruct (good_len _ _ _ _ _ Gm B E). lia.
Qed.
Lemma writes_bytes c : writes (CostModel.read_bytes_section c).
Proof.
  unfold CostModel.read_bytes_section. destruct (5 <=? c_version c); [|apply writes_free; good]. apply writes_bind; [apply writes_free; good|intros size]. destruct (Z.ltb_spec size 0) as [Ls|Ls].
  { intros s r s' t B E. unfold CostModel.bind at 1, CostModel.crash, CostModel.free, crash in E. injection E as <- <- <-. split; [exact B|]. split; [lia|exact I]. }
  apply writes_bind; [apply writes_free; good|intros _].
  eapply writes_same; [intros s; symmetry; apply cost_assoc|]. apply writes_bind.
  - eapply (writes_fill _ _ _ (unwrap_mapped (read_bytes size))); [apply same_unwrap_mapped, same_free|apply good_unwrap_mapped; now apply good_read_bytes|apply nf_on, nf_free|apply noerr_unwrap_mapped|].
    intros s a s' B E. unfold unwrap_mapped, read_bytes in E. destruct (Z.ltb_spec (zlen (d_buf s)) size) as [L|L]; [discriminate|]. injection E as <- <-. cbn [d_buf]. unfold zlen in *. rewrite skipn_length. lia.
  - intros bs. eapply (writes_none _ _ (ps <- for_range (c_nbytes c) (fun i l => r <- ok_mapped UINDEX ;; match r with Some x => vec_insert l i x | None => ret l end) (c_bytes_pos c) ;; check_error ;;; ret (set_bytes_pos ps (set_bytes bs c)))).
    + apply same_bind; [apply same_range; intros i a; apply same_bind; [apply same_ok_mapped, same_free|intros r; destruct r; apply same_free]|intros; apply same_bind; [apply same_free|intros; apply same_free]].
    + good.
    + nf.
Qed.
Ltac wl := repeat first [apply writes_put|apply writes_get|apply writes_read_string|apply writes_get_type|apply writes_unwrap|apply writes_unwrap_mapped|(apply writes_free; good; fail)|apply writes_bind; [|intros ?]|apply writes_range; intros ? ?|match goal with |- writes (match ?x with _ => _ end) => destruct x end|progress cbv zeta].
Lemma writes_natives c : writes (CostModel.read_natives c).
Proof. unfold CostModel.read_natives. wl. Qed.
Lemma writes_constants c : writes (CostModel.read_constants c).
Proof. unfold CostModel.read_constants. wl. Qed.
Lemma writes_debugfiles c : writes (CostModel.read_debugfiles c).
Proof. eapply writes_none; [apply same_read_debugfiles|good|]. unfold CostModel.read_debugfiles. nf. apply nf_strings_loop. Qed.
Lemma writes_ints c : writes (CostModel.read_ints c). Proof. eapply writes_none; [apply same_read_ints|good|]. unfold CostModel.read_ints, CostModel.read_table. nf. Qed.
Lemma writes_floats c : writes (CostModel.read_floats c). Proof. eapply writes_none; [apply same_read_floats|good|]. unfold CostModel.read_floats, CostModel.read_table. nf. Qed.
