(** When the reader crashes, at most one vector is unpaid, and no vector is longer than the largest count can say (C86). *)
From Verif Require Import Prelude StdModel BrassTypes DecoderModel CodeModel ReaderSpec CodeGenericProofs FormatSpec FormatProofs ReaderPost CostProofs CostTurns CostWhole CostExact CostFill.
From Verif Require CostModel.
Import CostModel(cost, turns, copied, filled, none, plus).
From Coq Require Import Lia.
Local Open Scope Z_scope.

Definition short_fun (f : hl_function) : Prop := hf_nops f <= I32_MAX.
Definition okc (c : code) : Prop := c_ntypes c <= I32_MAX /\ c_nglobals c <= I32_MAX /\ Forall short_fun (c_functions c).
Definition any {A} (a : A) : Prop := True.

(** * the reader *)
Definition inv {A} (m : M A) (Q : A -> Prop) : Prop := forall s r s', bytes (d_buf s) -> okc (d_code s) -> m s = (r, s') -> okc (d_code s') /\ match r with Ok a => Q a | _ => True end.
Lemma inv_keep A (m : M A) : rel_code eq m -> inv m any.
Proof. intros R s r s' B I E. apply R in E. rewrite <- E. split; [exact I|]. destruct r; exact Logic.I. Qed.
Lemma inv_value A (m : M A) (Q : A -> Prop) : rel_code eq m -> (forall s a s', bytes (d_buf s) -> m s = (Ok a, s') -> Q a) -> inv m Q.
Proof. intros R V s r s' B I E. pose proof (R _ _ _ E) as Ed. rewrite <- Ed. split; [exact I|]. destruct r; eauto. Qed.
Lemma inv_ret A (a : A) (Q : A -> Prop) : Q a -> inv (ret a) Q.
Proof. intros H s r s' B I E. injection E as <- <-. auto. Qed.
Lemma inv_crash A u (Q : A -> Prop) : inv (crash u) Q.
Proof. intros s r s' B I E. injection E as <- <-. auto. Qed.
Lemma inv_weak A (m : M A) (Q Q' : A -> Prop) : inv m Q -> (forall a, Q a -> Q' a) -> inv m Q'.
Proof. intros H W s r s' B I E. destruct (H _ _ _ B I E) as (I' & X). split; [exact I'|]. destruct r; auto. Qed.
Lemma inv_bind A B (m : M A) (k : A -> M B) Q R : Good true m -> inv m Q -> (forall a, Q a -> inv (k a) R) -> inv (bind m k) R.
Proof.
  intros G H1 H2 s r s' Bs I E. unfold bind in E. destruct (m s) as [[a|e|q] s1] eqn:E1; destruct (H1 _ _ _ Bs I E1) as (I1 & X1); destruct (good_len _ _ _ _ _ G Bs E1) as (B1 & _).
  - eapply H2; eauto.
  - injection E as <- <-. auto.
  - injection E as <- <-. auto.
Qed.
Lemma inv_get : inv get_code okc. Proof. intros s r s' B I E. injection E as <- <-. auto. Qed.
Lemma inv_put c : okc c -> inv (put_code c) any. Proof. intros H s r s' B I E. injection E as <- <-. split; [exact H|exact Logic.I]. Qed.
Lemma inv_check : inv check_error any. Proof. apply inv_keep, r_check_error, pre_eq. Qed.
Lemma inv_expect A u (o : option A) (Q : A -> Prop) : (forall a, o = Some a -> Q a) -> inv (expect u o) Q.
Proof. intros H. destruct o as [a|]; [apply inv_ret; auto|apply inv_crash]. Qed.
Lemma inv_loop A n : forall i (b : Z -> A -> M A) (Q : A -> Prop) acc, (forall i a, Good true (b i a)) -> (forall i a, Q a -> inv (b i a) Q) -> Q acc -> inv (for_loop n i b acc) Q.
Proof. induction n as [|n IH]; intros i b Q acc G H Qa; cbn [for_loop]; [now apply inv_ret|]. eapply inv_bind; [apply G|apply H, Qa|]. intros a Qa'. apply IH; auto. Qed.
Lemma inv_range A n (b : Z -> A -> M A) (Q : A -> Prop) acc : (forall i a, Good true (b i a)) -> (forall i a, Q a -> inv (b i a) Q) -> Q acc -> inv (for_range n b acc) Q. Proof. apply inv_loop. Qed.
Lemma inv_cache A (m : M A) : rel_code same_but_cache m -> inv m any.
Proof. intros R s r s' B I E. apply R in E. destruct E as (u & E). split; [|destruct r; exact Logic.I]. destruct I as (I1 & I2 & I3). rewrite E. split; [exact I1|]. split; [exact I2|exact I3]. Qed.
Lemma UINDEX_small s a s' : bytes (d_buf s) -> UINDEX s = (Ok a, s') -> 0 <= a <= I32_MAX.
Proof.
  intros B E. pose proof (UINDEX_nonneg _ _ _ E). split; [auto|]. unfold UINDEX, bind in E. destruct (unwrap_mapped INDEX s) as [[i|e|p] s1] eqn:E1; try discriminate.
  assert (E2 : INDEX s = (Ok i, s1)) by (unfold unwrap_mapped in E1; destruct (INDEX s) as [[]]; inversion E1; auto).
  apply INDEX_range in E2; [|auto]. unfold i32_range in E2. unfold I32_MAX. destruct (i <? 0); inversion E; subst; lia.
Qed.
Lemma inv_UINDEX : inv UINDEX (fun a => 0 <= a <= I32_MAX). Proof. apply inv_value; [apply r_UINDEX, pre_eq|apply UINDEX_small]. Qed.
Lemma inv_unwrap A (m : M A) Q : inv m Q -> inv (unwrap m) Q.
Proof. intros H s r s' B I E. unfold unwrap in E. destruct (m s) as [[a|e|q] s1] eqn:E1; destruct (H _ _ _ B I E1) as (I1 & X1); injection E as <- <-; auto. Qed.
Lemma inv_unwrap_mapped A (m : M A) Q : inv m Q -> inv (unwrap_mapped m) Q.
Proof. intros H s r s' B I E. unfold unwrap_mapped in E. destruct (m s) as [[a|e|q] s1] eqn:E1; destruct (H _ _ _ B I E1) as (I1 & X1); injection E as <- <-; auto. Qed.
Lemma inv_ok_mapped A (m : M A) Q : inv m Q -> inv (ok_mapped m) any.
Proof. intros H s r s' B I E. unfold ok_mapped in E. destruct (m s) as [[a|e|q] s1] eqn:E1; destruct (H _ _ _ B I E1) as (I1 & X1); injection E as <- <-; split; auto; exact Logic.I. Qed.

(** * the reader with its counters *)
Definition caps {A} (x : CostModel.M A) (Q : A -> Prop) : Prop := forall s r s' t, bytes (d_buf s) -> okc (d_code s) -> x s = ((r, s'), t) ->
  okc (d_code s') /\ match r with Ok a => Q a | Err _ => True | Panic _ => filled t <= 2 * (len s - len s') + 2 * I32_MAX end.
Lemma caps_none A (x : CostModel.M A) m Q : same x m -> Good true m -> nofill x -> inv m Q -> caps x Q.
Proof.
  intros H G N V s r s' t B I E. pose proof (H s) as Es. rewrite E in Es. cbn [fst] in Es. symmetry in Es. destruct (V _ _ _ B I Es) as (I' & X). destruct (good_len _ _ _ _ _ G B Es) as (_ & L).
  split; [exact I'|]. destruct r; auto. rewrite (N _ _ _ _ E). unfold I32_MAX. lia.
Qed.
Lemma caps_free A (m : M A) Q : Good true m -> inv m Q -> caps (CostModel.free m) Q.
Proof. intros G V. eapply caps_none; [apply same_free|exact G|apply nf_free|exact V]. Qed.
Lemma caps_bind A B (x : CostModel.M A) (y : A -> CostModel.M B) Q R : writes x -> caps x Q -> (forall a, Q a -> caps (y a) R) -> caps (CostModel.bind x y) R.
Proof.
  intros W C1 C2 s r s' t Bs I E. unfold CostModel.bind in E. destruct (x s) as [[[a|e|q] s1] t1] eqn:E1; destruct (C1 _ _ _ _ Bs I E1) as (I1 & X1); destruct (W _ _ _ _ Bs E1) as (B1 & L1 & Y1).
  - destruct (y a s1) as [[r2 s2] t2] eqn:E2. destruct (C2 _ X1 _ _ _ _ B1 I1 E2) as (I2 & X2). injection E as <- <- <-. split; [exact I2|]. destruct r2; auto. cbn [plus filled]. lia.
  - injection E as <- <- <-. auto.
  - injection E as <- <- <-. auto.
Qed.
Lemma caps_fill A n (y : CostModel.M A) m Q : same y m -> Good true m -> nofill y -> inv m Q -> n <= 2 * I32_MAX -> caps (CostModel.bind (CostModel.fill n) (fun _ => y)) Q.
Proof.
  intros H G N V Hn s r s' t B I E. unfold CostModel.bind, CostModel.fill in E. destruct (y s) as [[r2 s2] t2] eqn:E2. injection E as <- <- <-.
  pose proof (H s) as Es. rewrite E2 in Es. cbn [fst] in Es. symmetry in Es. destruct (V _ _ _ B I Es) as (I' & X). destruct (good_len _ _ _ _ _ G B Es) as (_ & L).
  split; [exact I'|]. destruct r2; auto. cbn [plus filled]. rewrite (N _ _ _ _ E2). unfold I32_MAX in *. lia.
Qed.
Lemma writes_turn : writes CostModel.turn. Proof. intros s r s' t B E. injection E as <- <- <-. cbn [filled]. split; [exact B|]. lia. Qed.
Lemma caps_turn : caps CostModel.turn any. Proof. intros s r s' t B I E. injection E as <- <- <-. split; [exact I|exact Logic.I]. Qed.
Lemma caps_loop A n : forall i (x : Z -> A -> CostModel.M A) (Q : A -> Prop) acc, (forall i a, writes (x i a)) -> (forall i a, Q a -> caps (x i a) Q) -> Q acc -> caps (CostModel.for_loop n i x acc) Q.
Proof.
  induction n as [|n IH]; intros i x Q acc W H Qa; cbn [CostModel.for_loop]; [apply caps_free; [apply good_ret|now apply inv_ret]|].
  eapply caps_bind; [apply writes_turn|apply caps_turn|intros _ _]. eapply caps_bind; [apply W|apply H, Qa|]. intros a Qa'. apply IH; auto.
Qed.
Lemma caps_range A n (x : Z -> A -> CostModel.M A) (Q : A -> Prop) acc : (forall i a, writes (x i a)) -> (forall i a, Q a -> caps (x i a) Q) -> Q acc -> caps (CostModel.for_range n x acc) Q. Proof. apply caps_loop. Qed.
Lemma caps_unwrap A (x : CostModel.M A) Q : writes x -> caps x Q -> caps (CostModel.unwrap x) Q.
Proof.
  intros W C s r s' t B I E. unfold CostModel.unwrap, CostModel.on, unwrap in E. destruct (x s) as [[[a|e|q] s1] t1] eqn:E1; destruct (C _ _ _ _ B I E1) as (I1 & X1); destruct (W _ _ _ _ B E1) as (B1 & L1 & Y1); injection E as <- <- <-; auto.
  split; [exact I1|]. unfold I32_MAX. cbn [d_buf]. lia.
Qed.
Lemma caps_unwrap_mapped A (x : CostModel.M A) Q : writes x -> caps x Q -> caps (CostModel.unwrap_mapped x) Q.
Proof.
  intros W C s r s' t B I E. unfold CostModel.unwrap_mapped, CostModel.on, unwrap_mapped in E. destruct (x s) as [[[a|e|q] s1] t1] eqn:E1; destruct (C _ _ _ _ B I E1) as (I1 & X1); destruct (W _ _ _ _ B E1) as (B1 & L1 & Y1); injection E as <- <- <-; auto.
  split; [exact I1|]. unfold I32_MAX. cbn [d_buf]. lia.
Qed.
Lemma caps_ok_mapped A (x : CostModel.M A) Q : caps x Q -> caps (CostModel.ok_mapped x) any.
Proof. intros C s r s' t B I E. unfold CostModel.ok_mapped, CostModel.on, ok_mapped in E. destruct (x s) as [[[a|e|q] s1] t1] eqn:E1; destruct (C _ _ _ _ B I E1) as (I1 & X1); injection E as <- <- <-; split; auto; exact Logic.I. Qed.
Lemma caps_same A (x y : CostModel.M A) Q : (forall s, x s = y s) -> caps y Q -> caps x Q.
Proof. intros H C s r s' t B I E. rewrite H in E. eauto. Qed.
Lemma caps_weak A (x : CostModel.M A) (Q Q' : A -> Prop) : caps x Q -> (forall a, Q a -> Q' a) -> caps x Q'.
Proof. intros H W s r s' t B I E. destruct (H _ _ _ _ B I E) as (I' & X). split; [exact I'|]. destruct r; auto. Qed.

(** * the functions *)
Ltac rl := let HR := fresh "HR" in pose proof pre_eq as HR; pose proof (r_u8 _ HR); pose proof (r_INDEX _ HR); pose proof (r_UINDEX _ HR); pose proof (r_get_type _ HR); pose proof (r_i32 _ HR); rel; auto.
Lemma caps_extra x m n : same x m -> Good true m -> nofill x -> rel_code eq m -> n <= I32_MAX -> caps (CostModel.read_extra x n) any.
Proof.
  intros H G N R Hn. unfold CostModel.read_extra. eapply (caps_fill _ n _ (for_range n (fun i l => x <- unwrap m ;; vec_insert l i x) (zrepeat 0 n))).
  - apply same_range. intros i a. apply same_bind; [apply same_unwrap, H|intros; apply same_free].
  - good.
  - apply nf_for. intros. apply nf_bind; [apply nf_on, N|intros; apply nf_free].
  - apply inv_keep. rl.
  - unfold I32_MAX in *. lia.
Qed.
Lemma nargs_small n a : znth OP_NARGS n = Some a -> a - 3 <= I32_MAX.
Proof.
  assert (H : Forall (fun a => a - 3 <= I32_MAX) OP_NARGS) by (apply Forall_forall; intros x Hx; vm_compute in Hx; unfold I32_MAX; repeat (destruct Hx as [<-|Hx]; [lia|]); destruct Hx).
  intros E. revert n E. induction H as [|x l Hx Hl IH]; intros n E; [discriminate|]. cbn [znth] in E. destruct (n =? 0); [injection E as <-; exact Hx|eauto].
Qed.
Lemma caps_val A (m : M A) (Q : A -> Prop) : Good true m -> rel_code eq m -> (forall s a s', bytes (d_buf s) -> m s = (Ok a, s') -> Q a) -> caps (CostModel.unwrap (CostModel.free m)) Q.
Proof. intros G R V. apply caps_unwrap; [now apply writes_free|]. apply caps_free; [exact G|]. now apply inv_value. Qed.
Lemma caps_plain A (m : M A) : Good true m -> rel_code eq m -> caps (CostModel.free m) any. Proof. intros. apply caps_free; [auto|now apply inv_keep]. Qed.
Lemma u8_small s a s' : bytes (d_buf s) -> decode_u8 s = (Ok a, s') -> a <= I32_MAX.
Proof. intros B E. apply decode_u8_byte in E; [|exact B]. destruct E as ((_ & E) & _). unfold I32_MAX. lia. Qed.
Lemma caps_u8 : caps (CostModel.unwrap CostModel.decode_u8) (fun a => a <= I32_MAX).
Proof. apply caps_val; [good|apply r_u8, pre_eq|apply u8_small]. Qed.
Lemma caps_index : caps (CostModel.unwrap CostModel.INDEX) any.
Proof. apply caps_val; [good|apply r_INDEX, pre_eq|intros; exact Logic.I]. Qed.
Lemma caps_uindex : caps (CostModel.unwrap CostModel.UINDEX) (fun a => a <= I32_MAX).
Proof. apply caps_val; [good|apply r_UINDEX, pre_eq|]. intros s a s' B E. apply UINDEX_small in E; [lia|exact B]. Qed.
Lemma w_u8 : writes (CostModel.unwrap CostModel.decode_u8). Proof. apply writes_unwrap, writes_free. good. Qed.
Lemma w_index : writes (CostModel.unwrap CostModel.INDEX). Proof. apply writes_unwrap, writes_free. good. Qed.
Lemma w_uindex : writes (CostModel.unwrap CostModel.UINDEX). Proof. apply writes_unwrap, writes_free. good. Qed.
Lemma caps_opcode : caps CostModel.read_opcode any.
Proof.
  unfold CostModel.read_opcode. eapply caps_bind; [apply w_u8|apply caps_u8|]. intros n _. destruct (99 <=? n).
  { eapply caps_bind; [apply writes_free; good|apply caps_plain; [good|rl]|]. intros p _. eapply caps_bind; [apply writes_free; good|apply caps_plain; [good|rl]|]. intros u _. apply caps_plain; [good|rl]. }
  eapply caps_bind; [apply writes_free; good|apply caps_free; [good|apply inv_expect; exact (nargs_small n)]|]. intros nargs Hn. cbv beta in Hn.
  assert (W1 : forall B (y : Z -> CostModel.M B), (forall a, caps (y a) any) -> caps (CostModel.bind (CostModel.unwrap CostModel.INDEX) y) any) by (intros B y H; eapply caps_bind; [apply w_index|apply caps_index|intros; apply H]).
  assert (R1 : forall o, caps (CostModel.ret o) (@any opcode)) by (intros; apply caps_plain; [good|rl]).
  assert (X1 : forall k (y : list Z -> CostModel.M opcode), k <= I32_MAX -> (forall a, caps (y a) any) -> caps (CostModel.bind (CostModel.read_extra CostModel.INDEX k) y) any).
  { intros k y Hk H. eapply caps_bind; [apply (writes_extra _ INDEX); [apply same_free|good|apply nf_free|apply takes_INDEX]|apply (caps_extra _ INDEX); [apply same_free|good|apply nf_free|apply r_INDEX, pre_eq|exact Hk]|intros; apply H]. }
  repeat match goal with |- caps (if ?b then _ else _) _ => destruct b end; repeat (apply W1; intros); try apply R1.
  - eapply caps_bind; [apply w_u8|apply caps_u8|]. intros p3 H3. apply X1; [exact H3|]. intros. apply R1.
  - eapply caps_bind; [apply w_uindex|apply caps_uindex|]. intros p1 _. eapply caps_bind; [apply w_uindex|apply caps_uindex|]. intros p2 H2.
    eapply caps_bind; [apply (writes_extra _ UINDEX); [apply same_free|good|apply nf_free|apply takes_UINDEX]|apply (caps_extra _ UINDEX); [apply same_free|good|apply nf_free|apply r_UINDEX, pre_eq|exact H2]|]. intros x _.
    eapply caps_bind; [apply w_uindex|apply caps_uindex|]. intros. apply R1.
  - eapply caps_bind; [apply writes_free; good|apply caps_plain; [good|rl]|]. intros p _. apply caps_plain; [good|rl].
  - cbv zeta. repeat (apply W1; intros). eapply (caps_bind _ _ _ _ any); [destruct (nargs - 3 <? 0); apply writes_free; good|destruct (nargs - 3 <? 0); (apply caps_plain; [good|rl])|]. intros u _. cbv beta. apply X1; [exact Hn|]. intros. apply R1.
Qed.
Lemma caps_get_type : caps CostModel.get_type any. Proof. eapply caps_none; [apply same_get_type|good|apply nf_get_type|apply inv_keep, r_get_type, pre_eq]. Qed.
Lemma caps_ok_check : caps (CostModel.ok CostModel.check_error) any.
Proof. intros s r s' t B I E. unfold CostModel.ok, CostModel.on, CostModel.check_error, CostModel.free, ok, check_error in E. destruct (errs s); injection E as <- <- <-; split; auto; exact Logic.I. Qed.
Lemma caps_function : caps CostModel.read_function short_fun.
Proof.
  unfold CostModel.read_function. eapply caps_bind; [apply writes_unwrap, writes_get_type|apply caps_unwrap; [apply writes_get_type|apply caps_get_type]|]. intros t _.
  eapply caps_bind; [apply w_uindex|apply caps_uindex|]. intros fi _. eapply caps_bind; [apply w_uindex|apply caps_uindex|]. intros nr _. eapply caps_bind; [apply w_uindex|apply caps_uindex|]. intros nops Hn. cbv beta in Hn.
  eapply (caps_bind _ _ _ _ any).
  { apply writes_range. intros. apply writes_bind; [apply writes_unwrap_mapped, writes_get_type|intros; apply writes_free; good]. }
  { apply caps_range; [| |exact Logic.I]. { intros. apply writes_bind; [apply writes_unwrap_mapped, writes_get_type|intros; apply writes_free; good]. }
    intros i a _. eapply caps_bind; [apply writes_unwrap_mapped, writes_get_type|apply caps_unwrap_mapped; [apply writes_get_type|apply caps_get_type]|]. intros. apply caps_plain; [good|rl]. }
  intros regs _. eapply caps_bind; [apply writes_ok_check|apply caps_ok_check|]. intros [u|] _; [|apply caps_free; [good|apply inv_ret; exact Hn]].
  eapply (caps_bind _ _ _ _ any).
  { apply writes_range. intros. apply writes_bind; [apply writes_unwrap, writes_opcode|intros; apply writes_free; good]. }
  { apply caps_range; [| |exact Logic.I]. { intros. apply writes_bind; [apply writes_unwrap, writes_opcode|intros; apply writes_free; good]. }
    intros i a _. eapply caps_bind; [apply writes_unwrap, writes_opcode|apply caps_unwrap; [apply writes_opcode|apply caps_opcode]|]. intros. apply caps_plain; [good|rl]. }
  intros ops _. apply caps_free; [good|apply inv_ret; exact Hn].
Qed.
Lemma caps_debug n : n <= I32_MAX -> caps (CostModel.debug_infos n) any.
Proof.
  intros Hn s. unfold CostModel.debug_infos. generalize (S (length (d_buf s))). intros k. revert s.
  change (caps (CostModel.bind (CostModel.fill (2 * n)) (fun _ => CostModel.debug_loop k n 0 (-1) 0 (zrepeat 0 (2 * n)))) any).
  eapply caps_fill; [apply same_debug_loop|apply good_debug_loop_true|apply nf_debug_loop|apply inv_keep, r_debug_loop, pre_eq|unfold I32_MAX in *; lia].
Qed.
Lemma caps_put c : okc c -> caps (CostModel.put_clone c) any. Proof. intros H. eapply caps_none; [apply same_put|good|apply nf_put|now apply inv_put]. Qed.
Lemma caps_get : caps CostModel.get_clone okc. Proof. eapply caps_none; [apply same_get|good|apply nf_get|apply inv_get]. Qed.
Lemma caps_assigns : caps CostModel.skip_assigns any. Proof. eapply caps_none; [apply same_skip_assigns|unfold skip_assigns; good|unfold CostModel.skip_assigns; nf|apply inv_keep, r_skip_assigns, pre_eq]. Qed.
Lemma okc_funs fs c : okc c -> Forall short_fun fs -> okc (set_functions fs c). Proof. intros (I1 & I2 & _) H. split; [exact I1|]. split; [exact I2|exact H]. Qed.
Lemma Forall_znth A (P : A -> Prop) l : Forall P l -> forall i a, znth l i = Some a -> P a.
Proof. intros H. induction H as [|x l Hx Hl IH]; intros i a E; [discriminate|]. cbn [znth] in E. destruct (i =? 0); [injection E as <-; exact Hx|eauto]. Qed.
Lemma Forall_zset A (P : A -> Prop) l : Forall P l -> forall i a l', P a -> zset l i a = Some l' -> Forall P l'.
Proof.
  intros H. induction H as [|x l Hx Hl IH]; intros i a l' Pa E; [discriminate|]. cbn [zset] in E. destruct (i =? 0); [injection E as <-; constructor; auto|].
  destruct (zset l (i - 1) a) as [l1|] eqn:E1; [|discriminate]. injection E as <-. constructor; eauto.
Qed.
Lemma wget : writes CostModel.get_code. Proof. apply writes_free; good. Qed.
Lemma cget : caps CostModel.get_code okc. Proof. apply caps_free; [good|apply inv_get]. Qed.
Lemma wput c : writes (CostModel.put_code c). Proof. apply writes_free; good. Qed.
Lemma cput c : okc c -> caps (CostModel.put_code c) any. Proof. intros H. apply caps_free; [good|now apply inv_put]. Qed.
Lemma short_debug f d : short_fun f -> short_fun (hf_set_debug f d). Proof. destruct f. exact (fun H => H). Qed.
Lemma caps_entry i c : okc c -> caps (CostModel.read_function_entry i c) okc.
Proof.
  intros Hc. unfold CostModel.read_function_entry. eapply caps_bind; [apply writes_put|apply caps_put, Hc|]. intros _ _.
  eapply caps_bind; [apply writes_unwrap_mapped, writes_function|apply caps_unwrap_mapped; [apply writes_function|apply caps_function]|]. intros f Hf.
  eapply caps_bind; [apply wget|apply cget|]. intros dc Hd. eapply caps_bind; [apply wput|apply cput, okc_funs; [exact Hd|]|]. { apply Forall_app. split; [apply Hd|constructor; [exact Hf|constructor]]. }
  intros _ _. eapply caps_bind; [apply wget|apply cget|]. intros dc2 Hd2. eapply (caps_bind _ _ _ _ any); [| |intros; apply caps_get].
  - destruct (negb (c_hasdebug dc2 =? 0)); [|apply writes_free; good]. repeat first [apply writes_assigns|(eapply writes_ok_mapped; [apply same_debug_infos|apply noerr_debug_infos|apply writes_debug])|(apply writes_free; good; fail)|apply writes_bind; [|intros ?]|match goal with |- writes (match ?x with _ => _ end) => destruct x end].
  - destruct (negb (c_hasdebug dc2 =? 0)); [|apply caps_plain; [good|rl]].
    eapply caps_bind; [apply writes_free; good|apply caps_free; [good|apply inv_expect; intros a E; exact (Forall_znth _ _ _ (proj2 (proj2 Hd2)) _ _ E)]|]. intros fi Hfi.
    eapply caps_bind; [eapply writes_ok_mapped; [apply same_debug_infos|apply noerr_debug_infos|apply writes_debug]|eapply caps_ok_mapped, caps_debug, Hfi|]. intros d _.
    eapply (caps_bind _ _ _ _ any); [| |intros; destruct (3 <=? c_version dc2); [apply caps_assigns|apply caps_plain; [good|rl]]].
    + destruct d; [|apply writes_free; good]. repeat first [(apply writes_free; good; fail)|apply writes_bind; [|intros ?]].
    + destruct d as [d|]; [|apply caps_plain; [good|rl]]. eapply caps_bind; [apply wget|apply cget|]. intros dc3 Hd3.
      eapply caps_bind; [apply writes_free; good|apply caps_free; [good|apply inv_expect; intros a E; exact (Forall_znth _ _ _ (proj2 (proj2 Hd3)) _ _ E)]|]. intros f3 Hf3. cbv beta in Hf3.
      eapply caps_bind; [apply writes_free; good|apply caps_free; [good|apply inv_expect; intros a E; exact (Forall_zset _ short_fun _ (proj2 (proj2 Hd3)) _ (hf_set_debug f3 d) _ (short_debug _ _ Hf3) E)]|]. intros fs Hfs. apply cput, okc_funs; [exact Hd3|exact Hfs].
Qed.
Lemma caps_check_ret c : okc c -> caps (CostModel.bind CostModel.check_error (fun _ => CostModel.ret c)) okc.
Proof. intros H. eapply caps_bind; [apply writes_free; good|apply caps_plain; [good|rl]|]. intros _ _. apply caps_free; [good|now apply inv_ret]. Qed.
Lemma caps_functions c : okc c -> caps (CostModel.read_functions c) okc.
Proof.
  intros H. unfold CostModel.read_functions. eapply caps_bind; [apply writes_range; intros; apply writes_entry|apply (caps_range _ _ _ okc); [intros; apply writes_entry|intros; now apply caps_entry|exact H]|]. intros a Ha. now apply caps_check_ret.
Qed.

Ltac okcs := match goal with H : okc ?c |- okc _ => let I1 := fresh in let I2 := fresh in let I3 := fresh in destruct H as (I1 & I2 & I3); split; [exact I1|split; [exact I2|exact I3]] end.
Ltac iv := repeat first [apply inv_ret; okcs|apply inv_get].
Lemma caps_types c : okc c -> caps (CostModel.read_types c) okc.
Proof.
  intros H. unfold CostModel.read_types. eapply (caps_fill _ _ _ (for_range (c_ntypes c) _ _)).
  - apply same_range. intros i a. eapply same_bind; [apply same_put|intros]. eapply same_bind; [apply same_read_type|intros]. eapply same_bind; [apply same_free|intros]. eapply same_bind; [apply same_free|intros]. eapply same_bind; [apply same_free|intros; apply same_get].
  - good.
  - nf; try apply nf_read_type.
  - apply (inv_range _ _ _ okc); [intros; good| |okcs]. intros i a Ha. eapply inv_bind; [good|apply inv_put, Ha|intros _ _]. eapply inv_bind; [good|apply inv_cache, rc_read_type|intros ty _]. eapply inv_bind; [good|apply inv_get|intros dc Hd].
    eapply inv_bind; [good|apply inv_keep; rl|intros ts _]. eapply inv_bind; [good|apply inv_put; okcs|intros; apply inv_get].
  - destruct H as (H & _). unfold I32_MAX in *. lia.
Qed.
Lemma caps_globals c : okc c -> caps (CostModel.read_globals c) okc.
Proof.
  intros H. unfold CostModel.read_globals. eapply caps_same; [intros s; symmetry; apply cost_assoc|].
  set (loop := for_range (c_nglobals c) (fun i c => put_code c ;;; r <- ok_mapped get_type ;; (match r with Some t => dc <- get_code ;; gs <- vec_insert (c_globals dc) i t ;; put_code (set_globals gs dc) | None => ret tt end) ;;; get_code) (set_globals (zrepeat vt_default (c_nglobals c)) c)).
  assert (G1 : Good true loop) by (unfold loop; good).
  assert (E1 : noerr loop) by (unfold loop; ne'; match goal with |- noerr (match ?x with _ => _ end) => destruct x end; ne').
  assert (T : takes (c_nglobals c) loop).
  { apply takes_range; [intros; good|intros]. apply takes_then; [good|intros]. apply takes_first; [good|apply takes_ok_mapped; [apply noerr_get_type|apply takes_get_type]|intros; good]. }
  eapply caps_bind; [eapply (writes_fill _ _ _ loop); [apply same_range; intros i a; apply same_bind; [apply same_put|intros]; apply same_bind; [apply same_ok_mapped, same_get_type|intros r]; apply same_bind; [destruct r; [|apply same_free]|intros; apply same_get]; repeat (apply same_bind; [apply same_free|intros]); apply same_free|exact G1|nf; try apply nf_get_type|exact E1|]|eapply (caps_fill _ _ _ loop okc); [apply same_range; intros i a; apply same_bind; [apply same_put|intros]; apply same_bind; [apply same_ok_mapped, same_get_type|intros r]; apply same_bind; [destruct r; [|apply same_free]|intros; apply same_get]; repeat (apply same_bind; [apply same_free|intros]); apply same_free|exact G1|nf; try apply nf_get_type| |]|].
  - intros s a s' B E. pose proof (T _ _ _ B E). destruct (good_len _ _ _ _ _ G1 B E). lia.
  - apply inv_range; [intros; good| |okcs]. intros i a Ha. eapply inv_bind; [good|apply inv_put, Ha|intros _ _]. eapply inv_bind; [good|eapply inv_ok_mapped, inv_keep, r_get_type, pre_eq|intros r _].
    eapply (inv_bind _ _ _ _ any); [good| |intros; apply inv_get]. destruct r as [ty|]; [|apply inv_ret; exact Logic.I]. eapply inv_bind; [good|apply inv_get|intros dc Hd]. eapply inv_bind; [good|apply inv_keep; rl|intros gs _]. apply inv_put. okcs.
  - destruct H as (_ & H & _). unfold I32_MAX in *. lia.
  - intros a Ha. now apply caps_check_ret.
Qed.
Lemma i32_small s a s' : bytes (d_buf s) -> decode_i32 s = (Ok a, s') -> a <= I32_MAX.
Proof. intros B E. apply decode_i32_range in E; [|exact B]. unfold I32_MAX. lia. Qed.
Lemma caps_bytes c : okc c -> caps (CostModel.read_bytes_section c) okc.
Proof.
  intros H. unfold CostModel.read_bytes_section. destruct (5 <=? c_version c); [|apply caps_free; [good|now apply inv_ret]].
  eapply (caps_bind _ _ _ _ (fun size => size <= I32_MAX)); [apply writes_free; good|apply caps_free; [good|apply inv_value; [apply r_i32, pre_eq|apply i32_small]]|intros size Hs]. cbv beta in Hs. destruct (Z.ltb_spec size 0) as [Ls|Ls].
  { intros s r s' t B I E. unfold CostModel.bind at 1, CostModel.crash, CostModel.free, crash in E. injection E as <- <- <-. split; [exact I|]. cbn [filled none]. unfold I32_MAX. lia. }
  eapply caps_bind; [apply writes_free; good|apply caps_plain; [good|rl]|intros u _].
  eapply caps_same; [intros s; symmetry; apply cost_assoc|]. eapply (caps_bind _ _ _ _ any).
  - eapply (writes_fill _ _ _ (unwrap_mapped (read_bytes size))); [apply same_unwrap_mapped, same_free|apply good_unwrap_mapped; now apply good_read_bytes|apply nf_on, nf_free|apply noerr_unwrap_mapped|].
    intros s a s' B E. unfold unwrap_mapped, read_bytes in E. destruct (Z.ltb_spec (zlen (d_buf s)) size) as [L|L]; [discriminate|]. injection E as <- <-. cbn [d_buf]. unfold zlen in *. rewrite skipn_length. lia.
  - eapply (caps_fill _ _ _ (unwrap_mapped (read_bytes size))); [apply same_unwrap_mapped, same_free|apply good_unwrap_mapped; now apply good_read_bytes|apply nf_on, nf_free|apply inv_keep; rl|unfold I32_MAX in *; lia].
  - intros bs _. eapply (caps_none _ _ (ps <- for_range (c_nbytes c) (fun i l => r <- ok_mapped UINDEX ;; match r with Some x => vec_insert l i x | None => ret l end) (c_bytes_pos c) ;; check_error ;;; ret (set_bytes_pos ps (set_bytes bs c)))).
    + apply same_bind; [apply same_range; intros i a; apply same_bind; [apply same_ok_mapped, same_free|intros r; destruct r; apply same_free]|intros; apply same_bind; [apply same_free|intros; apply same_free]].
    + good.
    + nf.
    + eapply inv_bind; [good|apply inv_keep; rl|intros ps _]. eapply inv_bind; [good|apply inv_check|intros _ _]. apply inv_ret. okcs.
Qed.
Lemma inv_natives c : okc c -> inv (read_natives c) okc.
Proof.
  intros H. unfold read_natives. eapply (inv_bind _ _ _ _ okc); [good| |intros a Ha; eapply inv_bind; [good|apply inv_check|intros _ _; now apply inv_ret]].
  apply inv_range; [intros; good| |okcs]. intros i a Ha. pose proof (r_read_string _ pre_eq) as Hr. do 2 (eapply inv_bind; [good|apply inv_keep; rl|intros ? _]). do 2 (eapply inv_bind; [good|apply inv_keep; rl|intros ? _]). cbv zeta. eapply inv_bind; [good|apply inv_put; okcs|intros _ _]. apply inv_ret. okcs.
Qed.
Lemma caps_natives c : okc c -> caps (CostModel.read_natives c) okc.
Proof. intros H. eapply caps_none; [apply same_read_natives|good| |now apply inv_natives]. unfold CostModel.read_natives. nf'. Qed.
Lemma inv_constants c : okc c -> inv (read_constants c) okc.
Proof.
  intros H. unfold read_constants. apply inv_range; [intros; good| |exact H]. intros i a Ha. do 2 (eapply inv_bind; [good|apply inv_keep; rl|intros ? _]). eapply inv_bind; [good|apply inv_keep; rl|intros ? _]. eapply inv_bind; [good|apply inv_check|intros _ _].
  eapply inv_bind; [good|apply inv_keep; rl|intros ks _]. cbv zeta. eapply inv_bind; [good|apply inv_put; okcs|intros _ _]. apply inv_ret. okcs.
Qed.
Lemma caps_constants c : okc c -> caps (CostModel.read_constants c) okc.
Proof. intros H. eapply caps_none; [apply same_read_constants|good| |now apply inv_constants]. unfold CostModel.read_constants. nf'. Qed.
Lemma inv_count set c : (forall n, 0 <= n <= I32_MAX -> okc (set n c)) -> okc c -> inv (read_count set c) okc.
Proof.
  intros H Hc s r s' B I E. unfold read_count, bind in E. destruct (ok UINDEX s) as [[o|e|p] s1] eqn:E1; pose proof (r_ok _ _ (r_UINDEX _ pre_eq) _ _ _ E1) as Ed.
  - unfold ok in E1. destruct (UINDEX s) as [[a|e|q] s2] eqn:E2; [| |discriminate]; injection E1 as <- <-; injection E as <- <-; rewrite <- Ed; split; auto. apply H. eapply UINDEX_small; eauto.
  - injection E as <- <-. rewrite <- Ed. auto.
  - injection E as <- <-. rewrite <- Ed. auto.
Qed.
Lemma inv_debugfiles c : okc c -> inv (read_debugfiles c) okc.
Proof.
  intros H. unfold read_debugfiles. destruct (negb (c_hasdebug c =? 0)); [|now apply inv_ret]. eapply inv_bind; [good|apply inv_count; [intros; okcs|exact H]|intros a Ha]. eapply inv_bind; [good|apply inv_put, Ha|intros _ _].
  eapply inv_bind; [good|eapply inv_ok_mapped, inv_keep, r_read_strings, pre_eq|intros r _]. eapply inv_bind; [good|apply inv_get|intros dc Hd]. eapply (inv_bind _ _ _ _ any); [good| |].
  { destruct r as [[ss ls]|]; [apply inv_put; okcs|apply inv_ret; exact Logic.I]. }
  intros _ _. eapply inv_bind; [good|apply inv_get|intros d2 Hd2]. eapply inv_bind; [good|apply inv_check|intros _ _]. now apply inv_ret.
Qed.
Lemma caps_debugfiles c : okc c -> caps (CostModel.read_debugfiles c) okc.
Proof. intros H. eapply caps_none; [apply same_read_debugfiles|good| |now apply inv_debugfiles]. unfold CostModel.read_debugfiles. nf. apply nf_strings_loop. Qed.
Lemma inv_ints c : okc c -> inv (read_ints c) okc.
Proof. intros H. unfold read_ints, read_table. eapply inv_bind; [good|apply inv_keep; rl|intros l _]. eapply inv_bind; [good|apply inv_check|intros _ _]. apply inv_ret. okcs. Qed.
Lemma caps_ints c : okc c -> caps (CostModel.read_ints c) okc.
Proof. intros H. eapply caps_none; [apply same_read_ints|good| |now apply inv_ints]. unfold CostModel.read_ints, CostModel.read_table. nf. Qed.
Lemma inv_floats c : okc c -> inv (read_floats c) okc.
Proof. intros H. pose proof (r_u _ pre_eq 8) as Hu. unfold read_floats, read_table. eapply inv_bind; [good|apply inv_keep; unfold decode_f64; rl|intros l _]. eapply inv_bind; [good|apply inv_check|intros _ _]. apply inv_ret. okcs. Qed.
Lemma caps_floats c : okc c -> caps (CostModel.read_floats c) okc.
Proof. intros H. eapply caps_none; [apply same_read_floats|good| |now apply inv_floats]. unfold CostModel.read_floats, CostModel.read_table. nf. Qed.
Lemma inv_table c : okc c -> inv (read_string_table c) okc.
Proof.
  intros H. unfold read_string_table. eapply inv_bind; [good|eapply inv_ok_mapped, inv_keep, r_read_strings, pre_eq|intros r _]. cbv zeta. eapply inv_bind; [good|apply inv_check|intros _ _]. apply inv_ret. destruct r as [[ss ls]|]; okcs.
Qed.
Lemma okc_types n c : okc c -> n <= I32_MAX -> okc (set_ntypes n c). Proof. intros (I1 & I2 & I3) H. split; [exact H|]. split; [exact I2|exact I3]. Qed.
Lemma okc_globals n c : okc c -> n <= I32_MAX -> okc (set_nglobals n c). Proof. intros (I1 & I2 & I3) H. split; [exact I1|]. split; [exact H|exact I3]. Qed.
Lemma good_count set c : Good true (read_count set c). Proof. unfold read_count. good. Qed.
Lemma count_bind B set c (k : code -> M B) Q : okc c -> (forall n, n <= I32_MAX -> okc (set n c)) -> (forall a, okc a -> inv (k a) Q) -> inv (bind (read_count set c) k) Q.
Proof. intros Hc H K. eapply inv_bind; [apply good_count|apply inv_count; [intros n Hn; apply H; lia|exact Hc]|exact K]. Qed.
Lemma inv_counts c : okc c -> inv (read_counts c) okc.
Proof.
  intros H. unfold read_counts. pose proof (r_UINDEX _ pre_eq) as Ru. eapply (inv_bind _ _ _ _ any); [good|apply inv_keep; rl|intros fl _]. cbv zeta.
  do 3 (apply count_bind; [okcs|intros; okcs|intros ? ?]).
  eapply (inv_bind _ _ _ _ okc); [destruct (5 <=? _); [apply good_count|good]|destruct (5 <=? _); [apply inv_count; [intros; okcs|okcs]|now apply inv_ret]|intros ? ?].
  apply count_bind; [okcs|intros; now apply okc_types|intros ? ?]. apply count_bind; [okcs|intros; now apply okc_globals|intros ? ?]. do 2 (apply count_bind; [okcs|intros; okcs|intros ? ?]).
  eapply (inv_bind _ _ _ _ okc); [destruct (4 <=? _); [apply good_count|good]|destruct (4 <=? _); [apply inv_count; [intros; okcs|okcs]|apply inv_ret; okcs]|intros ? ?].
  apply count_bind; [okcs|intros; okcs|intros ? ?]. eapply inv_bind; [good|apply inv_check|intros _ _]. apply inv_ret. okcs.
Qed.
