(** What each part of the reader costs, exactly, in loop turns and entries written (for C87). *)
From Verif Require Import Prelude StdModel BrassTypes DecoderModel CodeModel FormatSpec ReaderSpec ErrSpec GrammarSpec.
From Verif Require Import CodeGenericProofs FormatProofs StringsProofs ReaderPost CostProofs PropsGrammar GrammarFuns.
From Verif Require CostModel.
Import CostModel(cost, turns, copied, filled, none, plus).
From Coq Require Import Lia ZifyBool.
Local Open Scope Z_scope.

Lemma total_insert A (w : A -> Z) l i x l' : zinsert l i x = Some l' -> total w l' = total w l + w x.
Proof.
  revert i l'. induction l as [|y l IH]; intros i l' E; cbn [zinsert] in E.
  - destruct (i =? 0); [|discriminate]. injection E as <-. cbn. lia.
  - destruct (i =? 0); [injection E as <-; cbn; lia|]. destruct (zinsert l (i - 1) x) as [l1|] eqn:E1; [|discriminate]. injection E as <-. change (w y + total w l1 = w y + total w l + w x). rewrite (IH _ _ E1). lia.
Qed.
Lemma total_app A (w : A -> Z) a b : total w (a ++ b) = total w a + total w b.
Proof. unfold total. induction a as [|x a IH]; cbn [app fold_right]; [lia|]. rewrite IH. lia. Qed.
Lemma total_map A B (w : B -> Z) (f : A -> B) l : total w (map f l) = total (fun x => w (f x)) l.
Proof. unfold total. induction l as [|x l IH]; cbn [map fold_right]; [reflexivity|]. now rewrite IH. Qed.
Lemma total_ext A (w w' : A -> Z) l : (forall x, w x = w' x) -> total w l = total w' l.
Proof. intros H. unfold total. induction l as [|x l IH]; cbn [fold_right]; [reflexivity|]. now rewrite IH, H. Qed.
Lemma total_scale A (w : A -> Z) k l : total (fun x => k * w x) l = k * total w l.
Proof. unfold total. induction l as [|x l IH]; cbn [fold_right]; [lia|]. rewrite IH. lia. Qed.
Lemma total_zero A (w : A -> Z) x n : w x = 0 -> total w (zrepeat x n) = 0.
Proof. intros H. unfold zrepeat, total. induction (Z.to_nat n) as [|k IH]; cbn [repeat fold_right]; [reflexivity|]. rewrite IH. lia. Qed.

Section Meter.
(** the price of a turn and of an entry written *)
Variables al be : Z.
Definition meter (t : cost) : Z := al * turns t + be * filled t.
Lemma meter_plus x y : meter (plus x y) = meter x + meter y. Proof. unfold meter, plus; cbn. lia. Qed.
Lemma meter_none : meter none = 0. Proof. unfold meter; cbn. lia. Qed.

(** parts that cost nothing, however they end *)
Definition zero {A} (x : CostModel.M A) : Prop := forall s r s' t, x s = ((r, s'), t) -> meter t = 0.
Lemma z_free A (m : M A) : zero (CostModel.free m). Proof. intros s r s' t E. unfold CostModel.free in E. injection E as _ <-. apply meter_none. Qed.
Lemma z_copy n : zero (CostModel.copy n). Proof. intros s r s' t E. injection E as _ _ <-. unfold meter; cbn. lia. Qed.
Lemma z_bind A B (x : CostModel.M A) (y : A -> CostModel.M B) : zero x -> (forall a, zero (y a)) -> zero (CostModel.bind x y).
Proof.
  intros N1 N2 s r s' t E. unfold CostModel.bind in E. destruct (x s) as [[[a|e|q] s1] t1] eqn:E1; pose proof (N1 _ _ _ _ E1) as X1.
  - destruct (y a s1) as [[r2 s2] t2] eqn:E2. pose proof (N2 _ _ _ _ _ E2). injection E as <- <- <-. rewrite meter_plus. lia.
  - now injection E as <- <- <-.
  - now injection E as <- <- <-.
Qed.
Lemma z_on A B (f : M A -> M B) x : zero x -> zero (CostModel.on f x).
Proof. intros N s r s' t E. unfold CostModel.on in E. destruct (x s) as [[r1 s1] t1] eqn:E1. injection E as _ <-. eauto. Qed.
Ltac z := repeat first [apply z_free|apply z_copy|apply z_on|apply z_bind; [|intros ?]|match goal with |- zero (match ?x with _ => _ end) => destruct x end].
Lemma z_put c : zero (CostModel.put_clone c). Proof. unfold CostModel.put_clone. z. Qed.
Lemma z_get : zero CostModel.get_clone. Proof. unfold CostModel.get_clone. z. Qed.
Lemma z_read_string : zero CostModel.read_string. Proof. unfold CostModel.read_string. z. Qed.
Lemma z_read_ustring : zero CostModel.read_ustring. Proof. unfold CostModel.read_ustring. z. Qed.
Lemma z_get_type : zero CostModel.get_type. Proof. unfold CostModel.get_type. z. Qed.

(** successful ends *)
Definition costs {A} (x : CostModel.M A) (Q : A -> Z -> Prop) : Prop := forall s a s' t, x s = ((Ok a, s'), t) -> Q a (meter t).
Lemma c_conseq A (x : CostModel.M A) (Q Q' : A -> Z -> Prop) : costs x Q -> (forall a v, Q a v -> Q' a v) -> costs x Q'.
Proof. intros H W s a s' t E. apply W. eapply H, E. Qed.
Lemma c_zero A (x : CostModel.M A) (Q : A -> Z -> Prop) : zero x -> (forall a, Q a 0) -> costs x Q.
Proof. intros H W s a s' t E. rewrite (H _ _ _ _ E). apply W. Qed.
Lemma c_ret A (a : A) (Q : A -> Z -> Prop) : Q a 0 -> costs (CostModel.ret a) Q.
Proof. intros H s b s' t E. unfold CostModel.ret, CostModel.free, ret in E. injection E as <- <- <-. now rewrite meter_none. Qed.
Lemma c_insert A (l : list A) i x (Q : list A -> Z -> Prop) : (forall l', zinsert l i x = Some l' -> Q l' 0) -> costs (CostModel.vec_insert l i x) Q.
Proof.
  intros H s b s' t E. unfold CostModel.vec_insert, CostModel.free, vec_insert, expect in E. destruct (zinsert l i x) as [l'|] eqn:I; [|discriminate].
  unfold ret in E. injection E as <- <- <-. rewrite meter_none. now apply H.
Qed.
Lemma c_bind A B (x : CostModel.M A) (y : A -> CostModel.M B) Q (R : B -> Z -> Prop) : costs x Q -> (forall a v, Q a v -> costs (y a) (fun b w => R b (v + w))) -> costs (CostModel.bind x y) R.
Proof.
  intros N1 N2 s r s' t E. unfold CostModel.bind in E. destruct (x s) as [[[a|e|q] s1] t1] eqn:E1; [|discriminate|discriminate].
  destruct (y a s1) as [[r2 s2] t2] eqn:E2. injection E as -> -> <-. rewrite meter_plus. exact (N2 _ _ (N1 _ _ _ _ E1) _ _ _ _ E2).
Qed.
(** after a part that costs nothing *)
Lemma c_then A B (x : CostModel.M A) (y : A -> CostModel.M B) (R : B -> Z -> Prop) : zero x -> (forall a, costs (y a) R) -> costs (CostModel.bind x y) R.
Proof.
  intros N1 N2. eapply c_bind; [apply (c_zero _ _ (fun _ v => v = 0) N1); auto|]. intros a v ->. eapply c_conseq; [apply N2|]. intros b w. now rewrite Z.add_0_l.
Qed.
Lemma c_turn A (y : CostModel.M A) (R : A -> Z -> Prop) : costs y (fun b w => R b (al + w)) -> costs (CostModel.bind CostModel.turn (fun _ => y)) R.
Proof. intros H. eapply c_bind with (Q := fun _ v => v = al); [|intros a v ->; exact H]. intros s a s' t E. injection E as _ _ <-. unfold meter; cbn. lia. Qed.
Lemma c_fill A n (y : CostModel.M A) (R : A -> Z -> Prop) : costs y (fun b w => R b (be * Z.max 0 n + w)) -> costs (CostModel.bind (CostModel.fill n) (fun _ => y)) R.
Proof. intros H. eapply c_bind with (Q := fun _ v => v = be * Z.max 0 n); [|intros a v ->; exact H]. intros s a s' t E. injection E as _ _ <-. unfold meter; cbn [turns filled]. lia. Qed.
Lemma c_unwrap A (x : CostModel.M A) Q : costs x Q -> costs (CostModel.unwrap x) Q.
Proof.
  intros H s a s' t E. unfold CostModel.unwrap, CostModel.on in E. destruct (x s) as [[r1 s1] t1] eqn:E1. injection E as E <-. unfold unwrap in E. destruct r1; try discriminate. injection E as <- <-. eapply H, E1.
Qed.
Lemma c_unwrap_mapped A (x : CostModel.M A) Q : costs x Q -> costs (CostModel.unwrap_mapped x) Q.
Proof.
  intros H s a s' t E. unfold CostModel.unwrap_mapped, CostModel.on in E. destruct (x s) as [[r1 s1] t1] eqn:E1. injection E as E <-. unfold unwrap_mapped in E. destruct r1; try discriminate. injection E as <- <-. eapply H, E1.
Qed.
(** loops: [psi] counts turns, [phi] is what the turns cost inside *)
Lemma c_loop A (psi phi : A -> Z) n : forall i (b : Z -> A -> CostModel.M A) acc, (forall j a, costs (b j a) (fun a' v => psi a' = psi a + 1 /\ v = phi a' - phi a)) ->
  costs (CostModel.for_loop n i b acc) (fun a' v => psi a' = psi acc + Z.of_nat n /\ v = al * Z.of_nat n + phi a' - phi acc).
Proof.
  induction n as [|n IH]; intros i b acc H; cbn [CostModel.for_loop]; [apply c_ret; lia|]. apply c_turn. eapply c_bind; [apply H|]. intros a v (E1 & E2). eapply c_conseq; [now apply IH|]. intros a' w (E3 & E4). lia.
Qed.
Lemma c_range A (psi phi : A -> Z) n (b : Z -> A -> CostModel.M A) acc : (forall j a, costs (b j a) (fun a' v => psi a' = psi a + 1 /\ v = phi a' - phi a)) ->
  costs (CostModel.for_range n b acc) (fun a' v => psi a' = psi acc + Z.max 0 n /\ v = al * Z.max 0 n + phi a' - phi acc).
Proof. intros H. unfold CostModel.for_range. eapply c_conseq; [apply (c_loop _ psi phi), H|]. intros a v (E1 & E2). replace (Z.max 0 n) with (Z.of_nat (Z.to_nat n)) by lia. auto. Qed.
(** loops whose turns cost nothing inside *)
Lemma c_plain_loop A n : forall i (b : Z -> A -> CostModel.M A) acc, (forall j a, zero (b j a)) -> costs (CostModel.for_loop n i b acc) (fun _ v => v = al * Z.of_nat n).
Proof.
  induction n as [|n IH]; intros i b acc H; cbn [CostModel.for_loop]; [apply c_ret; lia|]. apply c_turn. apply c_then; [apply H|intros a]. eapply c_conseq; [now apply IH|]. cbv beta. lia.
Qed.
Lemma c_plain A n (b : Z -> A -> CostModel.M A) acc : (forall j a, zero (b j a)) -> costs (CostModel.for_range n b acc) (fun _ v => v = al * Z.max 0 n).
Proof. intros H. unfold CostModel.for_range. eapply c_conseq; [now apply c_plain_loop|]. intros a v ->. lia. Qed.

(** * types *)
Definition type_turns (t : vtype) : Z :=
  match vt_union t with
  | FuncType _ n _ => Z.max 0 n
  | ObjType _ _ _ nf np nb _ _ _ _ => Z.max 0 nf + Z.max 0 np + Z.max 0 nb
  | VirtualType n _ => Z.max 0 n
  | EnumType _ n cs _ => Z.max 0 n + total (fun c => Z.max 0 (ec_nparams c)) cs
  | _ => 0
  end.
Lemma c_type_refs n : costs (CostModel.read_type_refs n) (fun _ v => v = al * Z.max 0 n).
Proof. apply c_plain. intros. apply z_bind; [apply z_on, z_get_type|intros; apply z_free]. Qed.
Lemma c_fields n : costs (CostModel.read_fields n) (fun _ v => v = al * Z.max 0 n).
Proof. apply c_plain. intros. apply z_bind; [apply z_on, z_read_ustring|intros]. apply z_bind; [apply z_on, z_get_type|intros; apply z_free]. Qed.
Lemma c_protos n : costs (CostModel.read_protos n) (fun _ v => v = al * Z.max 0 n).
Proof. apply c_plain. intros. apply z_bind; [apply z_on, z_read_ustring|intros]. z. Qed.
Lemma c_bindings n : costs (CostModel.read_bindings n) (fun _ v => v = al * Z.max 0 n).
Proof. apply c_plain. intros. z. Qed.
Lemma c_constructs n : costs (CostModel.read_constructs n) (fun cs v => v = al * (Z.max 0 n + total (fun c => Z.max 0 (ec_nparams c)) cs)).
Proof.
  eapply c_conseq; [apply (c_range _ zlen (fun cs => al * total (fun c => Z.max 0 (ec_nparams c)) cs))|].
  - intros j a. apply c_then; [apply z_on, z_read_ustring|intros name]. apply c_then; [apply z_on, z_free|intros np]. eapply c_bind; [apply c_type_refs|]. intros ps v ->. apply c_insert. intros l' I.
    split; [apply zinsert_len in I; lia|]. rewrite (total_insert _ _ _ _ _ _ I). cbn [ec_nparams]. lia.
  - intros cs v (_ & ->). cbn. lia.
Qed.
Lemma c_read_type : costs CostModel.read_type (fun t v => v = al * type_turns t).
Proof.
  unfold CostModel.read_type. apply c_then; [apply z_on, z_free|intros k].
  destruct (HLAST <=? k). { apply c_then; [apply z_free|intros]. apply c_then; [apply z_free|intros]. apply c_ret. cbn. lia. }
  destruct ((k =? HFUN) || (k =? HMETHOD)). { apply c_then; [apply z_on, z_free|intros n]. eapply c_bind; [apply c_type_refs|intros args v ->]. apply c_then; [apply z_on, z_get_type|intros r]. apply c_ret. cbn. lia. }
  destruct ((k =? HOBJ) || (k =? HSTRUCT)).
  { apply c_then; [apply z_on, z_read_ustring|intros name]. apply c_then; [apply z_on, z_free|intros si]. apply c_then; [apply z_free|intros c]. apply c_then; [z|intros super].
    do 4 (apply c_then; [apply z_on, z_free|intros ?]). eapply c_bind; [apply c_fields|intros ? v ->]. eapply c_bind; [apply c_protos|intros ? v ->]. eapply c_bind; [apply c_bindings|intros ? v ->]. apply c_ret. cbn. lia. }
  destruct (k =? HREF). { apply c_then; [apply z_on, z_get_type|intros r]. apply c_ret. cbn. lia. }
  destruct (k =? HVIRTUAL). { apply c_then; [apply z_on, z_free|intros n]. eapply c_bind; [apply c_fields|intros ? v ->]. apply c_ret. cbn. lia. }
  destruct (k =? HABSTRACT). { apply c_then; [apply z_on, z_read_ustring|intros r]. apply c_ret. cbn. lia. }
  destruct (k =? HENUM). { apply c_then; [apply z_on, z_read_ustring|intros name]. do 2 (apply c_then; [apply z_on, z_free|intros ?]). eapply c_bind; [apply c_constructs|intros ? v ->]. apply c_ret. cbn - [total]. lia. }
  destruct ((k =? HNULL) || (k =? HPACKED)). { apply c_then; [apply z_on, z_get_type|intros r]. apply c_ret. cbn. lia. }
  apply c_ret. cbn. lia.
Qed.

(** * strings *)
Lemma c_strings_loop n : forall text cur ss ls, costs (CostModel.strings_loop n text cur ss ls) (fun r v => v = al * (zlen (fst r) - zlen ss)).
Proof.
  induction n as [|n IH]; intros text cur ss ls; cbn [CostModel.strings_loop]; [apply c_ret; cbn [fst]; lia|]. apply c_turn. apply c_then; [apply z_on, z_free|intros sz]. do 2 (apply c_then; [apply z_free|intros ?]). cbv zeta.
  assert (L : forall x : str, zlen (ss ++ [x]) = zlen ss + 1) by (intros x; rewrite zlen_app; reflexivity).
  destruct (zlen text <=? cur + sz); [apply c_ret; cbn [fst]; rewrite L; lia|]. eapply c_conseq; [apply IH|]. intros r v ->. rewrite L. lia.
Qed.
Lemma c_read_strings n ls : costs (CostModel.read_strings n ls) (fun r v => v = al * zlen (fst r)).
Proof.
  unfold CostModel.read_strings. apply c_then; [apply z_on, z_free|intros sz]. cbv zeta. apply c_then; [apply z_free|intros sl]. apply c_then; [apply z_free|intros ?]. eapply c_conseq; [apply c_strings_loop|]. intros r v ->. change (zlen (@nil str)) with 0. lia.
Qed.

(** * instructions *)
Definition op_entries (o : opcode) : Z := zlen (o_extra o) / 2.
Lemma c_read_extra (r : M Z) n : costs (CostModel.read_extra (CostModel.free r) n) (fun l v => zlen l = 2 * Z.max 0 n /\ v = (al + be) * Z.max 0 n).
Proof.
  unfold CostModel.read_extra. apply c_fill. eapply c_conseq; [apply (c_range _ zlen (fun _ => 0))|].
  - intros j a. apply c_then; [apply z_on, z_free|intros x]. apply c_insert. intros l' I. split; [now apply zinsert_len in I|lia].
  - intros l v (L & ->). unfold zrepeat in L. unfold zlen at 2 in L. rewrite repeat_length in L. lia.
Qed.
Lemma c_read_opcode : costs CostModel.read_opcode (fun o v => v = (al + be) * op_entries o).
Proof.
  unfold CostModel.read_opcode. apply c_then; [apply z_on, z_free|intros n].
  assert (D : forall k, 0 <= k -> (2 * Z.max 0 k) / 2 = Z.max 0 k) by (intros k _; rewrite Z.mul_comm; apply Z.div_mul; lia).
  destruct (99 <=? n). { do 2 (apply c_then; [apply z_free|intros ?]). apply c_ret. cbn. lia. }
  apply c_then; [apply z_free|intros nargs].
  destruct (nargs =? 0); [apply c_ret; cbn; lia|].
  destruct (nargs =? 1); [apply c_then; [apply z_on, z_free|intros ?]; apply c_ret; cbn; lia|].
  destruct (nargs =? 2); [do 2 (apply c_then; [apply z_on, z_free|intros ?]); apply c_ret; cbn; lia|].
  destruct (nargs =? 3); [do 3 (apply c_then; [apply z_on, z_free|intros ?]); apply c_ret; cbn; lia|].
  destruct (nargs =? 4); [do 4 (apply c_then; [apply z_on, z_free|intros ?]); apply c_ret; cbn; lia|].
  assert (X : forall (l : list Z) k, zlen l = 2 * Z.max 0 k -> zlen l / 2 = Z.max 0 k) by (intros l k ->; rewrite Z.mul_comm; apply Z.div_mul; lia).
  destruct (nargs =? -1).
  - match goal with |- costs (if ?b then _ else _) _ => destruct b end.
    + do 3 (apply c_then; [apply z_on, z_free|intros ?]). eapply c_bind; [apply c_read_extra|]. intros l v (L & ->). apply c_ret. unfold op_entries. cbn [o_extra mkop]. rewrite (X _ _ L). lia.
    + destruct (n =? OSwitch).
      * do 2 (apply c_then; [apply z_on, z_free|intros ?]). eapply c_bind; [apply c_read_extra|]. intros l v (L & ->). apply c_then; [apply z_on, z_free|intros ?]. apply c_ret. unfold op_entries. cbn [o_extra mkop]. rewrite (X _ _ L). lia.
      * apply c_then; [apply z_free|intros ?]. intros s1 a1 s2 t1 E. discriminate.
  - cbv zeta. do 3 (apply c_then; [apply z_on, z_free|intros ?]). apply c_then; [z|intros ?]. eapply c_bind; [apply c_read_extra|]. intros l v (L & ->). apply c_ret. unfold op_entries. cbn [o_extra mkop]. rewrite (X _ _ L). lia.
Qed.
Lemma c_read_function : costs CostModel.read_function (fun f v => v = al * (Z.max 0 (hf_nregs f) + zlen (hf_ops f)) + (al + be) * total op_entries (hf_ops f)).
Proof.
  unfold CostModel.read_function. apply c_then; [apply z_on, z_get_type|intros t]. do 3 (apply c_then; [apply z_on, z_free|intros ?]).
  eapply c_bind; [apply c_plain; intros; apply z_bind; [apply z_on, z_get_type|intros; apply z_free]|]. intros regs v ->. apply c_then; [apply z_on, z_free|intros [e|]].
  - eapply c_bind; [apply (c_range _ zlen (fun l => (al + be) * total op_entries l))|].
    + intros j l. eapply c_bind; [apply c_unwrap, c_read_opcode|]. intros o v ->. apply c_insert. intros l' I. split; [now apply zinsert_len in I|]. rewrite (total_insert _ _ _ _ _ _ I). lia.
    + intros ops v (L & ->). apply c_ret. change (zlen (@nil opcode)) with 0 in L. cbn [hf_nregs hf_ops]. cbn [total fold_right]. lia.
  - apply c_ret. cbn. lia.
Qed.

(** * debug information *)
Lemma b_out A B (x : CostModel.M A) (y : A -> CostModel.M B) s b s2 t : CostModel.bind x y s = ((Ok b, s2), t) ->
  exists a s1 t1 t2, x s = ((Ok a, s1), t1) /\ y a s1 = ((Ok b, s2), t2) /\ meter t = meter t1 + meter t2.
Proof.
  unfold CostModel.bind. destruct (x s) as [[[a|e|q] s1] t1]; [|discriminate|discriminate]. destruct (y a s1) as [[r2 s3] t2] eqn:E2. intros E. injection E as -> -> <-. exists a, s1, t1, t2. rewrite meter_plus. auto.
Qed.
(** parts that read nothing *)
Definition quiet {A} (x : CostModel.M A) : Prop := forall s a s' t, x s = ((Ok a, s'), t) -> d_buf s' = d_buf s /\ meter t = 0.
Lemma q_free A (m : M A) : (forall s a s', m s = (Ok a, s') -> d_buf s' = d_buf s) -> quiet (CostModel.free m).
Proof. intros H s a s' t E. unfold CostModel.free in E. injection E as E <-. split; [eauto|apply meter_none]. Qed.
Lemma q_then A B (x : CostModel.M A) (y : A -> CostModel.M B) s b s2 t : quiet x -> CostModel.bind x y s = ((Ok b, s2), t) -> exists a s1 t2, y a s1 = ((Ok b, s2), t2) /\ d_buf s1 = d_buf s /\ meter t = meter t2.
Proof. intros Q E. apply b_out in E. destruct E as (a & s1 & t1 & t2 & E1 & E2 & Et). destruct (Q _ _ _ _ E1) as (D & Z0). exists a, s1, t2. repeat split; auto. lia. Qed.
Lemma byte_then B (y : Z -> CostModel.M B) s b r z s2 t : d_buf s = b :: r -> CostModel.bind (CostModel.unwrap CostModel.decode_u8) y s = ((Ok z, s2), t) -> exists s1 t2, y b s1 = ((Ok z, s2), t2) /\ d_buf s1 = r /\ meter t = meter t2.
Proof.
  intros D E. apply b_out in E. destruct E as (a & s1 & t1 & t2 & E1 & E2 & Et). unfold CostModel.unwrap, CostModel.on, CostModel.decode_u8, CostModel.free in E1. injection E1 as E1 <-. rewrite meter_none in Et.
  unfold unwrap, decode_u8, decode_unsigned, bind, read_bytes in E1. rewrite D in E1. destruct (Z.ltb_spec (zlen (b :: r)) 1) as [L|_]; [rewrite zlen_cons in L; pose proof (zlen_nonneg r); lia|].
  cbn [Z.to_nat Pos.to_nat Pos.iter_op Init.Nat.add firstn skipn ret from_le] in E1. change (Pos.to_nat 1) with 1%nat in E1. cbn [firstn skipn from_le] in E1. unfold ret in E1. injection E1 as <- <-. exists {| d_buf := r; d_pos := d_pos s + 1; d_code := d_code s; errs := errs s; d_log := d_log s |}, t2.
  rewrite Z.add_0_r in E2. cbn [DecoderModel.d_buf]. split; [exact E2|]. split; [reflexivity|lia].
Qed.
Lemma q_i32 x y : quiet (CostModel.i32_add x y). Proof. apply q_free. intros s a s' E. unfold i32_add in E. destruct (I32_MAX <? x + y); [discriminate|]. now injection E as <- <-. Qed.
Lemma i32_out x y s a s' t : CostModel.i32_add x y s = ((Ok a, s'), t) -> a = x + y. Proof. unfold CostModel.i32_add, CostModel.free, i32_add. destruct (I32_MAX <? x + y); [discriminate|]. now intros [= <- _ _]. Qed.
Lemma q_to x : quiet (CostModel.to_i32 x). Proof. apply q_free. intros s a s' E. unfold to_i32 in E. destruct (I32_MAX <? x); [discriminate|]. now injection E as <- <-. Qed.
Lemma q_code : quiet CostModel.get_code. Proof. apply q_free. intros s a s' E. now injection E as <- <-. Qed.
Lemma q_pos : quiet CostModel.get_pos. Proof. apply q_free. intros s a s' E. now injection E as <- <-. Qed.
Lemma q_warn (b : bool) e : quiet (if b then CostModel.record_error e else CostModel.ret tt). Proof. destruct b; apply q_free; intros s a s' E; now injection E as <- <-. Qed.
Lemma q_store d i f l : quiet (CostModel.debug_store d i f l).
Proof. apply q_free. intros s a s' E. unfold debug_store, bind, expect in E. destruct (zset d (2 * i) f) as [d1|]; [|discriminate]. unfold ret in E. destruct (zset d1 (2 * i + 1) l); [|discriminate]. now injection E as <- <-. Qed.
Ltac bf := repeat match goal with H : d_buf ?x = _ |- d_buf ?x = _ => rewrite H end; reflexivity.
Ltac dm := Z.div_mod_to_equations; lia.
Ltac hush E H := match type of E with CostModel.bind ?x _ _ = _ => let Q := fresh in
  assert (Q : quiet x) by first [apply q_i32|apply q_to|apply q_code|apply q_pos|apply q_warn|apply q_store]; apply q_then in E; [|exact Q]; clear Q;
  let a := fresh "a" in let s1 := fresh "s" in let t2 := fresh "t" in let B := fresh "B" in let T := fresh "T" in destruct E as (a & s1 & t2 & E & B & T) end.
Lemma c_debug_loop nf nops rs : forall fuel i file line d s bs rest l d' s' t, d_buf s = bs ++ rest -> many spell_rrec bs rs -> run_debug nf nops i file line rs = Some l ->
  CostModel.debug_loop fuel nops i file line d s = ((Ok d', s'), t) -> meter t = al * zlen rs.
Proof.
  induction rs as [|r rs IH]; intros fuel i file line d s bs rest l d' s' t B M R E; (destruct fuel as [|fuel]; cbn [CostModel.debug_loop] in E; [discriminate|]); cbn [run_debug] in R.
  { destruct (i <? nops); [discriminate|]. unfold CostModel.ret, CostModel.free, ret in E. injection E as <- <- <-. rewrite meter_none. change (zlen (@nil rrec)) with 0. lia. }
  destruct (i <? nops); [|discriminate]. cbn [negb] in R. rewrite zlen_cons. apply b_out in E. destruct E as (u & s1 & t1 & t2 & E1 & E & Et).
  assert (T1 : meter t1 = al) by (injection E1 as _ _ <-; unfold meter; cbn; lia). assert (B1 : d_buf s1 = bs ++ rest) by (injection E1 as _ <- _; exact B). clear E1.
  inversion M as [|b1 b2 r' rs' Sp M' Eb El]; subst r' rs' bs. cbv zeta in E. rewrite <- app_assoc in B1.
  enough (X : meter t2 = al * zlen rs) by lia. clear t1 T1 Et B M s.
  destruct r as [f|dl n|dl|x1 x2 x3]; cbn [spell_rrec] in Sp; destruct Sp as (-> & Rr); cbn [app] in B1; eapply byte_then in E; try exact B1; destruct E as (s3 & t3 & E & B3 & T3); rewrite T3; clear T3 t2 B1 s1.
  - assert (Rc : 0 <= 2 * (f / 256) + 1 < 256) by (dm). destruct (byte_split _ Rc) as (S1 & S2 & S4 & H1 & _). rewrite S1 in E. assert (Q : (2 * (f / 256) + 1) mod 2 =? 0 = false) by (dm). rewrite Q in E. cbn [negb] in E.
    eapply byte_then in E; [|exact B3]. destruct E as (s4 & t4 & E & B4 & T4). rewrite H1 in E. hush E X. hush E X. hush E X. hush E X. rewrite T4, T, T0, T1, T2. destruct (f <? nf); [|discriminate].
    replace (Z.lor (Z.shiftl ((2 * (f / 256) + 1) / 2) 8) (f mod 256)) with f in E. { eapply IH; [|exact M'|exact R|exact E]. bf. }
    rewrite Z.lor_comm, lor_shift by (dm). dm.
  - assert (Rc : 0 <= 64 * dl + 4 * n + 2 < 256) by lia. destruct (byte_split _ Rc) as (S1 & S2 & S4 & H1 & H2 & H3 & H4). rewrite S1, S2, H2 in E. assert (Q : (64 * dl + 4 * n + 2) mod 2 =? 0 = true) by (dm). assert (Q2 : (64 * dl + 4 * n + 2) / 2 mod 2 =? 0 = false) by (dm).
    rewrite Q, Q2 in E. cbn [negb] in E. destruct ((i + n <=? nops) && (line + dl <? 2 ^ 31)); [|discriminate]. hush E X. hush E X.
    apply b_out in E. destruct E as (ln & s5 & t5 & t6 & E5 & E & T6). assert (W : ln = line + dl /\ d_buf s5 = d_buf s0 /\ meter t5 = 0).
    { destruct (q_i32 _ _ _ _ _ _ E5) as (W1 & W2). split; [|auto]. rewrite (i32_out _ _ _ _ _ _ E5). dm. }
    destruct W as (-> & B5 & Z5). rewrite T, T0, T6, Z5, Z.add_0_l. eapply IH; [|exact M'|exact R|exact E]. bf.
  - assert (Rc : 0 <= 8 * dl + 4 < 256) by lia. destruct (byte_split _ Rc) as (S1 & S2 & S4 & H1 & H2 & H3 & H4). rewrite S1, S2, S4, H4 in E. assert (Q : (8 * dl + 4) mod 2 =? 0 = true) by (dm). assert (Q2 : (8 * dl + 4) / 2 mod 2 =? 0 = true) by (dm). assert (Q3 : (8 * dl + 4) / 4 mod 2 =? 0 = false) by (dm).
    rewrite Q, Q2, Q3 in E. cbn [negb] in E. destruct (line + dl <? 2 ^ 31); [|discriminate]. destruct (run_debug nf nops (i + 1) file (line + dl) rs) as [l0|] eqn:R0; [|discriminate].
    apply b_out in E. destruct E as (ln & s5 & t5 & t6 & E5 & E & T6). assert (W : ln = line + dl /\ d_buf s5 = d_buf s3 /\ meter t5 = 0).
    { destruct (q_i32 _ _ _ _ _ _ E5) as (W1 & W2). split; [|auto]. rewrite (i32_out _ _ _ _ _ _ E5). dm. }
    destruct W as (-> & B5 & Z5). hush E X. rewrite T6, Z5, T, Z.add_0_l. eapply IH; [|exact M'|exact R0|exact E]. bf.
  - assert (Rc : 0 <= 8 * x1 < 256) by lia. destruct (byte_split _ Rc) as (S1 & S2 & S4 & H1 & H2 & H3 & H4). rewrite S1, S2, S4 in E. assert (Q : 8 * x1 mod 2 =? 0 = true) by (dm). assert (Q2 : 8 * x1 / 2 mod 2 =? 0 = true) by (dm). assert (Q3 : 8 * x1 / 4 mod 2 =? 0 = true) by (dm).
    rewrite Q, Q2, Q3 in E. cbn [negb] in E. destruct (run_debug nf nops (i + 1) file (abs_line x1 x2 x3) rs) as [l0|] eqn:R0; [|discriminate].
    eapply byte_then in E; [|exact B3]. destruct E as (s4 & t4 & E & B4 & T4). eapply byte_then in E; [|exact B4]. destruct E as (s5 & t5 & E & B5 & T5). hush E X. rewrite T4, T5, T.
    replace (Z.lor (Z.lor (Z.shiftr (8 * x1) 3) (Z.shiftl x2 5 mod 256)) x3) with (abs_line x1 x2 x3) in E. { eapply IH; [|exact M'|exact R0|exact E]. bf. }
    unfold abs_line. rewrite H4, Z.shiftl_mul_pow2 by lia. replace (8 * x1 / 8) with x1 by (dm). change (2 ^ 5) with 32. now rewrite (Z.mul_comm x2 32).
Qed.
Lemma c_debug nf nops rs s bs rest l d' s' t : d_buf s = bs ++ rest -> many spell_rrec bs rs -> run_debug nf nops 0 (-1) 0 rs = Some l ->
  CostModel.debug_infos nops s = ((Ok d', s'), t) -> meter t = al * zlen rs + be * Z.max 0 (2 * nops).
Proof.
  intros B M R E. unfold CostModel.debug_infos in E. apply b_out in E. destruct E as (u & s1 & t1 & t2 & E1 & E & ->). unfold CostModel.fill in E1. assert (Es : s1 = s) by congruence. subst s1. rewrite (c_debug_loop _ _ _ _ _ _ _ _ _ _ _ _ _ _ _ B M R E).
  pose proof (f_equal (fun x => meter (snd x)) E1) as W. unfold CostModel.fill in W. cbn [snd] in W. rewrite <- W. unfold meter. cbn [turns filled]. lia.
Qed.
End Meter.
