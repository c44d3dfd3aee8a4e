(** What the reader's functions do on input that stops inside what they would have read.  Used by PropsCut.v. *)
From Verif Require Import Prelude StdModel BrassTypes DecoderModel CodeModel FormatSpec ReaderSpec.
From Verif Require Import CodeGenericProofs.
From Coq Require Import Lia.

(** On any proper prefix of the bytes an error-free run uses, [m] ends in [P], with nothing in the error cell. *)
Definition Cut (P : forall A : Type, res derr A -> Prop) {A} (m : M A) : Prop := forall s a s' x y, bytes (d_buf s) ->
  m s = (Ok a, s') -> errs s' = None -> d_buf s = x ++ y ++ d_buf s' -> y <> [] ->
  exists r s2, m (with_buf s x) = (r, s2) /\ P A r /\ errs s2 = None.
Definition dies (A : Type) (r : res derr A) : Prop := r = Panic PUnwrap.
Definition fails (A : Type) (r : res derr A) : Prop := r = Panic PUnwrap \/ exists e, r = Err e.
Definition CutD {A} (m : M A) := Cut dies m.
Definition CutF {A} (m : M A) := Cut fails m.

Lemma cut_still P {A} (m : M A) : (forall s a s', m s = (Ok a, s') -> errs s' = None -> d_buf s' = d_buf s) -> Cut P m.
Proof.
  intros H s a s' x y B R N E Y. exfalso. rewrite (H _ _ _ R N) in E. apply Y. apply (f_equal (@length Z)) in E. rewrite !app_length in E.
  destruct y; [reflexivity|]. cbn in E. lia.
Qed.
Lemma cut_D_F {A} (m : M A) : CutD m -> CutF m.
Proof. intros H s a s' x y B R N E Y. destruct (H s a s' x y B R N E Y) as (r & s2 & R2 & D & N2). exists r, s2. split; [auto|]. split; [left; exact D|auto]. Qed.
Lemma prefix_cases (u1 x y z : list Z) : u1 ++ z = x ++ y -> (exists y1, u1 = x ++ y1 /\ y1 <> []) \/ exists x2, x = u1 ++ x2 /\ z = x2 ++ y.
Proof.
  revert x. induction u1 as [|b u1 IH]; intros x E; cbn in E.
  - right. exists x. auto.
  - destruct x as [|c x]; cbn in E.
    + left. exists (b :: u1). split; [reflexivity|discriminate].
    + injection E as -> E. destruct (IH x E) as [(y1 & -> & Y)|(x2 & -> & ->)]; [left|right]; [exists y1|exists x2]; auto.
Qed.
(** the failures pass through a sequence *)
Lemma cut_bind (P : forall A : Type, res derr A -> Prop) w {A B} (m : M A) (k : A -> M B) : (forall (r : res derr A) s s', P A r -> m s = (r, s') -> exists r', bind m k s = (r', s') /\ P B r') ->
  Good w m -> (forall a, Good w (k a)) -> Cut P m -> (forall a, Cut P (k a)) -> Cut P (bind m k).
Proof.
  intros T Gm Gk Cm Ck s b s' x y B0 R N E Y. unfold bind in R. destruct (m s) as [[a|e|p] s1] eqn:Em; try discriminate.
  pose proof (g_fwd _ _ Gm _ _ _ B0 Em) as F1. assert (B1 : bytes (d_buf s1)) by (eapply fwd_bytes; eauto).
  pose proof (g_fwd _ _ (Gk a) _ _ _ B1 R) as F2.
  assert (N1 : errs s1 = None). { destruct F2 as [_ F2]. destruct (errs s1); [|reflexivity]. exfalso. apply F2; congruence. }
  destruct (g_local _ _ Gm _ _ _ B0 Em N1) as (u1 & U1 & L1). rewrite U1 in E. destruct (prefix_cases u1 x (y ++ d_buf s') (d_buf s1) E) as [(y1 & -> & Y1)|(x2 & -> & E2)].
  - rewrite <- app_assoc in U1. destruct (Cm s a s1 x y1 B0 Em N1 U1 Y1) as (r & s2 & R2 & D & N2). destruct (T r _ _ D R2) as (r' & R' & D'). exists r', s2. auto.
  - assert (Bx : bytes x2) by (rewrite E2 in B1; now apply Forall_app in B1).
    destruct (Ck a s1 b s' x2 y B1 R N E2 Y) as (r & s2 & R2 & D & N2). exists r, s2. split; [|auto]. unfold bind. rewrite (L1 x2 Bx). exact R2.
Qed.
Lemma cutD_bind w {A B} (m : M A) (k : A -> M B) : Good w m -> (forall a, Good w (k a)) -> CutD m -> (forall a, CutD (k a)) -> CutD (bind m k).
Proof. apply cut_bind. intros r s s' -> R. exists (Panic PUnwrap). unfold bind. rewrite R. split; reflexivity. Qed.
Lemma cutF_bind w {A B} (m : M A) (k : A -> M B) : Good w m -> (forall a, Good w (k a)) -> CutF m -> (forall a, CutF (k a)) -> CutF (bind m k).
Proof.
  apply cut_bind. intros r s s' [->|(e & ->)] R; [exists (Panic PUnwrap)|exists (Err e)]; unfold bind; rewrite R; split; auto; [left|right]; eauto.
Qed.
Lemma cut_unwrap {A} (m : M A) : CutF m -> CutD (unwrap m).
Proof.
  intros C s a s' x y B R N E Y. unfold unwrap in R. destruct (m s) as [[a0|e|p] s1] eqn:Em; inversion R; subst.
  destruct (C s a s' x y B Em N E Y) as (r & s2 & R2 & [->|(e & ->)] & N2); exists (Panic PUnwrap), s2; unfold unwrap; rewrite R2; repeat split; auto.
Qed.
Lemma cut_unwrap_mapped {A} (m : M A) : CutD m -> CutD (unwrap_mapped m).
Proof.
  intros C s a s' x y B R N E Y. unfold unwrap_mapped in R. destruct (m s) as [[a0|e|p] s1] eqn:Em; inversion R; subst.
  destruct (C s a s' x y B Em N E Y) as (r & s2 & R2 & -> & N2). exists (Panic PUnwrap), s2. unfold unwrap_mapped. rewrite R2. repeat split; auto.
Qed.
Lemma cut_ok_mapped {A} (m : M A) : CutD m -> CutD (ok_mapped m).
Proof.
  intros C s a s' x y B R N E Y. unfold ok_mapped in R. destruct (m s) as [[a0|e|p] s1] eqn:Em; inversion R; subst.
  - destruct (C s a0 s' x y B Em N E Y) as (r & s2 & R2 & -> & N2). exists (Panic PUnwrap), s2. unfold ok_mapped. rewrite R2. repeat split; auto.
  - cbn in N. destruct (errs s1); discriminate.
Qed.
Lemma cut_ok {A} (m : M A) : ErrRec m -> CutD m -> CutD (ok m).
Proof.
  intros ER C s a s' x y B R N E Y. unfold ok in R. destruct (m s) as [[a0|e|p] s1] eqn:Em; inversion R; subst.
  - destruct (C s a0 s' x y B Em N E Y) as (r & s2 & R2 & -> & N2). exists (Panic PUnwrap), s2. unfold ok. rewrite R2. repeat split; auto.
  - destruct (ER _ _ _ Em N).
Qed.
Lemma cut_ret P {A} (a : A) : Cut P (ret a). Proof. apply cut_still. intros s b s' R _. now inversion R. Qed.
Lemma cut_get_pos P : Cut P get_pos. Proof. apply cut_still. intros s b s' R _. now inversion R. Qed.
Lemma cut_get_code P : Cut P get_code. Proof. apply cut_still. intros s b s' R _. now inversion R. Qed.
Lemma cut_put_code P c : Cut P (put_code c). Proof. apply cut_still. intros s b s' R _. now inversion R. Qed.
Lemma cut_throw P {A} e : Cut P (@throw A e). Proof. apply cut_still. discriminate. Qed.
Lemma cut_crash P {A} p : Cut P (@crash A p). Proof. apply cut_still. discriminate. Qed.
Lemma cut_expect P {A} p (o : option A) : Cut P (expect p o). Proof. destruct o; [apply cut_ret|apply cut_crash]. Qed.
Lemma cut_lift P {A} (r : res derr A) : Cut P (lift r). Proof. apply cut_still. intros s b s' R _. now inversion R. Qed.
Lemma cut_record P e : Cut P (record_error e). Proof. apply cut_still. intros s b s' R _. now inversion R. Qed.
Lemma cut_map_err P e : Cut P (map_err e). Proof. apply cut_still. intros s b s' R _. now inversion R. Qed.
Lemma cut_check P : Cut P check_error.
Proof. apply cut_still. intros s b s' R _. unfold check_error in R. destruct (errs s); now inversion R. Qed.
Lemma cut_read_bytes n : CutF (read_bytes n).
Proof.
  intros s a s' x y B R N E Y. unfold read_bytes in *. destruct (Z.ltb_spec (zlen (d_buf s)) n) as [L|L]; [discriminate|]. injection R as <- <-. cbn [d_buf errs] in *.
  assert (Lx : zlen x < n).
  { apply (f_equal (@length Z)) in E. rewrite !app_length, skipn_length in E. unfold zlen in *. destruct y; [congruence|]. cbn [length] in E. lia. }
  eexists _, _. cbn [d_buf with_buf]. destruct (Z.ltb_spec (zlen x) n); [|lia]. split; [reflexivity|]. split; [right; eauto|exact N].
Qed.
Lemma cut_u8 : CutF decode_u8. Proof. apply (cutF_bind true); [apply good_read_bytes; lia|intros; apply good_ret|apply cut_read_bytes|intros; apply cut_ret]. Qed.
Lemma cut_i32 : CutF decode_i32. Proof. apply (cutF_bind true); [apply good_read_bytes; lia|intros; apply good_ret|apply cut_read_bytes|intros; apply cut_ret]. Qed.
Lemma cut_u8D : CutD (unwrap decode_u8). Proof. apply cut_unwrap, cut_u8. Qed.
Lemma cut_for_loop P w {A} (body : Z -> A -> M A) : (forall B (m : M A) (k : A -> M B), Good w m -> (forall a, Good w (k a)) -> Cut P m -> (forall a, Cut P (k a)) -> Cut P (bind m k)) ->
  (forall i a, Good w (body i a)) -> (forall i a, Cut P (body i a)) -> forall n i a, Cut P (for_loop n i body a).
Proof.
  intros CB G C. induction n as [|n IH]; intros i a; cbn [for_loop]; [apply cut_ret|]. apply CB; auto. intros. now apply good_for_loop.
Qed.
Lemma cutD_for_range {A} n (body : Z -> A -> M A) acc : (forall i a, Good true (body i a)) -> (forall i a, CutD (body i a)) -> CutD (for_range n body acc).
Proof. intros G C. apply (cut_for_loop dies true); auto. intros. now apply (cutD_bind true). Qed.

Create HintDb cut.
#[export] Hint Resolve cut_ret cut_get_pos cut_get_code cut_put_code cut_throw cut_crash cut_expect cut_record cut_map_err cut_check cut_lift cut_u8 cut_i32 cut_u8D : cut.
Ltac cut1 :=
  match goal with
  | |- CutD (bind _ _) => apply (cutD_bind true); [solve [good]|intro; solve [good]| |intro]
  | |- CutF (bind _ _) => apply (cutF_bind true); [solve [good]|intro; solve [good]| |intro]
  | |- CutD (unwrap _) => solve [eauto with cut] || apply cut_unwrap
  | |- CutD (unwrap_mapped _) => apply cut_unwrap_mapped
  | |- CutD (ok_mapped _) => apply cut_ok_mapped
  | |- CutD (ok _) => apply cut_ok; [solve [eauto with good]|]
  | |- CutD (for_range _ _ _) => apply cutD_for_range; [intros; solve [good]|intros]
  | |- CutD (if ?b then _ else _) => destruct b
  | |- CutF (if ?b then _ else _) => destruct b
  | |- CutD (match ?x with _ => _ end) => destruct x
  | |- CutD (let x := _ in _) => cbv zeta
  | |- CutD ((fun _ => _) _) => cbv beta
  | |- CutD (vec_insert _ _ _) => apply cut_expect
  | |- CutD _ => solve [eauto with cut] || solve [unfold CutD; eauto with cut]
  | |- CutF _ => solve [eauto with cut] || solve [unfold CutF; eauto with cut] || apply cut_D_F
  end.
Ltac cut := repeat cut1.
Lemma cut_read_index : CutF read_index. Proof. unfold read_index. cut. Qed.
#[export] Hint Resolve cut_read_index : cut.
Lemma cut_INDEX : CutD INDEX. Proof. apply cut_unwrap, cut_read_index. Qed.
#[export] Hint Resolve cut_INDEX : cut.
Lemma cut_UINDEX : CutD UINDEX. Proof. unfold UINDEX. cut. Qed.
#[export] Hint Resolve cut_UINDEX : cut.
Lemma cut_to_i32 x : CutD (to_i32 x). Proof. unfold to_i32. cut. Qed.
Lemma cut_i32_add x y : CutD (i32_add x y). Proof. unfold i32_add. cut. Qed.
#[export] Hint Resolve cut_to_i32 cut_i32_add : cut.
Lemma cut_read_string : CutD read_string. Proof. unfold read_string. cut. Qed.
Lemma cut_read_ustring : CutD read_ustring.
Proof.
  unfold read_ustring. assert (G : forall c i, Good true (lift (get_ustring c i))).
  { intros c i. apply good_lift. unfold get_ustring. repeat match goal with |- context [match ?x with _ => _ end] => destruct x end; discriminate. }
  apply (cutD_bind true); [good|intros; good; auto| cut|]. intros i. apply (cutD_bind true); [good|intros; good; auto| cut|]. intros c. apply (cutD_bind true); [good|intros; good; auto|cut|].
  intros n. destruct ((i <? 0) || (n <=? i)); [cut|]. apply (cutD_bind true); [auto|intros; good| apply cut_lift|]. intros. cut.
Qed.
Lemma cut_get_type : CutD get_type. Proof. unfold get_type. cut. Qed.
#[export] Hint Resolve cut_read_string cut_read_ustring cut_get_type : cut.
Lemma cut_read_fields n : CutD (read_fields n). Proof. unfold read_fields. cut. Qed.
Lemma cut_read_protos n : CutD (read_protos n). Proof. unfold read_protos. cut. Qed.
Lemma cut_read_bindings n : CutD (read_bindings n). Proof. unfold read_bindings. cut. Qed.
Lemma cut_read_type_refs n : CutD (read_type_refs n). Proof. unfold read_type_refs. cut. Qed.
#[export] Hint Resolve cut_read_fields cut_read_protos cut_read_bindings cut_read_type_refs : cut.
Lemma cut_read_constructs n : CutD (read_constructs n). Proof. unfold read_constructs. cut. Qed.
#[export] Hint Resolve cut_read_constructs : cut.
Lemma cut_read_type : CutD read_type. Proof. unfold read_type. cut. Qed.
#[export] Hint Resolve cut_read_type : cut.
Lemma cut_strings_loop n : forall text cur ss ls, CutD (strings_loop n text cur ss ls).
Proof. induction n; intros; cbn [strings_loop]; cut. Qed.
Lemma cut_read_extra r n : Good true r -> CutD (unwrap r) -> CutD (read_extra r n). Proof. intros. unfold read_extra. cut. Qed.
Lemma cut_extra_INDEX n : CutD (read_extra INDEX n). Proof. apply cut_read_extra; [good|cut]. Qed.
Lemma cut_extra_UINDEX n : CutD (read_extra UINDEX n). Proof. apply cut_read_extra; [good|cut]. Qed.
#[export] Hint Resolve cut_extra_INDEX cut_extra_UINDEX : cut.
Lemma cut_read_opcode : CutD read_opcode. Proof. unfold read_opcode. cut. Qed.
#[export] Hint Resolve cut_read_opcode : cut.
Lemma cut_read_function : CutD read_function. Proof. unfold read_function. cut. Qed.
Lemma cut_debug_store d i f l : CutD (debug_store d i f l). Proof. unfold debug_store. cut. Qed.
#[export] Hint Resolve cut_read_function cut_debug_store : cut.
Lemma cut_debug_loop fuel : forall nops i cf cl d, CutD (debug_loop fuel nops i cf cl d).
Proof.
  induction fuel; intros; cbn [debug_loop]; [apply cut_crash|]. pose proof (good_debug_loop_true fuel) as GD. cut; apply IHfuel.
Qed.
Lemma cut_debug_infos nops : CutD (debug_infos nops).
Proof.
  intros s a s' x y B R N E Y. unfold debug_infos in *. destruct (cut_debug_loop _ _ _ _ _ _ s a s' x y B R N E Y) as (r & s2 & R2 & D & N2). cbn [d_buf with_buf].
  assert (L : (S (length x) <= S (length (d_buf s)))%nat) by (rewrite E, app_length; lia).
  destruct (debug_loop_agree (S (length x)) (S (length (d_buf s))) nops 0 (-1) 0 (zrepeat 0 (2 * nops)) (with_buf s x) L) as [X|X].
  - exfalso. revert X. apply debug_loop_nofuel; cbn [d_buf with_buf]; [|lia]. rewrite E in B. now apply Forall_app in B.
  - rewrite <- X, R2. eauto.
Qed.
#[export] Hint Resolve cut_debug_infos : cut.
Lemma cut_read_count f c : CutD (read_count f c). Proof. unfold read_count. cut. Qed.
#[export] Hint Resolve cut_read_count : cut.
Lemma cut_read_counts c : CutD (read_counts c). Proof. unfold read_counts. cut. Qed.
Lemma cut_read_types c : CutD (read_types c). Proof. unfold read_types. cut. Qed.
Lemma cut_read_globals c : CutD (read_globals c). Proof. unfold read_globals. cut. Qed.
Lemma cut_read_natives c : CutD (read_natives c). Proof. unfold read_natives. cut. Qed.
Lemma cut_skip_assigns : CutD skip_assigns. Proof. unfold skip_assigns. cut. Qed.
#[export] Hint Resolve cut_read_counts cut_read_types cut_read_globals cut_read_natives cut_skip_assigns : cut.
Lemma cut_read_function_entry i c : CutD (read_function_entry i c). Proof. unfold read_function_entry. cut. Qed.
#[export] Hint Resolve cut_read_function_entry : cut.
Lemma cut_read_functions c : CutD (read_functions c). Proof. unfold read_functions. cut. Qed.
Lemma cut_read_constants c : CutD (read_constants c). Proof. unfold read_constants. cut. Qed.
