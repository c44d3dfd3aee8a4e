(** Accepted modules: no error was recorded, and the result is well-shaped. *)
From Verif Require Import Prelude StdModel BrassTypes DecoderModel CodeModel FormatSpec ReaderSpec AcceptSpec.
From Verif Require Import CodeGenericProofs Utf8Proofs FormatProofs ReaderPost ReaderTables.
From Coq Require Import Lia.

Lemma check_error_ok s a s' : check_error s = (Ok a, s') -> errs s' = None /\ s' = s.
Proof. unfold check_error. destruct (errs s) eqn:E; [discriminate|]. intros H; inversion H; subst. auto. Qed.

Lemma read_functions_clean c s a s' : read_functions c s = (Ok a, s') -> errs s' = None.
Proof.
  intros E. unfold read_functions in E. apply bind_ok in E as (c1 & s1 & _ & E).
  apply bind_ok in E as (u & s2 & E2 & E). apply check_error_ok in E2 as [E2 ->]. inversion E; subst. auto.
Qed.
Lemma loop_clean {A} (body : Z -> A -> M A) :
  (forall i a s b s', body i a s = (Ok b, s') -> errs s' = None) ->
  forall n i acc s a s', for_loop n i body acc s = (Ok a, s') -> errs s = None -> errs s' = None.
Proof.
  intros H. induction n as [|n IH]; intros i acc s a s' E N; cbn [for_loop] in E.
  - inversion E; subst. auto.
  - apply bind_ok in E as (b & s1 & E1 & E). eapply IH; [exact E|]. eapply H; eauto.
Qed.
Lemma read_constants_clean c s a s' : read_constants c s = (Ok a, s') -> errs s = None -> errs s' = None.
Proof.
  intros E N. unfold read_constants, for_range in E. eapply loop_clean; [|exact E|exact N].
  clear. intros i c s b s' E.
  apply bind_ok in E as (g & s1 & _ & E). apply bind_ok in E as (nf & s2 & _ & E).
  apply bind_ok in E as (fs & s3 & _ & E). apply bind_ok in E as (u & s4 & E4 & E).
  apply check_error_ok in E4 as [E4 ->]. apply bind_ok in E as (ks & s5 & E5 & E).
  apply expect_ok in E5 as [_ ->]. cbv zeta in E. apply bind_ok in E as (u2 & s6 & E6 & E).
  inversion E6; subst. inversion E; subst. cbn. exact E4.
Qed.
Lemma code_read_clean s c s' : code_read s = (Ok c, s') -> errs s' = None.
Proof.
  intros E. unfold code_read in E. cbv zeta in E.
  do 10 (apply bind_ok in E as (? & ? & _ & E)).
  apply bind_ok in E as (c1 & s1 & E1 & E). apply bind_ok in E as (c2 & s2 & E2 & E).
  apply read_functions_clean in E1. apply read_constants_clean in E2; [|auto].
  inversion E; subst. auto.
Qed.

(** Acceptance implies no error ever recorded, during the read or before it. *)
Lemma accepted_clean e0 buf c s' : bytes buf -> code_read (start e0 buf) = (Ok c, s') ->
  e0 = None /\ errs s' = None /\ d_log s' = [].
Proof.
  intros B E. pose proof (code_read_clean _ _ _ E) as N.
  destruct (g_fwd _ _ (good_code_read true) (start e0 buf) _ _ B E) as (_ & F & l & L & Ln). cbn in F, L.
  repeat split; auto; [|rewrite L; auto]. destruct e0; [exfalso; apply F; congruence|reflexivity].
Qed.

Lemma contents_new : contents_ok code_new.
Proof.
  unfold contents_ok. cbn. assert (types_ok [] 0 []) by (exists []; repeat split; destruct i; discriminate).
  assert (globals_ok [] 0 []) by (exists []; repeat split; constructor).
  repeat match goal with |- _ /\ _ => split end; auto; try constructor; try lia; reflexivity.
Qed.
Lemma sizes_new : sizes_ok code_new.
Proof. unfold sizes_ok. cbn - [Z.pow]. split; [repeat constructor; lia|]. repeat split; try lia; reflexivity. Qed.

(** The shape of every accepted module. *)
Lemma accepted_ok e0 buf c s' : bytes buf -> code_read (start e0 buf) = (Ok c, s') ->
  contents_ok c /\ sizes_ok c /\ c_debugfiles_lens c = [].
Proof.
  intros B E. pose proof (code_read_clean _ _ _ E) as N.
  destruct (h_code_read (start e0 buf) c s' B eq_refl E N) as (c1 & (_ & H2 & H3 & H4) & [->|[-> _]]).
  - auto.
  - split; [apply contents_new|split; [apply sizes_new|reflexivity]].
Qed.
