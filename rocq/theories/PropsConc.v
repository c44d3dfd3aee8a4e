(** Theorem C74: several threads read modules at the same time.
    Model: ConcModel.v (threads that share the error cell), CodeModel.v (one thread alone). *)
From Verif Require Import Prelude StdModel BrassTypes.
From Verif Require DecoderModel.
From Verif Require Import CodeModel ReaderSpec PropsModule.
From Verif Require Import FormatSpec ConcModel ConcProofs AcceptProofs.
From Coq Require Import Lia.

(** One thread alone is the reader of CodeModel.v: run the call to its end without interference. *)
Theorem C74_alone cell file : exists r l cell', steps (cell, [reader file]) (cell', [Done r l]) /\ CodeModel.read_module cell file = (r, cell').
Proof.
  pose proof (reader_alone cell file) as H. pose proof (run_thread (reader file) cell [] []) as S.
  destruct (alone (reader file) cell) as [[r l] cell']. exists r, l, cell'. auto.
Qed.
(** Files that leave no error behind, read by any number of threads under any schedule: the cell stays
    empty, no thread is ever about to store into it (so there is no data race), and each thread that is
    done has the result of reading its file alone. *)
Theorem C74_quiet files s : Forall (fun f => snd (CodeModel.read_module None f) = None) files ->
  steps (None, map reader files) s ->
  fst s = None /\ (forall e k, ~ In (Put e k) (snd s)) /\ length (snd s) = length files /\
  forall i f r l, nth_error files i = Some f -> nth_error (snd s) i = Some (Done r l) -> r = fst (CodeModel.read_module None f).
Proof.
  intros Q S.
  assert (F : Forall2 quiet (map reader files) (map (fun f => fst (CodeModel.read_module None f)) files)).
  { clear S. induction Q as [|f fs H _ IH]; cbn [map]; constructor; [|auto]. unfold quiet. pose proof (reader_alone None f) as R.
    destruct (alone (reader f) None) as [[r l] cell]. rewrite R in *. cbn in *. auto. }
  destruct (steps_quiet _ _ _ S eq_refl F) as [N F']. split; [exact N|]. split; [|split].
  - intros e k I. clear -F' I. induction F' as [|a r l m H _ IH]; [destruct I|]. destruct I as [->|I]; [now apply quiet_put in H|auto].
  - clear - F'. revert F'. generalize (snd s). induction files; intros ts F'; inversion F'; subst; cbn [length]; auto.
  - intros i f r l Hf Hr. assert (H : exists r', nth_error (map (fun f => fst (CodeModel.read_module None f)) files) i = Some r' /\ quiet (Done r l) r').
    { clear -F' Hr. revert i Hr. induction F' as [|a r' l1 m H _ IH]; intros [|i] Hr; try discriminate; cbn in *; [injection Hr as ->; exists r'; auto|auto]. }
    destruct H as (r' & H1 & H2). rewrite (map_nth_error _ _ _ Hf) in H1. injection H1 as <-. unfold quiet in H2. cbn in H2. tauto.
Qed.
(** In particular valid modules can be read concurrently. *)
Corollary C74_valid files cs s : Forall bytes files -> Forall2 (accepted None) files cs -> steps (None, map reader files) s ->
  forall i c r l, nth_error cs i = Some c -> nth_error (snd s) i = Some (Done r l) -> r = Ok c.
Proof.
  intros B A S i c r l Hc Hr.
  assert (Q : Forall (fun f => snd (CodeModel.read_module None f) = None) files).
  { clear - B A. induction A as [|f c fs cs A _ IH]; constructor; inversion B; subst; auto.
    apply accepted_run in A as [s A]. destruct (accepted_clean _ _ _ _ H1 A) as (_ & N & _). unfold CodeModel.read_module. now rewrite A. }
  destruct (C74_quiet files s Q S) as (_ & _ & _ & H).
  assert (F : exists f, nth_error files i = Some f /\ accepted None f c).
  { clear - A Hc. revert i Hc. induction A as [|f c' fs cs A _ IH]; intros [|i] Hc; try discriminate; cbn in *; [injection Hc as ->; eauto|auto]. }
  destruct F as (f & Hf & Af). rewrite (H _ _ _ _ Hf Hr). exact Af.
Qed.
(** Every schedule ends, and it can only end when all threads are done: no deadlock, no livelock. *)
Theorem C74_ends : well_founded (fun s' s => step s s') /\
  forall s, (forall s', ~ step s s') -> Forall (fun a => exists r l, a = Done r l) (snd s).
Proof.
  split; [exact step_wf|]. intros [cell ts] N. destruct (step_progress cell ts) as [H|[s' H]]; [exact H|destruct (N _ H)].
Qed.
(** Otherwise threads disturb each other: beside any file that records an error, the outcome of reading
    a valid module depends on the schedule; it can fail with an error of the other file. *)
Theorem C74_independent_refuted good bad c : bytes good -> accepted None good c -> snd (CodeModel.read_module None bad) <> None ->
  (exists s l, steps (None, [reader good; reader bad]) s /\ nth_error (snd s) 0 = Some (Done (Ok c) l)) /\
  (exists s e l, steps (None, [reader good; reader bad]) s /\ nth_error (snd s) 0 = Some (Done (Err e) l)).
Proof.
  intros B A N. pose proof (reader_alone None good) as G. pose proof (run_thread (reader good) None [] [reader bad]) as R.
  destruct (alone (reader good) None) as [[r l] cell] eqn:E.
  assert (Q : r = Ok c /\ cell = None).
  { assert (A' := A). unfold accepted in A'. rewrite G in A'. cbn in A'. split; [exact A'|].
    apply accepted_run in A as [s A]. destruct (accepted_clean _ _ _ _ B A) as (_ & X & _). unfold CodeModel.read_module in G. rewrite A in G. congruence. }
  destruct Q as [-> ->]. split.
  - do 2 eexists. split; [exact R|reflexivity].
  - destruct (reader_first good) as (k & Ek & Hk); [exists c, l; exact E|].
    destruct (first_store (reader bad)) as (e & k' & S).
    { pose proof (reader_alone None bad) as R'. destruct (alone (reader bad) None) as [[? ?] cell]. rewrite R' in N. exact N. }
    destruct (Hk e) as (l' & Hl). do 3 eexists. split.
    + eapply steps_trans; [apply (S [reader good] [])|]. cbn [app]. rewrite Ek. econstructor; [apply (step_look (Some e) [] k)|]. rewrite Hl. constructor.
    + reflexivity.
Qed.
(** The set of quiet files is not empty and not everything: a valid module and a wrong header are quiet,
    a negative count is not. *)
Example C74_ex : snd (CodeModel.read_module None (enc_module ex_mod)) = None /\ snd (CodeModel.read_module None [72; 76; 66; 7; 0]) = None /\
  (exists c, accepted None (enc_module ex_mod) c) /\
  snd (CodeModel.read_module None ([72; 76; 66; 4] ++ [0; 160; 1; 0; 0; 0; 0; 0; 0; 0; 0])) <> None.
Proof. split; [vm_compute; reflexivity|]. split; [vm_compute; reflexivity|]. split; [eexists; vm_compute; reflexivity|]. vm_compute. discriminate. Qed.
(** Nothing ever clears the cell: after an error in any thread it holds one for good. *)
Theorem C74_sticky s s' : steps s s' -> fst s <> None -> fst s' <> None.
Proof. exact (steps_some s s'). Qed.
