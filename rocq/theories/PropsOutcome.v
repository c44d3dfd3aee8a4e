(** C84: the outcome of reading any byte sequence, and C44: which sequences crash the reader.
    Specifications: OutcomeSpec.v ([refused]) and GrammarSpec.v through [denotes] of PropsGrammar.v. *)
From Verif Require Import Prelude StdModel BrassTypes DecoderModel CodeModel FormatSpec ReaderSpec ErrSpec GrammarSpec.
From Verif Require Import ErrExact PropsModule PropsGrammar OutcomeSpec OutcomeLay OutcomeFront.
Import OutcomeSpec.
From Coq Require Import Lia ZifyBool.

(** * C84 *)
(** In a process that has reported no error, reading returns error [e] and leaves [cell] in the error cell
    exactly when OutcomeSpec.v says so. *)
Theorem C84_refused buf e cell : bytes buf -> zlen buf < 2 ^ 63 -> (read_module None buf = (Err e, cell) <-> refused buf e cell).
Proof.
  intros B L. rewrite <- (refused_ok buf e cell (conj B L)). change (S_ buf 0 code_new []) with (start None buf). unfold read_module. destruct (code_read (start None buf)) as (r, s). split.
  - intros E. injection E as -> <-. eauto.
  - intros (s' & E & <-). now injection E as -> ->.
Qed.
(** Every byte sequence has one outcome: the module it denotes, the error with which it is refused, or a crash. *)
Theorem C84_outcome buf : bytes buf -> zlen buf < 2 ^ 63 ->
  match read_module None buf with
  | (Ok c, cell) => denotes buf c /\ cell = None
  | (Err e, cell) => refused buf e cell
  | (Panic _, _) => (forall c, ~ denotes buf c) /\ (forall e cell, ~ refused buf e cell)
  end.
Proof.
  intros B L. destruct (read_module None buf) as [[c|e|q] cell] eqn:E.
  - assert (A : accepted None buf c) by (unfold accepted; now rewrite E). pose proof (proj1 (C66_exact buf c B L) A) as D. split; [exact D|].
    destruct D as (used & rest & m & ss & fs & -> & S1 & S2 & ->). destruct (C66_position used rest m ss fs B L S1 S2) as (s' & E1 & E2 & _). unfold read_module in E. rewrite E1 in E. congruence.
  - now apply C84_refused.
  - split.
    + intros c D. apply (C66_exact buf c B L) in D. unfold accepted in D. rewrite E in D. discriminate.
    + intros e c1 D. apply (C84_refused buf e c1 B L) in D. congruence.
Qed.
(** The two specifications exclude each other, and a file is refused in one way. *)
Theorem C84_exclusive buf : bytes buf -> zlen buf < 2 ^ 63 ->
  (forall c e cell, denotes buf c -> refused buf e cell -> False) /\
  (forall e e' cell cell', refused buf e cell -> refused buf e' cell' -> e = e' /\ cell = cell').
Proof.
  intros B L. split.
  - intros c e cell D R. apply (C66_exact buf c B L) in D. apply (C84_refused buf e cell B L) in R. unfold accepted in D. rewrite R in D. discriminate.
  - intros e e' cell cell' R R'. apply (C84_refused _ _ _ B L) in R, R'. rewrite R in R'. split; congruence.
Qed.

(** * C44 *)
(** The reader crashes exactly on the sequences that neither denote a module nor are refused. *)
Theorem C44_crash_iff buf : bytes buf -> zlen buf < 2 ^ 63 ->
  ((exists q, fst (read_module None buf) = Panic q) <-> ~ ((exists c, denotes buf c) \/ exists e cell, refused buf e cell)).
Proof.
  intros B L. pose proof (C84_outcome buf B L) as O. destruct (read_module None buf) as [[c|e|q] cell]; cbn [fst].
  - split; [intros (q & E); discriminate|]. intros N. exfalso. apply N. left. exists c. apply O.
  - split; [intros (q & E); discriminate|]. intros N. exfalso. apply N. right. eauto.
  - split; [|eauto]. intros _ [(c & D)|(e & c1 & R)]; destruct O as (O1 & O2); [now apply (O1 c)|now apply (O2 e c1)].
Qed.

(** A file with four faults: a name outside the string table and a type outside the type table in type entry 0
    (a virtual of one field), an unknown kind in entry 1, a global of a missing type.  The reader reports the
    last.  One byte less, and it crashes. *)
Definition faults : list Z :=
  [72; 76; 66; 4] ++ [0; 0; 0; 0; 2; 1; 0; 0; 0; 0] ++ [0; 0; 0; 0] ++ [HVIRTUAL; 1; 5; 9; 77] ++ [8].
Example C84_ex :
  refused faults (err InvalidTypeIndex 24) (Some (err InvalidTypeIndex 24)) /\ ~ (exists c, denotes faults c) /\
  (exists q, fst (read_module None (removelast faults)) = Panic q).
Proof.
  assert (B : bytes faults) by (repeat constructor; vm_compute; auto; discriminate).
  split; [|split; [|vm_compute; eauto]].
  - apply C84_refused; [exact B|reflexivity|]. vm_compute. reflexivity.
  - intros (c & D). apply C66_exact in D; [|exact B|reflexivity]. revert D. vm_compute. discriminate.
Qed.
