(** Vocabulary for the theorems about the bytecode reader: what it means to read an encoding, to
    account for positions, and to be a lossy UTF-8 conversion.  Uses only the state type of the
    decoder model. *)
From Verif Require Import Prelude StdModel BrassTypes DecoderModel FormatSpec.

(** A list of bytes. *)
Definition bytes (l : list Z) : Prop := Forall is_byte l.

(** The decoder with remaining input [b], at file position [p], with partial module [c] and no
    error ever recorded. *)
Definition mk (b : list Z) (p : Z) (c : code) : st :=
  {| d_buf := b; d_pos := p; d_code := c; errs := None; d_log := [] |}.

(** [m] started with partial module [c] reads exactly the bytes [bs], whatever follows them, returns
    [a], leaves the partial module [c'] and records no error. *)
Definition eats {A} (c : code) (m : M A) (bs : list Z) (a : A) (c' : code) : Prop :=
  forall p rest, m (mk (bs ++ rest) p c) = (Ok a, mk rest (p + zlen bs) c').

(** The same state after consuming the first [n] bytes. *)
Definition after (s : st) (n : Z) : st :=
  {| d_buf := skipn (Z.to_nat n) (d_buf s); d_pos := d_pos s + n; d_code := d_code s; errs := errs s; d_log := d_log s |}.

(** Whatever the outcome (success, error, panic), [m] has consumed bytes from the front only and the
    position has advanced by their number. *)
Definition exact_position {A} (m : M A) : Prop := forall s r s', bytes (d_buf s) -> m s = (r, s') ->
  exists used, d_buf s = used ++ d_buf s' /\ d_pos s' = d_pos s + zlen used.

(** Once an error is recorded, it stays recorded (possibly replaced by a later one). *)
Definition keeps_errors {A} (m : M A) : Prop := forall s r s', bytes (d_buf s) -> m s = (r, s') ->
  errs s <> None -> errs s' <> None.

(** [p] is an initial part of a character. *)
Definition starts_char (p : list Z) : Prop := exists c q, scalar c /\ utf8_char c = p ++ q.
(** [o] is [i] with well-formed characters kept and each maximal ill-formed part replaced by U+FFFD (Unicode 15, section 3.9,
    "substitution of maximal subparts"): at a place where no character starts, the longest initial part of a character there,
    or one byte if there is none. *)
Inductive lossy_of : list Z -> list Z -> Prop :=
| lo_nil : lossy_of [] []
| lo_char c i o : scalar c -> lossy_of i o -> lossy_of (utf8_char c ++ i) (utf8_char c ++ o)
| lo_bad bad i o : bad <> [] -> (length bad = 1%nat \/ starts_char bad) ->
    (forall c r, scalar c -> bad ++ i <> utf8_char c ++ r) ->
    (forall x r, i = x :: r -> ~ starts_char (bad ++ [x])) ->
    lossy_of i o -> lossy_of (bad ++ i) (utf8_char 65533 ++ o).
