(** Which functions hot reload cannot tell apart, operand by operand.  Independent of the hashing model. *)
From Verif Require Import Prelude StdModel BrassTypes FormatSpec AcceptSpec HashSpec FunHashSpec.

(** Two operands stand for things with the same trace: equal numbers, integers, strings; types with the same
    signature; float constants with the same truncation to 32 bits; callees with the same hash (as 32-bit words). *)
Definition alike_operand (c : code) (H : list Z) (c' : code) (H' : list Z) (x y : role * Z) : Prop :=
  fst x = fst y /\
  let p := snd x in let q := snd y in
  match fst x with
  | Plain | Wide => p = q
  | IntIndex => entry 0 (c_ints c) p = entry 0 (c_ints c') q
  | StringIndex => entry [] (c_strings c) p = entry [] (c_strings c') q
  | TypeIndex => signature (entry vt_default (c_types c) p) = signature (entry vt_default (c_types c') q)
  | FloatIndex => float_to_i32 (entry 0 (c_floats c) (2 * p)) = float_to_i32 (entry 0 (c_floats c') (2 * q)) /\
                  float_to_i32 (entry 0 (c_floats c) (2 * p + 1)) = float_to_i32 (entry 0 (c_floats c') (2 * q + 1))
  | Callee => entry 0 H (index_of c p) mod 2 ^ 32 = entry 0 H' (index_of c' q) mod 2 ^ 32
  end.
Definition alike_instruction c H c' H' (o o' : opcode) : Prop :=
  o_op o = o_op o' /\ Forall2 (alike_operand c H c' H') (operands o) (operands o').
(** Two functions with register types of the same signatures, and alike instructions. *)
Definition alike c H c' H' (f f' : hl_function) : Prop :=
  map signature (hf_regs f) = map signature (hf_regs f') /\ Forall2 (alike_instruction c H c' H') (hf_ops f) (hf_ops f').
(** No instruction mentions a string. *)
Definition stringless (f : hl_function) : Prop :=
  Forall (fun o => ~ In (o_op o) [OString; ODynGet; ODynSet]) (hf_ops f).
