(** What the hot-reload hash of a function is meant to be: CRC-32 of its register types and of its
    instructions, where an operand that is an index into a pool stands for what it denotes.
    Independent of the hashing model. *)
From Verif Require Import Prelude StdModel BrassTypes FormatSpec AcceptSpec HashSpec.

(** What an operand is: a plain number (register, field, jump offset, ...), one of the operands beyond the third, or
    an index into the integers, the strings, the types, the floats, or the functions and natives. *)
Inductive role := Plain | Wide | IntIndex | StringIndex | TypeIndex | FloatIndex | Callee.
(** Instructions with an index operand; all other operands are plain. *)
Definition callee_ops : list Z := [OCall0; OCall1; OCall2; OCall3; OCall4; OCallN; OStaticClosure; OInstanceClosure].
Definition second_role (op : Z) : role :=
  if op =? OInt then IntIndex else if op =? OFloat then FloatIndex else if one_of op [OString; ODynSet] then StringIndex
  else if op =? OType then TypeIndex else if one_of op callee_ops then Callee else Plain.
Definition third_role (op : Z) : role := if op =? ODynGet then StringIndex else Plain.

Definition operand (r : role) (p : option Z) : list (role * Z) := match p with Some x => [(r, x)] | None => [] end.
(** Number of operands beyond the third. *)
Definition extra_count (o : opcode) : Z :=
  match arity (o_op o) with
  | Some (Some n) => Z.max 0 (n - 3)
  | _ => match (if o_op o =? OSwitch then o_p2 o else o_p3 o) with Some n => n | None => 0 end
  end.
(** Operands in file order: a switch has its third operand last. *)
Definition operands (o : opcode) : list (role * Z) :=
  let extra := map (pair Wide) (firstn (Z.to_nat (extra_count o)) (o_extra o)) in
  let third := operand (third_role (o_op o)) (o_p3 o) in
  operand Plain (o_p1 o) ++ operand (second_role (o_op o)) (o_p2 o) ++
  (if o_op o =? OSwitch then extra ++ third else third ++ extra).

(** Truncation towards zero of the float with bit pattern [b], saturated to 32 bits; not-a-number gives 0. *)
Definition float_to_i32 (b : Z) : Z :=
  let sign := if b <? 2 ^ 63 then 1 else -1 in
  let exponent := (b / 2 ^ 52) mod 2 ^ 11 in
  let fraction := b mod 2 ^ 52 in
  let significand := if exponent =? 0 then fraction else 2 ^ 52 + fraction in
  if (exponent =? 2047) && negb (fraction =? 0) then 0
  else let magnitude := significand * 2 ^ Z.max 1 exponent / 2 ^ 1075 in
       Z.max (- 2 ^ 31) (Z.min (2 ^ 31 - 1) (sign * magnitude)).

(** Bytes for an operand, given the hashes [H] of the functions known so far.  (The code takes float operands
    [p] to be the pair of floats [2p], [2p + 1].) *)
Definition operand_bytes (c : code) (H : list Z) (rp : role * Z) : list Z :=
  let p := snd rp in
  match fst rp with
  | Plain => enc_le 4 p
  | Wide => enc_le 8 p
  | IntIndex => enc_le 4 (entry 0 (c_ints c) p)
  | StringIndex => entry [] (c_strings c) p
  | TypeIndex => enc_le 4 (signature (entry vt_default (c_types c) p))
  | FloatIndex => enc_le 4 (float_to_i32 (entry 0 (c_floats c) (2 * p))) ++ enc_le 4 (float_to_i32 (entry 0 (c_floats c) (2 * p + 1)))
  | Callee => enc_le 4 (entry 0 H (index_of c p))
  end.
Definition operand_ok (c : code) (H : list Z) (rp : role * Z) : Prop :=
  let p := snd rp in
  match fst rp with
  | Plain | Wide => True
  | IntIndex => 0 <= p < zlen (c_ints c)
  | StringIndex => 0 <= p < zlen (c_strings c)
  | TypeIndex => 0 <= p < zlen (c_types c)
  | FloatIndex => 0 <= p /\ 2 * p + 1 < zlen (c_floats c)
  | Callee => 0 <= p < zlen (findexes c) /\ 0 <= index_of c p < zlen H
  end.
Definition op_bytes (c : code) (H : list Z) (o : opcode) : list Z := o_op o :: flat_map (operand_bytes c H) (operands o).
Definition op_hashable (c : code) (H : list Z) (o : opcode) : Prop := Forall (operand_ok c H) (operands o).

Definition fun_bytes (c : code) (H : list Z) (f : hl_function) : list Z :=
  flat_map (fun t => enc_le 4 (signature t)) (hf_regs f) ++ flat_map (op_bytes c H) (hf_ops f).
Definition fun_hashable (c : code) (H : list Z) (f : hl_function) : Prop := Forall (op_hashable c H) (hf_ops f).
