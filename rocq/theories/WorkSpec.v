(** How much work an accepted file is, in terms of its tree (C87).  [total w l] is the sum of [w] over [l]. *)
From Verif Require Import Prelude BrassTypes FormatSpec ReaderSpec GrammarSpec.
From Verif Require Import PropsGrammar.
Local Open Scope Z_scope.

(** * Loop turns: one for every entry of every list in the file *)
(** operands that the reader puts in a vector made for them: a counted list, or the operands of a
    fixed instruction after the third when there are more than four *)
Definition op_list (i : aop) : Z :=
  match i with IFixed _ args => if 4 <? zlen args then zlen args - 3 else 0 | ICall _ _ _ xs => zlen xs | ISwitch _ offs _ => zlen offs end.
(** registers, instructions, their lists, debug records, assignments *)
Definition fun_turns (f : rfun) : Z := zlen (rf_regs f) + zlen (rf_ops f) + total op_list (rf_ops f) + zlen (rf_debug f) + zlen (rf_assigns f).
(** arguments; fields, prototypes and bindings; constructors and their parameters *)
Definition atype_turns (t : atype) : Z :=
  match t with
  | AFun _ args _ => zlen args
  | AObj _ _ _ _ fs ps ds => zlen fs + zlen ps + zlen ds
  | AVirtual fs => zlen fs
  | AEnum _ _ cs => zlen cs + total (fun c => zlen (snd c)) cs
  | _ => 0
  end.
Definition work (m : rmod) : Z :=
  zlen (rm_ints m) + zlen (rm_floats m) + zlen (rs_sizes (rm_strings m)) + zlen (rm_bytes_pos m) + zlen (rs_sizes (rm_debugfiles m))
  + (zlen (rm_types m) + total atype_turns (rm_types m)) + zlen (rm_globals m) + zlen (rm_natives m)
  + (zlen (rm_functions m) + total fun_turns (rm_functions m)) + (zlen (rm_constants m) + total (fun k => zlen (snd k)) (rm_constants m)).

(** * Entries written by making a vector full of defaults *)
(** the lists of operands; two numbers for every instruction when there is debug information *)
Definition fun_written (debug : bool) (f : rfun) : Z := total op_list (rf_ops f) + if debug then 2 * zlen (rf_ops f) else 0.
(** a cache entry for every declared string, the bytes, the types, the globals, and the functions' *)
Definition written (m : rmod) : Z :=
  rs_count (rm_strings m) + zlen (rm_bytes m) + zlen (rm_types m) + zlen (rm_globals m) + total (fun_written (rm_debug m)) (rm_functions m).
