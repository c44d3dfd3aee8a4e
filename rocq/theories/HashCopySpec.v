(** Vocabulary of C92: how many types are copied when a module is hashed for hot reload.
    [values] (PropsSize.v): the number of types a type owns, itself included; [mentions] (HashSpec.v): the types a type mentions directly;
    [declared], [global_types]: the types a module declares, the types of its globals. *)
From Verif Require Import Prelude StdModel BrassTypes HashSpec AcceptSpec PropsSize PropsGrammar HashCostSpec.

(** What the types that a type mentions own in all. *)
Definition mentioned (t : vtype) : Z := total values (mentions t).
(** Copies made by [hash(true)]: each field once; each parameter of a constructor twice, once with its constructor and once alone. *)
Definition copied_inside (t : vtype) : Z :=
  if one_of (vt_kind t) [HOBJ; HSTRUCT; HVIRTUAL] then mentioned t
  else if one_of (vt_kind t) [HENUM] then 2 * mentioned t else 0.
(** Copies made by [hash(false)]: arguments and results once, fields and parameters twice, and what [hash(true)] of all these copies;
    the target of a reference is not copied. *)
Definition copied_outside (t : vtype) : Z :=
  (if one_of (vt_kind t) [HFUN; HMETHOD] then mentioned t
   else if one_of (vt_kind t) [HOBJ; HSTRUCT; HVIRTUAL; HENUM] then 2 * mentioned t else 0)
  + total copied_inside (mentions t).
(** Copies made when a type is mixed with those it mentions. *)
Definition copied_mixing (t : vtype) : Z := if one_of (vt_kind t) [HFUN; HMETHOD; HOBJ; HSTRUCT; HENUM] then mentioned t else 0.
