(** How far into a type its hash looks.  Independent of the hashing model. *)
From Verif Require Import Prelude StdModel BrassTypes FormatSpec AcceptSpec HashSpec.

(** Kinds that are hashed alike: functions and methods, objects and structs, references and nullables, all primitives. *)
Definition class (k : Z) : Z :=
  if one_of k [HFUN; HMETHOD] then HFUN else if one_of k [HOBJ; HSTRUCT] then HOBJ else if one_of k [HREF; HNULL] then HREF
  else if one_of k [HVIRTUAL; HENUM; HABSTRACT] then k else HVOID.
(** The names and numbers (counts and field-name hashes) that a type itself contributes. *)
Definition own (t : vtype) : list str * list Z :=
  let k := class (vt_kind t) in
  match vt_union t with
  | FuncType _ nargs _ => if k =? HFUN then ([], [nargs]) else ([], [])
  | ObjType name _ fields nfields nproto _ _ _ _ _ => if k =? HOBJ then ([name], nfields :: nproto :: map (@fd_hash vtype) fields) else ([], [])
  | VirtualType nfields fields => if k =? HVIRTUAL then ([], nfields :: map (@fd_hash vtype) fields) else ([], [])
  | EnumType name _ cs _ => if k =? HENUM then (name :: map (@ec_name vtype) cs, flat_map (fun c => [ec_nparams c; zlen (ec_params c)]) cs) else ([], [])
  | _ => ([], [])
  end.
Definition own_name (t : vtype) : option str := if vt_kind t =? HABSTRACT then vt_abs_name t else None.
Definition same_surface (t u : vtype) : Prop :=
  class (vt_kind t) = class (vt_kind u) /\ own t = own u /\ own_name t = own_name u.
(** Agreement on the first [n] levels: the types themselves, the types they mention, the types those mention, ... *)
Fixpoint same_to (n : nat) (t u : vtype) : Prop :=
  match n with
  | O => True
  | S m => same_surface t u /\ Forall2 (same_to m) (mentions t) (mentions u)
  end.
(** The counts are 64-bit numbers, as they are in the code. *)
Definition fits (t : vtype) : Prop := Forall (fun x => 0 <= x < 2 ^ 64) (snd (own t)).
