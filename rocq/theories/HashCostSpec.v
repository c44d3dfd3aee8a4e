(** Vocabulary of C88: how many types are compared when a module is hashed for hot reload.
    [values] (PropsSize.v) is the number of types a type owns, itself included. *)
From Verif Require Import Prelude StdModel BrassTypes HashSpec ReaderSpec.
From Verif Require Import AcceptSpec HashProofs.

(** The types that hashing a module looks up in its type table, one after the other: for every declared type those it mentions
    (virtual types: none); the types of the globals that are abstract; every declared class, struct and enum type; and the type of every global. *)
Definition owned_global (t : vtype) : bool :=
  one_of (vt_kind t) [HOBJ; HSTRUCT; HENUM].
Definition global_types (c : code) : list vtype := firstn (Z.to_nat (c_nglobals c)) (c_globals c).
Definition looked_up (c : code) : list vtype :=
  flat_map mixed (declared c) ++ filter (fun t => vt_kind t =? HABSTRACT) (global_types c) ++ filter owned_global (declared c) ++ global_types c.
(** A lookup compares table entries in order until one is equal; [cost a b] is what comparing [a] with [b] takes. *)
Fixpoint search (cost : vtype -> vtype -> Z) (table : list vtype) (t : vtype) : Z :=
  match table with
  | [] => 0
  | x :: r => cost x t + (if vt_eq_dec x t then 0 else search cost r t)
  end.

(** Hashing a function looks up the types of its registers, and the types its instructions name. *)
Definition named_types (c : code) (f : hl_function) : list vtype :=
  flat_map (fun o => if o_op o =? OType then
      match o_p2 o with Some p => match znth (c_types c) p with Some t => [t] | None => [] end | None => [] end else []) (hf_ops f).

(** What comparing types looks at, in order: that there is a type (to be compared), which variant it is, names, numbers, lengths of lists
    and so on; lists of types and fields after their length. *)
Inductive item :=
  | AType | AVariant (k : Z) | ALen (n : Z) | ANum (n : Z) | AStr (s : str) | ABool (b : bool) | ANums (l : list Z) | AProtos (l : list obj_proto)
  | ARt (o : option unit) | AName (o : option str) | AHas (b : bool).
Fixpoint flat (t : vtype) : list item :=
  match t with
  | VT u n p k =>
      AType :: (match u with
       | FuncType args m r => AVariant 0 :: ALen (zlen args) :: flat_map flat args ++ ANum m :: flat r
       | ObjType name s fs nf np nb ps bs gs rt =>
           AVariant 1 :: AStr name :: flat s ++ ALen (zlen fs) :: flat_map (fun f => match f with mkField x h t => AStr x :: ANum h :: flat t end) fs
             ++ [ANum nf; ANum np; ANum nb; AProtos ps; ANums bs; ANums gs; ARt rt]
       | VirtualType nf fs => AVariant 2 :: ANum nf :: ALen (zlen fs) :: flat_map (fun f => match f with mkField x h t => AStr x :: ANum h :: flat t end) fs
       | EnumType name nc cs gs =>
           AVariant 3 :: AStr name :: ANum nc :: ALen (zlen cs)
             :: flat_map (fun c => match c with mkCon x np ps sz hp os => AStr x :: ANum np :: ALen (zlen ps) :: flat_map flat ps ++ [ANum sz; ABool hp; ANums os] end) cs
             ++ [ANums gs]
       | URef t => AVariant 4 :: flat t
       | UAbstract x => [AVariant 5; AStr x]
       | UNull => [AVariant 6]
       | UVoid => [AVariant 7]
       end) ++ AName n :: match p with Some q => AHas true :: flat q | None => [AHas false] end ++ [ANum k]
  end.
(** The types in a list of items. *)
Definition types_in (l : list item) : Z := zlen (filter (fun i => match i with AType => true | _ => false end) l).
