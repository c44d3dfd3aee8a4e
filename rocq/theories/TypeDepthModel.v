(** Model of what the compiler derives for types (types.rs:59-60, 95-96, 209-210, 216-217, 225-226: [#[derive(PartialEq)]], [#[derive(Clone)]]) and
    of dropping them, recording how deep the calls get: each result comes with the largest number of calls for a [ValueType] that are
    active at once.  Only calls for [ValueType] are counted (the derived functions of [ValueTypeU], [Vec], [Box], [ObjField] and
    [EnumConstruct] in between add a constant factor). *)
From Verif Require Import Prelude BrassTypes.
From Verif Require HashModel.

(** * Results with the depth of calls *)
Definition D (A : Type) : Type := (A * Z)%type.
Definition dret {A} (a : A) : D A := (a, 0).
Definition dbind {A B} (m : D A) (k : A -> D B) : D B := (fst (k (fst m)), Z.max (snd m) (snd (k (fst m)))).
Notation "x <| m ;; k" := (dbind m (fun x => k)) (at level 61, m at next level, right associativity).
Definition call {A} (m : D A) : D A := (fst m, 1 + snd m).

(** * Clone (types.rs:60, 96, 209, 225: derived) *)
Definition list_clone {A} (f : A -> D A) : list A -> D (list A) :=
  fix go (l : list A) : D (list A) := match l with [] => dret [] | x :: r => y <| f x ;; ys <| go r ;; dret (y :: ys) end.
Definition option_clone {A} (f : A -> D A) (o : option A) : D (option A) :=
  match o with Some x => y <| f x ;; dret (Some y) | None => dret None end.
Definition field_clone {T} (f : T -> D T) (x : obj_field T) : D (obj_field T) :=
  match x with mkField n h t => t' <| f t ;; dret (mkField n h t') end.
Definition construct_clone {T} (f : T -> D T) (x : enum_construct T) : D (enum_construct T) :=
  match x with mkCon n np ps sz hp os => ps' <| list_clone f ps ;; dret (mkCon n np ps' sz hp os) end.
Definition vtu_clone {T} (f : T -> D T) (u : vtu T) : D (vtu T) :=
  match u with
  | FuncType args n r => args' <| list_clone f args ;; r' <| f r ;; dret (FuncType args' n r')
  | ObjType n s fs nf np nb ps bs gs rt => s' <| f s ;; fs' <| list_clone (field_clone f) fs ;; dret (ObjType n s' fs' nf np nb ps bs gs rt)
  | VirtualType n fs => fs' <| list_clone (field_clone f) fs ;; dret (VirtualType n fs')
  | EnumType n nc cs gs => cs' <| list_clone (construct_clone f) cs ;; dret (EnumType n nc cs' gs)
  | URef t => t' <| f t ;; dret (URef t')
  | UAbstract s => dret (UAbstract s)
  | UNull => dret UNull
  | UVoid => dret UVoid
  end.
Fixpoint vt_clone (t : vtype) : D vtype :=
  match t with VT u n p k => call (u' <| vtu_clone vt_clone u ;; p' <| option_clone vt_clone p ;; dret (VT u' n p' k)) end.

(** * Drop (the glue the compiler generates: every field is dropped) *)
Definition list_drop {A} (f : A -> Z) : list A -> Z := fix go (l : list A) : Z := match l with [] => 0 | x :: r => Z.max (f x) (go r) end.
Definition field_drop {T} (f : T -> Z) (x : obj_field T) : Z := match x with mkField _ _ t => f t end.
Definition construct_drop {T} (f : T -> Z) (x : enum_construct T) : Z := match x with mkCon _ _ ps _ _ _ => list_drop f ps end.
Definition vtu_drop {T} (f : T -> Z) (u : vtu T) : Z :=
  match u with
  | FuncType args _ r => Z.max (list_drop f args) (f r)
  | ObjType _ s fs _ _ _ _ _ _ _ => Z.max (f s) (list_drop (field_drop f) fs)
  | VirtualType _ fs => list_drop (field_drop f) fs
  | EnumType _ _ cs _ => list_drop (construct_drop f) cs
  | URef t => f t
  | UAbstract _ | UNull | UVoid => 0
  end.
Fixpoint vt_drop (t : vtype) : Z :=
  match t with VT u _ p _ => 1 + Z.max (vtu_drop vt_drop u) (match p with Some q => vt_drop q | None => 0 end) end.

(** * [==] (types.rs:59, 95, 210, 217, 226: derived; the same text as HashModel.v's, with the depth) *)
(** [a && b] *)
Definition andd (x y : bool * Z) : bool * Z := if fst x then (fst y, Z.max (snd x) (snd y)) else (false, snd x).
Definition flat (b : bool) : bool * Z := (b, 0).
Infix "&&&" := andd (at level 40, left associativity).
Definition list_eqd {A} (eqd : A -> A -> bool * Z) : list A -> list A -> bool * Z :=
  let fix go (a b : list A) : bool * Z :=
    match a, b with
    | x :: a', y :: b' => eqd x y &&& go a' b'
    | _, _ => flat true
    end in
  fun a b => if zlen a =? zlen b then go a b else flat false.
Definition option_eqd {A} (eqd : A -> A -> bool * Z) (a b : option A) : bool * Z :=
  match a, b with Some x, Some y => eqd x y | None, None => flat true | _, _ => flat false end.
Definition field_eqd {T} (eqd : T -> T -> bool * Z) (a b : obj_field T) : bool * Z :=
  match a, b with mkField n h t, mkField n' h' t' => flat (HashModel.str_eqb n n') &&& flat (h =? h') &&& eqd t t' end.
Definition construct_eqd {T} (eqd : T -> T -> bool * Z) (a b : enum_construct T) : bool * Z :=
  match a, b with mkCon n np ps sz hp os, mkCon n' np' ps' sz' hp' os' =>
    flat (HashModel.str_eqb n n') &&& flat (np =? np') &&& list_eqd eqd ps ps' &&& flat (sz =? sz') &&& flat (Bool.eqb hp hp') &&& flat (HashModel.list_eqb Z.eqb os os') end.
Definition vtu_eqd {T} (eqd : T -> T -> bool * Z) (a b : vtu T) : bool * Z :=
  match a, b with
  | FuncType xs n r, FuncType xs' n' r' => list_eqd eqd xs xs' &&& flat (n =? n') &&& eqd r r'
  | ObjType n s fs nf np nb ps bs gs rt, ObjType n' s' fs' nf' np' nb' ps' bs' gs' rt' =>
      flat (HashModel.str_eqb n n') &&& eqd s s' &&& list_eqd (field_eqd eqd) fs fs' &&& flat (nf =? nf') &&& flat (np =? np') &&& flat (nb =? nb')
      &&& flat (HashModel.list_eqb HashModel.proto_eqb ps ps') &&& flat (HashModel.list_eqb Z.eqb bs bs') &&& flat (HashModel.list_eqb Z.eqb gs gs') &&& flat (HashModel.option_eqb HashModel.unit_eqb rt rt')
  | VirtualType n fs, VirtualType n' fs' => flat (n =? n') &&& list_eqd (field_eqd eqd) fs fs'
  | EnumType n nc cs gs, EnumType n' nc' cs' gs' =>
      flat (HashModel.str_eqb n n') &&& flat (nc =? nc') &&& list_eqd (construct_eqd eqd) cs cs' &&& flat (HashModel.list_eqb Z.eqb gs gs')
  | URef t, URef t' => eqd t t'
  | UAbstract s, UAbstract s' => flat (HashModel.str_eqb s s')
  | UNull, UNull => flat true
  | UVoid, UVoid => flat true
  | _, _ => flat false
  end.
Fixpoint vt_eqd (a b : vtype) {struct a} : bool * Z :=
  match a, b with
  | VT u n p k, VT u' n' p' k' =>
      call (vtu_eqd vt_eqd u u' &&& flat (HashModel.option_eqb HashModel.str_eqb n n') &&& option_eqd vt_eqd p p' &&& flat (k =? k'))
  end.
