(** What hot-reload hashing is meant to compute, as byte strings fed to CRC-32.
    Independent of the hashing model (HashModel.v). *)
From Verif Require Import Prelude StdModel BrassTypes FormatSpec ReaderSpec AcceptSpec.

(** * Messages *)
(** Bit [i] of a message: bit [i mod 8] of byte [i / 8]. *)
Definition bit (m : list Z) (i : Z) : bool := Z.testbit (nth (Z.to_nat (i / 8)) m 0) (i mod 8).

(** * Types *)
Definition one_of (k : Z) (ks : list Z) : bool := existsb (Z.eqb k) ks.
(** The types a type directly mentions and that its hash looks at, in order.  (Super types,
    prototypes, bindings are not looked at; a packed type's parameter is not either.) *)
Definition mentions (t : vtype) : list vtype :=
  let k := vt_kind t in
  if one_of k [HFUN; HMETHOD] then match vt_union t with FuncType args _ r => args ++ [r] | _ => [] end
  else if one_of k [HOBJ; HSTRUCT] then
    match vt_union t with ObjType _ _ fields _ _ _ _ _ _ _ => map (@fd_t vtype) fields | _ => [] end
  else if one_of k [HREF; HNULL] then match vt_tparam t with Some p => [p] | None => [] end
  else if one_of k [HVIRTUAL] then match vt_union t with VirtualType _ fields => map (@fd_t vtype) fields | _ => [] end
  else if one_of k [HENUM] then match vt_union t with EnumType _ _ cs _ => flat_map (@ec_params vtype) cs | _ => [] end
  else [].
(** The serialisation of a type, with [deep u] standing for a mentioned type. *)
Definition shape (deep : vtype -> list Z) (t : vtype) : list Z :=
  let k := vt_kind t in
  let field f := enc_le 4 (fd_hash f) ++ deep (fd_t f) in
  let con c := enc_le 8 (ec_nparams c) ++ ec_name c ++ flat_map deep (ec_params c) in
  if one_of k [HFUN; HMETHOD] then
    match vt_union t with FuncType args nargs r => enc_le 8 nargs ++ flat_map deep args ++ deep r | _ => [] end
  else if one_of k [HOBJ; HSTRUCT] then
    match vt_union t with
    | ObjType name _ fields nfields nproto _ _ _ _ _ => name ++ enc_le 8 nfields ++ enc_le 8 nproto ++ flat_map field fields
    | _ => []
    end
  else if one_of k [HREF; HNULL] then match vt_tparam t with Some p => deep p | None => [] end
  else if one_of k [HVIRTUAL] then
    match vt_union t with VirtualType nfields fields => enc_le 8 nfields ++ flat_map field fields | _ => [] end
  else if one_of k [HENUM] then
    match vt_union t with EnumType name _ cs _ => name ++ flat_map con cs | _ => [] end
  else if one_of k [HABSTRACT] then match vt_abs_name t with Some n => n | None => [] end
  else [].
(** Nested types contribute nothing at the inner level, their inner hash at the outer level. *)
Definition inner_shape : vtype -> list Z := shape (fun _ => []).
Definition inner_hash (t : vtype) : Z := crc32 (inner_shape t).
Definition outer_shape : vtype -> list Z := shape (fun u => enc_le 4 (inner_hash u)).
Definition outer_hash (t : vtype) : Z := crc32 (outer_shape t).

(** Counts agree with lists, abstract types have a name, references a target. *)
Definition counted (t : vtype) : Prop :=
  (match vt_union t with
   | FuncType args n _ => n = zlen args
   | ObjType _ _ fs n _ _ _ _ _ _ => n = zlen fs
   | VirtualType n fs => n = zlen fs
   | EnumType _ n cs _ => n = zlen cs /\ Forall (fun c => ec_nparams c = zlen (ec_params c)) cs
   | _ => True
   end) /\
  (vt_kind t = HABSTRACT -> vt_abs_name t <> None).

(** The signature of a type for hot reload: two levels, mixed with those of the types it mentions.
    Virtual types mix in nothing. *)
Definition mixed (t : vtype) : list vtype := if one_of (vt_kind t) [HVIRTUAL] then [] else mentions t.
Definition signature (t : vtype) : Z :=
  Z.lxor (outer_hash t) (crc32 (flat_map (fun u => enc_le 4 (outer_hash u)) (mixed t))).
Definition signature_crc (t : vtype) : Z := crc32 (enc_le 4 (signature t)).

(** * Modules *)
Fixpoint number {A} (i : Z) (l : list A) : list (Z * A) :=
  match l with [] => [] | x :: r => (i, x) :: number (i + 1) r end.
(** What slot [k] holds after a sequence of assignments [slot := value], [d] before. *)
Fixpoint latest (us : list (Z * Z)) (k d : Z) : Z :=
  match us with [] => d | (j, v) :: r => latest r k (if j =? k then v else d) end.
(** The signed 32-bit value congruent to [x]. *)
Definition i32 (x : Z) : Z := (x + 2 ^ 31) mod 2 ^ 32 - 2 ^ 31.
(** Entry [k] of a table, by default [d]. *)
Definition entry {A} (d : A) (l : list A) (k : Z) : A := nth (Z.to_nat k) l d.

(** ** Function indices: functions first, then natives, numbered consecutively. *)
Definition findexes (c : code) : list Z := map hf_findex (c_functions c) ++ map n_findex (c_natives c).
Definition index_of (c : code) (k : Z) : Z := latest (map (fun p => (snd p, i32 (fst p))) (number 0 (findexes c))) k 0.

(** ** Globals: the sequence of assignments to signature slots *)
(** by default: the index with the top bit set, or the signature of an abstract type *)
Definition default_sign (i : Z) (t : vtype) : Z :=
  if vt_kind t =? HABSTRACT then i32 (signature_crc t) else i32 (Z.lor i (2 ^ 31)).
(** each class or enum type signs the global it says holds its value *)
Definition owner (t : vtype) : list (Z * Z) :=
  match vt_union t with
  | ObjType _ _ _ _ _ _ _ _ (g :: _) _ => [(g - 1, i32 (signature_crc t))]
  | EnumType _ _ _ (g :: _) => [(g - 1, i32 (signature_crc t))]
  | _ => []
  end.
(** each constant signs its global with its integer and string fields *)
Definition constant_fields (c : code) (k : constant) : list (obj_field vtype * Z) :=
  match vt_union (entry vt_default (c_globals c) (k_global k)) with
  | ObjType _ _ fields _ _ _ _ _ _ _ => combine fields (k_fields k)
  | _ => []
  end.
Definition field_bytes (c : code) (fx : obj_field vtype * Z) : list Z :=
  let (f, x) := fx in
  if vt_kind (fd_t f) =? HI32 then enc_le 4 (entry 0 (c_ints c) x)
  else if vt_kind (fd_t f) =? HBYTES then entry [] (c_strings c) x
  else [].
Definition constant_sign (c : code) (k : constant) : Z * Z :=
  (k_global k, i32 (crc32 (flat_map (field_bytes c) (constant_fields c k)))).
(** in the boot function, from its fifth instruction on: "int r, v; get_array ..; ..; set_global g, r" signs
    [g] with the integer [v], provided the global numbered like the instruction has an enum type *)
Definition boot_matches (c : code) (ops : list opcode) (i : Z) (op : opcode) : bool :=
  (o_op op =? OSetGlobal) && (vt_kind (entry vt_default (c_globals c) i) =? HENUM) &&
  (o_op (entry opcode_default ops (i - 2)) =? OGetArray) && (o_op (entry opcode_default ops (i - 3)) =? OInt).
Definition boot_sign (c : code) (ops : list opcode) (iop : Z * opcode) : list (Z * Z) :=
  let (i, op) := iop in
  if boot_matches c ops i op then
    match o_p1 op, o_p2 (entry opcode_default ops (i - 3)) with
    | Some g, Some x => [(g, entry 0 (c_ints c) x)]
    | _, _ => []
    end
  else [].
Definition boot_signs (c : code) (f : hl_function) : list (Z * Z) :=
  flat_map (boot_sign c (hf_ops f)) (skipn 4 (number 0 (hf_ops f))).

(** ** When hashing works *)
Definition constant_hashable (c : code) (k : constant) : Prop :=
  (match vt_union (entry vt_default (c_globals c) (k_global k)) with
   | ObjType _ _ fields _ _ _ _ _ _ _ => zlen (k_fields k) <= zlen fields
   | _ => True
   end) /\
  Forall (fun fx => (vt_kind (fd_t (fst fx)) = HI32 -> snd fx < zlen (c_ints c)) /\
                    (vt_kind (fd_t (fst fx)) = HBYTES -> snd fx < zlen (c_strings c))) (constant_fields c k).
Definition boot_hashable (c : code) (ops : list opcode) (iop : Z * opcode) : Prop :=
  let (i, op) := iop in
  (o_op op = OSetGlobal -> i < zlen (c_globals c)) /\
  (boot_matches c ops i op = true -> exists x, o_p2 (entry opcode_default ops (i - 3)) = Some x /\ 0 <= x < zlen (c_ints c)).
Definition boot_function (c : code) (f : hl_function) : Prop :=
  0 <= c_entrypoint c < zlen (findexes c) /\ 0 <= index_of c (c_entrypoint c) /\
  znth (c_functions c) (index_of c (c_entrypoint c)) = Some f.
Definition slots_in (n : Z) (us : list (Z * Z)) : Prop := Forall (fun u => 0 <= fst u < n) us.
(** Function indices and global slots in range, no forward type reference, constants and boot code
    consistent with the tables. *)
Definition hashable (c : code) : Prop :=
  Forall (fun k => 0 <= k < zlen (findexes c)) (findexes c) /\
  Forall (fun t => Forall (fun u => In u (declared c)) (mixed t)) (declared c) /\
  slots_in (c_nglobals c) (flat_map owner (declared c)) /\
  slots_in (c_nglobals c) (map (constant_sign c) (c_constants c)) /\
  Forall (constant_hashable c) (c_constants c) /\
  exists f, boot_function c f /\ Forall (boot_hashable c (hf_ops f)) (skipn 4 (number 0 (hf_ops f))) /\
    slots_in (c_nglobals c) (boot_signs c f).

(** The panics of a lookup that finds nothing: [Option::unwrap] on [None] and an index out of range. *)
Definition lookup_panic (p : panic) : Prop := p = PUnwrap \/ p = PIndex.
