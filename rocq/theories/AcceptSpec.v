(** What an accepted module looks like, as properties of the returned record alone.
    Used by C40 and C54-C56.  No decoder definitions. *)
From Verif Require Import Prelude StdModel BrassTypes FormatSpec.

(** ** Names: the empty string or an entry of the string table. *)
Definition name_ok (ss : list str) (n : str) : Prop := n = [] \/ In n ss.

(** ** Type entries.  [T] is the type table. *)
Definition field_ok (ss : list str) (T : list vtype) (f : obj_field vtype) : Prop :=
  name_ok ss (fd_name f) /\ fd_hash f = crc32 (fd_name f) /\ In (fd_t f) T.
Definition proto_ok (ss : list str) (p : obj_proto) : Prop :=
  name_ok ss (pr_name p) /\ pr_hash p = crc32 (pr_name p) /\ 0 <= pr_findex p.
Definition construct_ok (ss : list str) (T : list vtype) (c : enum_construct vtype) : Prop :=
  name_ok ss (ec_name c) /\ zlen (ec_params c) = ec_nparams c /\ Forall (fun t => In t T) (ec_params c).
(** Counts agree with the lists, names and referenced types come from the tables, the kind agrees with
    the shape. *)
Definition type_ok (ss : list str) (T : list vtype) (t : vtype) : Prop :=
  match t with
  | VT (FuncType args nargs r) None None k =>
      In k [HFUN; HMETHOD] /\ nargs = zlen args /\ nargs < 256 /\ Forall (fun a => In a T) args /\ In r T
  | VT (ObjType name super fields nf np nb proto bindings globals None) None None k =>
      In k [HOBJ; HSTRUCT] /\ name_ok ss name /\ (super = vt_default \/ In super T) /\
      nf = zlen fields /\ np = zlen proto /\ 2 * nb = zlen bindings /\ Forall (fun b => 0 <= b) bindings /\
      Forall (field_ok ss T) fields /\ Forall (proto_ok ss) proto /\
      exists g, globals = [g] /\ 0 <= g < 2 ^ 31
  | VT (VirtualType nf fields) None None k => k = HVIRTUAL /\ nf = zlen fields /\ Forall (field_ok ss T) fields
  | VT (EnumType name nc cs globals) None None k =>
      k = HENUM /\ name_ok ss name /\ nc = zlen cs /\ Forall (construct_ok ss T) cs /\
      exists g, globals = [g] /\ 0 <= g < 2 ^ 31
  | VT UNull (Some name) None k => k = HABSTRACT /\ name_ok ss name
  | VT UNull None (Some p) k => In k param_kinds /\ In p T
  | VT UNull None None k => In k prim_kinds \/ k = HNULL          (* HNULL: the placeholder *)
  | _ => False
  end.

(** ** Whole tables.  The type table holds the declared types, none of them the placeholder, followed by
    as many placeholders.  An entry mentions only entries declared before it, or the placeholder (for a
    forward reference).  The global table is built the same way from declared types. *)
Definition types_ok (ss : list str) (n : Z) (T : list vtype) : Prop :=
  exists D, zlen D = n /\ T = D ++ zrepeat vt_default n /\
    forall i t, znth D i = Some t -> t <> vt_default /\ type_ok ss (vt_default :: firstn (Z.to_nat i) D) t.
Definition globals_ok (D : list vtype) (n : Z) (globals : list vtype) : Prop :=
  exists G, zlen G = n /\ globals = G ++ zrepeat vt_default n /\ Forall (fun t => In t D) G.
Definition declared (c : code) : list vtype := firstn (Z.to_nat (c_ntypes c)) (c_types c).

(** ** Instructions: as many operands as the opcode says, each a signed 32-bit value.  [extra] holds the operands beyond the
    third; where they are counted (or for call3/call4), twice that many entries. *)
Definition opcode_ok (o : opcode) : Prop :=
  (forall x, In (Some x) [o_p1 o; o_p2 o; o_p3 o] -> i32_range x) /\ Forall i32_range (o_extra o) /\
  match arity (o_op o) with
  | Some (Some n) =>
      (o_p1 o <> None <-> 1 <= n) /\ (o_p2 o <> None <-> 2 <= n) /\ (o_p3 o <> None <-> 3 <= n) /\
      zlen (o_extra o) = (if n <=? 3 then 0 else if n =? 4 then 1 else 2 * (n - 3))
  | Some None =>
      exists a b c, o_p1 o = Some a /\ o_p2 o = Some b /\ o_p3 o = Some c /\
        zlen (o_extra o) = 2 * (if o_op o =? 70 then b else c)
  | None => False
  end.

(** ** Debug tables: one (file, line) pair per instruction, file -1 meaning none. *)
Definition debug_ok (nfiles nops : Z) (d : list Z) : Prop :=
  exists ps, d = pairs ps /\ zlen ps = nops /\
    Forall (fun p => -1 <= fst p < nfiles /\ 0 <= snd p < 2 ^ 31) ps.

Definition function_ok (T : list vtype) (debug : bool) (nfiles : Z) (f : hl_function) : Prop :=
  In (hf_t f) T /\ 0 <= hf_findex f /\
  zlen (hf_regs f) = hf_nregs f /\ Forall (fun t => In t T) (hf_regs f) /\
  zlen (hf_ops f) = hf_nops f /\ Forall opcode_ok (hf_ops f) /\
  (if debug then debug_ok nfiles (hf_nops f) (hf_debug f) else hf_debug f = []) /\
  hf_obj f = None /\ hf_field f = None /\ hf_rf f = 0.

Definition native_ok (ss : list str) (T : list vtype) (n : native) : Prop :=
  In (n_lib n) ss /\ In (n_name n) ss /\ In (n_t n) T /\ 0 <= n_findex n.
Definition constant_ok (k : constant) : Prop :=
  0 <= k_global k /\ zlen (k_fields k) = k_nfields k /\ Forall (fun x => 0 <= x) (k_fields k).

(** ** Table sizes *)
Definition sizes_ok (c : code) : Prop :=
  Forall (fun n => 0 <= n < 2 ^ 31) [c_nints c; c_nfloats c; c_nstrings c; c_nbytes c; c_ntypes c; c_nglobals c;
    c_nnatives c; c_nfunctions c; c_nconstants c; c_entrypoint c] /\
  zlen (c_ints c) = c_nints c /\ zlen (c_floats c) = c_nfloats c /\
  zlen (c_strings c) <= c_nstrings c /\ zlen (c_strings_lens c) = zlen (c_strings c) /\
  zlen (c_bytes_pos c) = c_nbytes c /\
  zlen (c_debugfiles c) <= c_ndebugfiles c /\
  zlen (c_types c) = 2 * c_ntypes c /\ zlen (c_globals c) = 2 * c_nglobals c /\
  zlen (c_natives c) = c_nnatives c /\ zlen (c_functions c) = c_nfunctions c /\
  zlen (c_constants c) = c_nconstants c.

Definition contents_ok (c : code) : Prop :=
  let ss := c_strings c in
  let D := declared c in
  Forall i32_range (c_ints c) /\ Forall (fun x => 0 <= x < 2 ^ 64) (c_floats c) /\
  Forall utf8 ss /\ c_strings_lens c = map zlen ss /\
  Forall is_byte (c_bytes c) /\ Forall (fun p => 0 <= p) (c_bytes_pos c) /\
  Forall utf8 (c_debugfiles c) /\
  types_ok ss (c_ntypes c) (c_types c) /\ globals_ok D (c_nglobals c) (c_globals c) /\
  Forall (native_ok ss D) (c_natives c) /\
  Forall (function_ok D (negb (c_hasdebug c =? 0)) (c_ndebugfiles c)) (c_functions c) /\
  Forall constant_ok (c_constants c) /\ 0 <= c_entrypoint c.
