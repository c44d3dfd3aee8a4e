(** Data types of crates/brass/src: types.rs, op.rs, native.rs, errors.rs and the [Code] record of
    code.rs.  No proofs here. *)
From Verif Require Import Prelude StdModel.

(** * errors.rs:2-17 *)
Inductive err_kind :=
| InvalidBytecodeHeader | UnsupportedBytecodeVersion | NoMoreData | InvalidType | InvalidTypeIndex
| InvalidOpcode | CouldNotProcessOpcode | CouldNotReadIndex | CouldNotReadStringAtIndex
| InvalidStringIndex | InvalidString | NegativeIndex | InvalidDebugFile | OutsideRange.

(** errors.rs:20-32; [position] is always [Some] ([with_info] is the only constructor). *)
Record derr := { e_kind : err_kind; e_pos : Z }.
Definition with_info (k : err_kind) (p : Z) : derr := {| e_kind := k; e_pos := p |}.

(** * types.rs:30-57 [TypeKind] (repr u8): represented by its discriminant. *)
Definition HVOID := 0.   Definition HUI8 := 1.     Definition HUI16 := 2.   Definition HI32 := 3.
Definition HI64 := 4.    Definition HF32 := 5.     Definition HF64 := 6.    Definition HBOOL := 7.
Definition HBYTES := 8.  Definition HDYN := 9.     Definition HFUN := 10.   Definition HOBJ := 11.
Definition HARRAY := 12. Definition HTYPE := 13.   Definition HREF := 14.   Definition HVIRTUAL := 15.
Definition HDYNOBJ := 16. Definition HABSTRACT := 17. Definition HENUM := 18. Definition HNULL := 19.
Definition HMETHOD := 20. Definition HSTRUCT := 21. Definition HPACKED := 22. Definition HLAST := 23.

(** types.rs:211-215 [ObjField], over the type of type references. *)
Record obj_field (T : Type) := mkField { fd_name : str; fd_hash : Z; fd_t : T }.
Arguments mkField {T}. Arguments fd_name {T}. Arguments fd_hash {T}. Arguments fd_t {T}.

(** types.rs:218-223 [ObjProto] *)
Record obj_proto := mkProto { pr_name : str; pr_hash : Z; pr_findex : Z; pr_pindex : Z }.

(** types.rs:227-234 [EnumConstruct] *)
Record enum_construct (T : Type) := mkCon {
  ec_name : str; ec_nparams : Z; ec_params : list T; ec_size : Z; ec_hasptr : bool;
  ec_offsets : list Z }.
Arguments mkCon {T}. Arguments ec_name {T}. Arguments ec_nparams {T}. Arguments ec_params {T}.
Arguments ec_size {T}. Arguments ec_hasptr {T}. Arguments ec_offsets {T}.

(** types.rs:61-93 [ValueTypeU].  [rt : Option<RuntimeObj>] ([RuntimeObj] is an empty struct) is
    [None] in every value the crate builds; the field is a [option unit] here. *)
Inductive vtu (T : Type) :=
| FuncType (args : list T) (nargs : Z) (ret : T)
| ObjType (name : str) (super_type : T) (fields : list (obj_field T)) (nfields nproto nbindings : Z)
          (proto : list obj_proto) (bindings : list Z) (global_value : list Z) (rt : option unit)
| VirtualType (nfields : Z) (fields : list (obj_field T))
| EnumType (name : str) (nconstructs : Z) (constructs : list (enum_construct T))
           (global_value : list Z)
| URef (t : T)
| UAbstract (name : str)
| UNull
| UVoid.
Arguments FuncType {T}. Arguments ObjType {T}. Arguments VirtualType {T}. Arguments EnumType {T}.
Arguments URef {T}. Arguments UAbstract {T}. Arguments UNull {T}. Arguments UVoid {T}.

(** types.rs:97-102 [ValueType] *)
Inductive vtype := VT (union : vtu vtype) (abs_name : option str) (tparam : option vtype) (kind : Z).
Definition vt_union (t : vtype) := match t with VT u _ _ _ => u end.
Definition vt_abs_name (t : vtype) := match t with VT _ a _ _ => a end.
Definition vt_tparam (t : vtype) := match t with VT _ _ p _ => p end.
Definition vt_kind (t : vtype) := match t with VT _ _ _ k => k end.

(** types.rs:199-206 [ValueType::default] *)
Definition vt_default : vtype := VT UNull None None HNULL.

(** * op.rs.  [Op] (op.rs:20-135, repr u8) is represented by its discriminant 0..99. *)
Definition OInt := 1. Definition OFloat := 2. Definition OString := 5.
Definition OCall0 := 24. Definition OCall1 := 25. Definition OCall2 := 26. Definition OCall3 := 27.
Definition OCall4 := 28. Definition OCallN := 29. Definition OCallMethod := 30.
Definition OCallThis := 31. Definition OCallClosure := 32. Definition OStaticClosure := 33.
Definition OInstanceClosure := 34. Definition OSetGlobal := 37. Definition ODynGet := 42.
Definition ODynSet := 43. Definition OSwitch := 70. Definition OGetArray := 77.
Definition OType := 84. Definition OMakeEnum := 90. Definition ONop := 98.

(** op.rs:137-142 *)
Definition OP_NARGS : list Z := [
    2; 2; 2; 2; 2; 2; 1; 3; 3; 3; 3; 3; 3; 3; 3; 3; 3; 3; 3; 3; 2; 2; 1; 1; 2; 3; 4; 5; 6; -1; -1;
    -1; -1; 2; 3; 3; 2; 2; 3; 3; 2; 2; 3; 3; 2; 2; 2; 2; 3; 3; 3; 3; 3; 3; 3; 3; 3; 3; 1; 2; 2; 2;
    2; 2; 2; 2; 0; 1; 1; 1; -1; 1; 2; 1; 3; 3; 3; 3; 3; 3; 3; 3; 1; 2; 2; 2; 2; 2; 2; 2; -1; 2; 2;
    4; 3; 0; 2; 3; 0; 0 ].

(** op.rs:146-152 [Opcode] *)
Record opcode := { o_op : Z; o_p1 : option Z; o_p2 : option Z; o_p3 : option Z; o_extra : list Z }.
(** op.rs:155-163 *)
Definition opcode_default : opcode :=
  {| o_op := ONop; o_p1 := None; o_p2 := None; o_p3 := None; o_extra := [] |}.

(** types.rs:242-253 [HLFunction] and types.rs:257-260 [FuncField]. *)
Inductive hl_function := mkFun (t : vtype) (findex nregs nops rf : Z) (regs : list vtype)
  (ops : list opcode) (debug : list Z) (obj : option (vtu vtype)) (field : option func_field)
with func_field := mkFF (name : str) (rf : option hl_function).
Definition hf_t f := match f with mkFun t _ _ _ _ _ _ _ _ _ => t end.
Definition hf_findex f := match f with mkFun _ x _ _ _ _ _ _ _ _ => x end.
Definition hf_nregs f := match f with mkFun _ _ x _ _ _ _ _ _ _ => x end.
Definition hf_nops f := match f with mkFun _ _ _ x _ _ _ _ _ _ => x end.
Definition hf_rf f := match f with mkFun _ _ _ _ x _ _ _ _ _ => x end.
Definition hf_regs f := match f with mkFun _ _ _ _ _ x _ _ _ _ => x end.
Definition hf_ops f := match f with mkFun _ _ _ _ _ _ x _ _ _ => x end.
Definition hf_debug f := match f with mkFun _ _ _ _ _ _ _ x _ _ => x end.
Definition hf_obj f := match f with mkFun _ _ _ _ _ _ _ _ x _ => x end.
Definition hf_field f := match f with mkFun _ _ _ _ _ _ _ _ _ x => x end.
Definition ff_name f := match f with mkFF n _ => n end.
Definition ff_rf f := match f with mkFF _ r => r end.
Definition hf_set_debug f d :=
  match f with mkFun a b c e g h i _ k l => mkFun a b c e g h i d k l end.

(** types.rs:263-267 [Constant] *)
Record constant := { k_global : Z; k_nfields : Z; k_fields : list Z }.

(** native.rs:5-10 [Native] *)
Record native := { n_lib : str; n_name : str; n_t : vtype; n_findex : Z }.

(** code.rs:52-80 [Code].  [f64] values are their 64-bit patterns. *)
Record code := {
  c_types : list vtype; c_ntypes : Z; c_strings : list str; c_strings_lens : list Z;
  c_ustrings : list (option str); c_nstrings : Z; c_nints : Z; c_ints : list Z; c_nfloats : Z;
  c_floats : list Z; c_nbytes : Z; c_nfunctions : Z; c_functions : list hl_function;
  c_nconstants : Z; c_constants : list constant; c_entrypoint : Z; c_nglobals : Z;
  c_globals : list vtype; c_nnatives : Z; c_natives : list native; c_hasdebug : Z; c_version : Z;
  c_bytes : list Z; c_bytes_pos : list Z; c_ndebugfiles : Z; c_debugfiles : list str;
  c_debugfiles_lens : list Z }.

(** code.rs:83-113 [Code::new] *)
Definition code_new : code := {|
  c_types := []; c_ntypes := 0; c_strings := []; c_strings_lens := []; c_ustrings := [];
  c_nstrings := 0; c_nints := 0; c_ints := []; c_nfloats := 0; c_floats := []; c_nbytes := 0;
  c_nfunctions := 0; c_functions := []; c_nconstants := 0; c_constants := []; c_entrypoint := 0;
  c_nglobals := 0; c_globals := []; c_nnatives := 0; c_natives := []; c_hasdebug := 0;
  c_version := 0; c_bytes := []; c_bytes_pos := []; c_ndebugfiles := 0; c_debugfiles := [];
  c_debugfiles_lens := [] |}.

(** Field updates [c.f = x] (generated, one per field). *)
Definition set_types x (c : code) : code := {|
  c_types := x; c_ntypes := c_ntypes c; c_strings := c_strings c; c_strings_lens :=
  c_strings_lens c; c_ustrings := c_ustrings c; c_nstrings := c_nstrings c; c_nints := c_nints
  c; c_ints := c_ints c; c_nfloats := c_nfloats c; c_floats := c_floats c; c_nbytes := c_nbytes
  c; c_nfunctions := c_nfunctions c; c_functions := c_functions c; c_nconstants := c_nconstants
  c; c_constants := c_constants c; c_entrypoint := c_entrypoint c; c_nglobals := c_nglobals c;
  c_globals := c_globals c; c_nnatives := c_nnatives c; c_natives := c_natives c; c_hasdebug :=
  c_hasdebug c; c_version := c_version c; c_bytes := c_bytes c; c_bytes_pos := c_bytes_pos c;
  c_ndebugfiles := c_ndebugfiles c; c_debugfiles := c_debugfiles c; c_debugfiles_lens :=
  c_debugfiles_lens c |}.
Definition set_ntypes x (c : code) : code := {|
  c_types := c_types c; c_ntypes := x; c_strings := c_strings c; c_strings_lens :=
  c_strings_lens c; c_ustrings := c_ustrings c; c_nstrings := c_nstrings c; c_nints := c_nints
  c; c_ints := c_ints c; c_nfloats := c_nfloats c; c_floats := c_floats c; c_nbytes := c_nbytes
  c; c_nfunctions := c_nfunctions c; c_functions := c_functions c; c_nconstants := c_nconstants
  c; c_constants := c_constants c; c_entrypoint := c_entrypoint c; c_nglobals := c_nglobals c;
  c_globals := c_globals c; c_nnatives := c_nnatives c; c_natives := c_natives c; c_hasdebug :=
  c_hasdebug c; c_version := c_version c; c_bytes := c_bytes c; c_bytes_pos := c_bytes_pos c;
  c_ndebugfiles := c_ndebugfiles c; c_debugfiles := c_debugfiles c; c_debugfiles_lens :=
  c_debugfiles_lens c |}.
Definition set_strings x (c : code) : code := {|
  c_types := c_types c; c_ntypes := c_ntypes c; c_strings := x; c_strings_lens := c_strings_lens
  c; c_ustrings := c_ustrings c; c_nstrings := c_nstrings c; c_nints := c_nints c; c_ints :=
  c_ints c; c_nfloats := c_nfloats c; c_floats := c_floats c; c_nbytes := c_nbytes c;
  c_nfunctions := c_nfunctions c; c_functions := c_functions c; c_nconstants := c_nconstants c;
  c_constants := c_constants c; c_entrypoint := c_entrypoint c; c_nglobals := c_nglobals c;
  c_globals := c_globals c; c_nnatives := c_nnatives c; c_natives := c_natives c; c_hasdebug :=
  c_hasdebug c; c_version := c_version c; c_bytes := c_bytes c; c_bytes_pos := c_bytes_pos c;
  c_ndebugfiles := c_ndebugfiles c; c_debugfiles := c_debugfiles c; c_debugfiles_lens :=
  c_debugfiles_lens c |}.
Definition set_strings_lens x (c : code) : code := {|
  c_types := c_types c; c_ntypes := c_ntypes c; c_strings := c_strings c; c_strings_lens := x;
  c_ustrings := c_ustrings c; c_nstrings := c_nstrings c; c_nints := c_nints c; c_ints := c_ints
  c; c_nfloats := c_nfloats c; c_floats := c_floats c; c_nbytes := c_nbytes c; c_nfunctions :=
  c_nfunctions c; c_functions := c_functions c; c_nconstants := c_nconstants c; c_constants :=
  c_constants c; c_entrypoint := c_entrypoint c; c_nglobals := c_nglobals c; c_globals :=
  c_globals c; c_nnatives := c_nnatives c; c_natives := c_natives c; c_hasdebug := c_hasdebug c;
  c_version := c_version c; c_bytes := c_bytes c; c_bytes_pos := c_bytes_pos c; c_ndebugfiles :=
  c_ndebugfiles c; c_debugfiles := c_debugfiles c; c_debugfiles_lens := c_debugfiles_lens c |}.
Definition set_ustrings x (c : code) : code := {|
  c_types := c_types c; c_ntypes := c_ntypes c; c_strings := c_strings c; c_strings_lens :=
  c_strings_lens c; c_ustrings := x; c_nstrings := c_nstrings c; c_nints := c_nints c; c_ints :=
  c_ints c; c_nfloats := c_nfloats c; c_floats := c_floats c; c_nbytes := c_nbytes c;
  c_nfunctions := c_nfunctions c; c_functions := c_functions c; c_nconstants := c_nconstants c;
  c_constants := c_constants c; c_entrypoint := c_entrypoint c; c_nglobals := c_nglobals c;
  c_globals := c_globals c; c_nnatives := c_nnatives c; c_natives := c_natives c; c_hasdebug :=
  c_hasdebug c; c_version := c_version c; c_bytes := c_bytes c; c_bytes_pos := c_bytes_pos c;
  c_ndebugfiles := c_ndebugfiles c; c_debugfiles := c_debugfiles c; c_debugfiles_lens :=
  c_debugfiles_lens c |}.
Definition set_nstrings x (c : code) : code := {|
  c_types := c_types c; c_ntypes := c_ntypes c; c_strings := c_strings c; c_strings_lens :=
  c_strings_lens c; c_ustrings := c_ustrings c; c_nstrings := x; c_nints := c_nints c; c_ints :=
  c_ints c; c_nfloats := c_nfloats c; c_floats := c_floats c; c_nbytes := c_nbytes c;
  c_nfunctions := c_nfunctions c; c_functions := c_functions c; c_nconstants := c_nconstants c;
  c_constants := c_constants c; c_entrypoint := c_entrypoint c; c_nglobals := c_nglobals c;
  c_globals := c_globals c; c_nnatives := c_nnatives c; c_natives := c_natives c; c_hasdebug :=
  c_hasdebug c; c_version := c_version c; c_bytes := c_bytes c; c_bytes_pos := c_bytes_pos c;
  c_ndebugfiles := c_ndebugfiles c; c_debugfiles := c_debugfiles c; c_debugfiles_lens :=
  c_debugfiles_lens c |}.
Definition set_nints x (c : code) : code := {|
  c_types := c_types c; c_ntypes := c_ntypes c; c_strings := c_strings c; c_strings_lens :=
  c_strings_lens c; c_ustrings := c_ustrings c; c_nstrings := c_nstrings c; c_nints := x; c_ints
  := c_ints c; c_nfloats := c_nfloats c; c_floats := c_floats c; c_nbytes := c_nbytes c;
  c_nfunctions := c_nfunctions c; c_functions := c_functions c; c_nconstants := c_nconstants c;
  c_constants := c_constants c; c_entrypoint := c_entrypoint c; c_nglobals := c_nglobals c;
  c_globals := c_globals c; c_nnatives := c_nnatives c; c_natives := c_natives c; c_hasdebug :=
  c_hasdebug c; c_version := c_version c; c_bytes := c_bytes c; c_bytes_pos := c_bytes_pos c;
  c_ndebugfiles := c_ndebugfiles c; c_debugfiles := c_debugfiles c; c_debugfiles_lens :=
  c_debugfiles_lens c |}.
Definition set_ints x (c : code) : code := {|
  c_types := c_types c; c_ntypes := c_ntypes c; c_strings := c_strings c; c_strings_lens :=
  c_strings_lens c; c_ustrings := c_ustrings c; c_nstrings := c_nstrings c; c_nints := c_nints
  c; c_ints := x; c_nfloats := c_nfloats c; c_floats := c_floats c; c_nbytes := c_nbytes c;
  c_nfunctions := c_nfunctions c; c_functions := c_functions c; c_nconstants := c_nconstants c;
  c_constants := c_constants c; c_entrypoint := c_entrypoint c; c_nglobals := c_nglobals c;
  c_globals := c_globals c; c_nnatives := c_nnatives c; c_natives := c_natives c; c_hasdebug :=
  c_hasdebug c; c_version := c_version c; c_bytes := c_bytes c; c_bytes_pos := c_bytes_pos c;
  c_ndebugfiles := c_ndebugfiles c; c_debugfiles := c_debugfiles c; c_debugfiles_lens :=
  c_debugfiles_lens c |}.
Definition set_nfloats x (c : code) : code := {|
  c_types := c_types c; c_ntypes := c_ntypes c; c_strings := c_strings c; c_strings_lens :=
  c_strings_lens c; c_ustrings := c_ustrings c; c_nstrings := c_nstrings c; c_nints := c_nints
  c; c_ints := c_ints c; c_nfloats := x; c_floats := c_floats c; c_nbytes := c_nbytes c;
  c_nfunctions := c_nfunctions c; c_functions := c_functions c; c_nconstants := c_nconstants c;
  c_constants := c_constants c; c_entrypoint := c_entrypoint c; c_nglobals := c_nglobals c;
  c_globals := c_globals c; c_nnatives := c_nnatives c; c_natives := c_natives c; c_hasdebug :=
  c_hasdebug c; c_version := c_version c; c_bytes := c_bytes c; c_bytes_pos := c_bytes_pos c;
  c_ndebugfiles := c_ndebugfiles c; c_debugfiles := c_debugfiles c; c_debugfiles_lens :=
  c_debugfiles_lens c |}.
Definition set_floats x (c : code) : code := {|
  c_types := c_types c; c_ntypes := c_ntypes c; c_strings := c_strings c; c_strings_lens :=
  c_strings_lens c; c_ustrings := c_ustrings c; c_nstrings := c_nstrings c; c_nints := c_nints
  c; c_ints := c_ints c; c_nfloats := c_nfloats c; c_floats := x; c_nbytes := c_nbytes c;
  c_nfunctions := c_nfunctions c; c_functions := c_functions c; c_nconstants := c_nconstants c;
  c_constants := c_constants c; c_entrypoint := c_entrypoint c; c_nglobals := c_nglobals c;
  c_globals := c_globals c; c_nnatives := c_nnatives c; c_natives := c_natives c; c_hasdebug :=
  c_hasdebug c; c_version := c_version c; c_bytes := c_bytes c; c_bytes_pos := c_bytes_pos c;
  c_ndebugfiles := c_ndebugfiles c; c_debugfiles := c_debugfiles c; c_debugfiles_lens :=
  c_debugfiles_lens c |}.
Definition set_nbytes x (c : code) : code := {|
  c_types := c_types c; c_ntypes := c_ntypes c; c_strings := c_strings c; c_strings_lens :=
  c_strings_lens c; c_ustrings := c_ustrings c; c_nstrings := c_nstrings c; c_nints := c_nints
  c; c_ints := c_ints c; c_nfloats := c_nfloats c; c_floats := c_floats c; c_nbytes := x;
  c_nfunctions := c_nfunctions c; c_functions := c_functions c; c_nconstants := c_nconstants c;
  c_constants := c_constants c; c_entrypoint := c_entrypoint c; c_nglobals := c_nglobals c;
  c_globals := c_globals c; c_nnatives := c_nnatives c; c_natives := c_natives c; c_hasdebug :=
  c_hasdebug c; c_version := c_version c; c_bytes := c_bytes c; c_bytes_pos := c_bytes_pos c;
  c_ndebugfiles := c_ndebugfiles c; c_debugfiles := c_debugfiles c; c_debugfiles_lens :=
  c_debugfiles_lens c |}.
Definition set_nfunctions x (c : code) : code := {|
  c_types := c_types c; c_ntypes := c_ntypes c; c_strings := c_strings c; c_strings_lens :=
  c_strings_lens c; c_ustrings := c_ustrings c; c_nstrings := c_nstrings c; c_nints := c_nints
  c; c_ints := c_ints c; c_nfloats := c_nfloats c; c_floats := c_floats c; c_nbytes := c_nbytes
  c; c_nfunctions := x; c_functions := c_functions c; c_nconstants := c_nconstants c;
  c_constants := c_constants c; c_entrypoint := c_entrypoint c; c_nglobals := c_nglobals c;
  c_globals := c_globals c; c_nnatives := c_nnatives c; c_natives := c_natives c; c_hasdebug :=
  c_hasdebug c; c_version := c_version c; c_bytes := c_bytes c; c_bytes_pos := c_bytes_pos c;
  c_ndebugfiles := c_ndebugfiles c; c_debugfiles := c_debugfiles c; c_debugfiles_lens :=
  c_debugfiles_lens c |}.
Definition set_functions x (c : code) : code := {|
  c_types := c_types c; c_ntypes := c_ntypes c; c_strings := c_strings c; c_strings_lens :=
  c_strings_lens c; c_ustrings := c_ustrings c; c_nstrings := c_nstrings c; c_nints := c_nints
  c; c_ints := c_ints c; c_nfloats := c_nfloats c; c_floats := c_floats c; c_nbytes := c_nbytes
  c; c_nfunctions := c_nfunctions c; c_functions := x; c_nconstants := c_nconstants c;
  c_constants := c_constants c; c_entrypoint := c_entrypoint c; c_nglobals := c_nglobals c;
  c_globals := c_globals c; c_nnatives := c_nnatives c; c_natives := c_natives c; c_hasdebug :=
  c_hasdebug c; c_version := c_version c; c_bytes := c_bytes c; c_bytes_pos := c_bytes_pos c;
  c_ndebugfiles := c_ndebugfiles c; c_debugfiles := c_debugfiles c; c_debugfiles_lens :=
  c_debugfiles_lens c |}.
Definition set_nconstants x (c : code) : code := {|
  c_types := c_types c; c_ntypes := c_ntypes c; c_strings := c_strings c; c_strings_lens :=
  c_strings_lens c; c_ustrings := c_ustrings c; c_nstrings := c_nstrings c; c_nints := c_nints
  c; c_ints := c_ints c; c_nfloats := c_nfloats c; c_floats := c_floats c; c_nbytes := c_nbytes
  c; c_nfunctions := c_nfunctions c; c_functions := c_functions c; c_nconstants := x;
  c_constants := c_constants c; c_entrypoint := c_entrypoint c; c_nglobals := c_nglobals c;
  c_globals := c_globals c; c_nnatives := c_nnatives c; c_natives := c_natives c; c_hasdebug :=
  c_hasdebug c; c_version := c_version c; c_bytes := c_bytes c; c_bytes_pos := c_bytes_pos c;
  c_ndebugfiles := c_ndebugfiles c; c_debugfiles := c_debugfiles c; c_debugfiles_lens :=
  c_debugfiles_lens c |}.
Definition set_constants x (c : code) : code := {|
  c_types := c_types c; c_ntypes := c_ntypes c; c_strings := c_strings c; c_strings_lens :=
  c_strings_lens c; c_ustrings := c_ustrings c; c_nstrings := c_nstrings c; c_nints := c_nints
  c; c_ints := c_ints c; c_nfloats := c_nfloats c; c_floats := c_floats c; c_nbytes := c_nbytes
  c; c_nfunctions := c_nfunctions c; c_functions := c_functions c; c_nconstants := c_nconstants
  c; c_constants := x; c_entrypoint := c_entrypoint c; c_nglobals := c_nglobals c; c_globals :=
  c_globals c; c_nnatives := c_nnatives c; c_natives := c_natives c; c_hasdebug := c_hasdebug c;
  c_version := c_version c; c_bytes := c_bytes c; c_bytes_pos := c_bytes_pos c; c_ndebugfiles :=
  c_ndebugfiles c; c_debugfiles := c_debugfiles c; c_debugfiles_lens := c_debugfiles_lens c |}.
Definition set_entrypoint x (c : code) : code := {|
  c_types := c_types c; c_ntypes := c_ntypes c; c_strings := c_strings c; c_strings_lens :=
  c_strings_lens c; c_ustrings := c_ustrings c; c_nstrings := c_nstrings c; c_nints := c_nints
  c; c_ints := c_ints c; c_nfloats := c_nfloats c; c_floats := c_floats c; c_nbytes := c_nbytes
  c; c_nfunctions := c_nfunctions c; c_functions := c_functions c; c_nconstants := c_nconstants
  c; c_constants := c_constants c; c_entrypoint := x; c_nglobals := c_nglobals c; c_globals :=
  c_globals c; c_nnatives := c_nnatives c; c_natives := c_natives c; c_hasdebug := c_hasdebug c;
  c_version := c_version c; c_bytes := c_bytes c; c_bytes_pos := c_bytes_pos c; c_ndebugfiles :=
  c_ndebugfiles c; c_debugfiles := c_debugfiles c; c_debugfiles_lens := c_debugfiles_lens c |}.
Definition set_nglobals x (c : code) : code := {|
  c_types := c_types c; c_ntypes := c_ntypes c; c_strings := c_strings c; c_strings_lens :=
  c_strings_lens c; c_ustrings := c_ustrings c; c_nstrings := c_nstrings c; c_nints := c_nints
  c; c_ints := c_ints c; c_nfloats := c_nfloats c; c_floats := c_floats c; c_nbytes := c_nbytes
  c; c_nfunctions := c_nfunctions c; c_functions := c_functions c; c_nconstants := c_nconstants
  c; c_constants := c_constants c; c_entrypoint := c_entrypoint c; c_nglobals := x; c_globals :=
  c_globals c; c_nnatives := c_nnatives c; c_natives := c_natives c; c_hasdebug := c_hasdebug c;
  c_version := c_version c; c_bytes := c_bytes c; c_bytes_pos := c_bytes_pos c; c_ndebugfiles :=
  c_ndebugfiles c; c_debugfiles := c_debugfiles c; c_debugfiles_lens := c_debugfiles_lens c |}.
Definition set_globals x (c : code) : code := {|
  c_types := c_types c; c_ntypes := c_ntypes c; c_strings := c_strings c; c_strings_lens :=
  c_strings_lens c; c_ustrings := c_ustrings c; c_nstrings := c_nstrings c; c_nints := c_nints
  c; c_ints := c_ints c; c_nfloats := c_nfloats c; c_floats := c_floats c; c_nbytes := c_nbytes
  c; c_nfunctions := c_nfunctions c; c_functions := c_functions c; c_nconstants := c_nconstants
  c; c_constants := c_constants c; c_entrypoint := c_entrypoint c; c_nglobals := c_nglobals c;
  c_globals := x; c_nnatives := c_nnatives c; c_natives := c_natives c; c_hasdebug := c_hasdebug
  c; c_version := c_version c; c_bytes := c_bytes c; c_bytes_pos := c_bytes_pos c; c_ndebugfiles
  := c_ndebugfiles c; c_debugfiles := c_debugfiles c; c_debugfiles_lens := c_debugfiles_lens c |}.
Definition set_nnatives x (c : code) : code := {|
  c_types := c_types c; c_ntypes := c_ntypes c; c_strings := c_strings c; c_strings_lens :=
  c_strings_lens c; c_ustrings := c_ustrings c; c_nstrings := c_nstrings c; c_nints := c_nints
  c; c_ints := c_ints c; c_nfloats := c_nfloats c; c_floats := c_floats c; c_nbytes := c_nbytes
  c; c_nfunctions := c_nfunctions c; c_functions := c_functions c; c_nconstants := c_nconstants
  c; c_constants := c_constants c; c_entrypoint := c_entrypoint c; c_nglobals := c_nglobals c;
  c_globals := c_globals c; c_nnatives := x; c_natives := c_natives c; c_hasdebug := c_hasdebug
  c; c_version := c_version c; c_bytes := c_bytes c; c_bytes_pos := c_bytes_pos c; c_ndebugfiles
  := c_ndebugfiles c; c_debugfiles := c_debugfiles c; c_debugfiles_lens := c_debugfiles_lens c |}.
Definition set_natives x (c : code) : code := {|
  c_types := c_types c; c_ntypes := c_ntypes c; c_strings := c_strings c; c_strings_lens :=
  c_strings_lens c; c_ustrings := c_ustrings c; c_nstrings := c_nstrings c; c_nints := c_nints
  c; c_ints := c_ints c; c_nfloats := c_nfloats c; c_floats := c_floats c; c_nbytes := c_nbytes
  c; c_nfunctions := c_nfunctions c; c_functions := c_functions c; c_nconstants := c_nconstants
  c; c_constants := c_constants c; c_entrypoint := c_entrypoint c; c_nglobals := c_nglobals c;
  c_globals := c_globals c; c_nnatives := c_nnatives c; c_natives := x; c_hasdebug := c_hasdebug
  c; c_version := c_version c; c_bytes := c_bytes c; c_bytes_pos := c_bytes_pos c; c_ndebugfiles
  := c_ndebugfiles c; c_debugfiles := c_debugfiles c; c_debugfiles_lens := c_debugfiles_lens c |}.
Definition set_hasdebug x (c : code) : code := {|
  c_types := c_types c; c_ntypes := c_ntypes c; c_strings := c_strings c; c_strings_lens :=
  c_strings_lens c; c_ustrings := c_ustrings c; c_nstrings := c_nstrings c; c_nints := c_nints
  c; c_ints := c_ints c; c_nfloats := c_nfloats c; c_floats := c_floats c; c_nbytes := c_nbytes
  c; c_nfunctions := c_nfunctions c; c_functions := c_functions c; c_nconstants := c_nconstants
  c; c_constants := c_constants c; c_entrypoint := c_entrypoint c; c_nglobals := c_nglobals c;
  c_globals := c_globals c; c_nnatives := c_nnatives c; c_natives := c_natives c; c_hasdebug :=
  x; c_version := c_version c; c_bytes := c_bytes c; c_bytes_pos := c_bytes_pos c; c_ndebugfiles
  := c_ndebugfiles c; c_debugfiles := c_debugfiles c; c_debugfiles_lens := c_debugfiles_lens c |}.
Definition set_version x (c : code) : code := {|
  c_types := c_types c; c_ntypes := c_ntypes c; c_strings := c_strings c; c_strings_lens :=
  c_strings_lens c; c_ustrings := c_ustrings c; c_nstrings := c_nstrings c; c_nints := c_nints
  c; c_ints := c_ints c; c_nfloats := c_nfloats c; c_floats := c_floats c; c_nbytes := c_nbytes
  c; c_nfunctions := c_nfunctions c; c_functions := c_functions c; c_nconstants := c_nconstants
  c; c_constants := c_constants c; c_entrypoint := c_entrypoint c; c_nglobals := c_nglobals c;
  c_globals := c_globals c; c_nnatives := c_nnatives c; c_natives := c_natives c; c_hasdebug :=
  c_hasdebug c; c_version := x; c_bytes := c_bytes c; c_bytes_pos := c_bytes_pos c;
  c_ndebugfiles := c_ndebugfiles c; c_debugfiles := c_debugfiles c; c_debugfiles_lens :=
  c_debugfiles_lens c |}.
Definition set_bytes x (c : code) : code := {|
  c_types := c_types c; c_ntypes := c_ntypes c; c_strings := c_strings c; c_strings_lens :=
  c_strings_lens c; c_ustrings := c_ustrings c; c_nstrings := c_nstrings c; c_nints := c_nints
  c; c_ints := c_ints c; c_nfloats := c_nfloats c; c_floats := c_floats c; c_nbytes := c_nbytes
  c; c_nfunctions := c_nfunctions c; c_functions := c_functions c; c_nconstants := c_nconstants
  c; c_constants := c_constants c; c_entrypoint := c_entrypoint c; c_nglobals := c_nglobals c;
  c_globals := c_globals c; c_nnatives := c_nnatives c; c_natives := c_natives c; c_hasdebug :=
  c_hasdebug c; c_version := c_version c; c_bytes := x; c_bytes_pos := c_bytes_pos c;
  c_ndebugfiles := c_ndebugfiles c; c_debugfiles := c_debugfiles c; c_debugfiles_lens :=
  c_debugfiles_lens c |}.
Definition set_bytes_pos x (c : code) : code := {|
  c_types := c_types c; c_ntypes := c_ntypes c; c_strings := c_strings c; c_strings_lens :=
  c_strings_lens c; c_ustrings := c_ustrings c; c_nstrings := c_nstrings c; c_nints := c_nints
  c; c_ints := c_ints c; c_nfloats := c_nfloats c; c_floats := c_floats c; c_nbytes := c_nbytes
  c; c_nfunctions := c_nfunctions c; c_functions := c_functions c; c_nconstants := c_nconstants
  c; c_constants := c_constants c; c_entrypoint := c_entrypoint c; c_nglobals := c_nglobals c;
  c_globals := c_globals c; c_nnatives := c_nnatives c; c_natives := c_natives c; c_hasdebug :=
  c_hasdebug c; c_version := c_version c; c_bytes := c_bytes c; c_bytes_pos := x; c_ndebugfiles
  := c_ndebugfiles c; c_debugfiles := c_debugfiles c; c_debugfiles_lens := c_debugfiles_lens c |}.
Definition set_ndebugfiles x (c : code) : code := {|
  c_types := c_types c; c_ntypes := c_ntypes c; c_strings := c_strings c; c_strings_lens :=
  c_strings_lens c; c_ustrings := c_ustrings c; c_nstrings := c_nstrings c; c_nints := c_nints
  c; c_ints := c_ints c; c_nfloats := c_nfloats c; c_floats := c_floats c; c_nbytes := c_nbytes
  c; c_nfunctions := c_nfunctions c; c_functions := c_functions c; c_nconstants := c_nconstants
  c; c_constants := c_constants c; c_entrypoint := c_entrypoint c; c_nglobals := c_nglobals c;
  c_globals := c_globals c; c_nnatives := c_nnatives c; c_natives := c_natives c; c_hasdebug :=
  c_hasdebug c; c_version := c_version c; c_bytes := c_bytes c; c_bytes_pos := c_bytes_pos c;
  c_ndebugfiles := x; c_debugfiles := c_debugfiles c; c_debugfiles_lens := c_debugfiles_lens c |}.
Definition set_debugfiles x (c : code) : code := {|
  c_types := c_types c; c_ntypes := c_ntypes c; c_strings := c_strings c; c_strings_lens :=
  c_strings_lens c; c_ustrings := c_ustrings c; c_nstrings := c_nstrings c; c_nints := c_nints
  c; c_ints := c_ints c; c_nfloats := c_nfloats c; c_floats := c_floats c; c_nbytes := c_nbytes
  c; c_nfunctions := c_nfunctions c; c_functions := c_functions c; c_nconstants := c_nconstants
  c; c_constants := c_constants c; c_entrypoint := c_entrypoint c; c_nglobals := c_nglobals c;
  c_globals := c_globals c; c_nnatives := c_nnatives c; c_natives := c_natives c; c_hasdebug :=
  c_hasdebug c; c_version := c_version c; c_bytes := c_bytes c; c_bytes_pos := c_bytes_pos c;
  c_ndebugfiles := c_ndebugfiles c; c_debugfiles := x; c_debugfiles_lens := c_debugfiles_lens c |}.
Definition set_debugfiles_lens x (c : code) : code := {|
  c_types := c_types c; c_ntypes := c_ntypes c; c_strings := c_strings c; c_strings_lens :=
  c_strings_lens c; c_ustrings := c_ustrings c; c_nstrings := c_nstrings c; c_nints := c_nints
  c; c_ints := c_ints c; c_nfloats := c_nfloats c; c_floats := c_floats c; c_nbytes := c_nbytes
  c; c_nfunctions := c_nfunctions c; c_functions := c_functions c; c_nconstants := c_nconstants
  c; c_constants := c_constants c; c_entrypoint := c_entrypoint c; c_nglobals := c_nglobals c;
  c_globals := c_globals c; c_nnatives := c_nnatives c; c_natives := c_natives c; c_hasdebug :=
  c_hasdebug c; c_version := c_version c; c_bytes := c_bytes c; c_bytes_pos := c_bytes_pos c;
  c_ndebugfiles := c_ndebugfiles c; c_debugfiles := c_debugfiles c; c_debugfiles_lens := x |}.
