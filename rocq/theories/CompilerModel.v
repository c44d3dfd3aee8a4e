(** Model of crates/brass/src/compiler.rs:15-125 (module set-up; no code is generated by this crate).

    The Cranelift JIT module is reduced to what this code does to it: the ordered table of declared data
    objects, and the global values of the current function context.  [JITBuilder::new], [JITModule::new] and
    [make_context] are taken to succeed with empty tables. *)
From Verif Require Import Prelude StdModel BrassTypes DecoderModel HashModel.

(** [format!("{}", n)] for an unsigned integer: decimal ASCII digits *)
Fixpoint dec_rev (fuel : nat) (n : Z) : list Z :=
  match fuel with
  | O => []
  | S f => (48 + n mod 10) :: (if n <? 10 then [] else dec_rev f (n / 10))
  end.
Definition decimal (n : Z) : str := rev (dec_rev (S (Z.to_nat n)) n).
(** ["$global"] *)
Definition global_prefix : str := [36; 103; 108; 111; 98; 97; 108].

(** One data object: name, linkage export, writable, not thread-local. *)
Record data_decl := mkData { dd_name : str; dd_export : bool; dd_writable : bool }.
(** [GlobalValueData::Symbol] (what [declare_data_in_func] creates) and [GlobalValueData::Load] with the base value's
    number, offset, width in bytes and readonly flag. *)
Inductive global_value := GSymbol (data : Z) | GLoad (base offset width : Z) (readonly : bool).
(** compiler.rs:15-28 [HLModule] (module_ctx: its global values; codesize 0) *)
Record hl_module := {
  hm_code : code; hm_data : list data_decl; hm_values : list global_value;
  hm_functions_ptrs : list Z; hm_functions_indexes : list Z; hm_code_hash : option code_hash }.

(** compiler.rs:31-60 [new] *)
Definition module_new (c : code) : hl_module := {|
  hm_code := c; hm_data := []; hm_values := [];
  hm_functions_ptrs := zrepeat 0 (c_nfunctions c + c_nnatives c);
  hm_functions_indexes := zrepeat 0 (c_nfunctions c + c_nnatives c); hm_code_hash := None |}.

(** [Module::declare_data]: a known name is the same object (export linkage merges with itself) *)
Fixpoint find_data (ds : list data_decl) (name : str) : option Z :=
  match ds with
  | [] => None
  | d :: r => if str_eqb (dd_name d) name then Some 0 else option_map (Z.add 1) (find_data r name)
  end.
Definition declare_data (ds : list data_decl) (name : str) (writable : bool) : Z * list data_decl :=
  match find_data ds name with
  | Some i => (i, ds)
  | None => (zlen ds, ds ++ [mkData name true writable])
  end.
(** compiler.rs:105-124 [translate_global] *)
Definition translate_global (m : hl_module) (width : Z) (name : str) (writable : bool) (offset : Z) : hl_module :=
  let (id, ds) := declare_data (hm_data m) name writable in
  let base := zlen (hm_values m) in
  {| hm_code := hm_code m; hm_data := ds; hm_values := hm_values m ++ [GSymbol id; GLoad base offset width false];
     hm_functions_ptrs := hm_functions_ptrs m; hm_functions_indexes := hm_functions_indexes m; hm_code_hash := hm_code_hash m |}.
(** compiler.rs:69-103 [init_globals]; the wildcard arm covers [HVOID] only *)
Definition init_globals (m : hl_module) : R hl_module :=
  rfor (c_nglobals (hm_code m)) (fun i m =>
    t <~ need PIndex (znth (c_globals (hm_code m)) i) ;;
    if vt_kind t =? HUI8 then rret (translate_global m 1 (global_prefix ++ decimal i) true (as_i32 i))
    else if vt_kind t =? HVOID then rret m
    else Panic PTodo) m.
(** compiler.rs:61-67 [init] *)
Definition module_init (m : hl_module) (hot_reload : bool) : R hl_module :=
  m <~ (if hot_reload then
          h <~ alloc (hm_code m) ;;
          rret {| hm_code := hm_code m; hm_data := hm_data m; hm_values := hm_values m;
                  hm_functions_ptrs := hm_functions_ptrs m; hm_functions_indexes := hm_functions_indexes m; hm_code_hash := Some h |}
        else rret m) ;;
  init_globals m.
