(** Specification of the HashLink bytecode format ("HLB", versions 2 to 5), as an encoder from
    abstract modules to bytes.  Written from the format (the reference writer of the Haxe compiler,
    genhl.ml, and the reference reader hl/src/code.c), not from the reader under study; it uses
    neither the decoder model nor its helpers.  Only the record types of the result
    ([vtype], [opcode], ...) are shared. *)
From Verif Require Import Prelude StdModel BrassTypes.

(** * Indices: 1 byte below 128, 2 bytes below 8192 in absolute value, 4 bytes below 2^29. *)
Definition enc_index (v : Z) : list Z :=
  let sign := if v <? 0 then 32 else 0 in
  let a := Z.abs v in
  if (0 <=? v) && (v <? 128) then [v]
  else if a <? 8192 then [128 + sign + a / 256; a mod 256]
  else [192 + sign + a / 2 ^ 24; a / 2 ^ 16 mod 256; a / 256 mod 256; a mod 256].

(** Signed / unsigned indices of at most two bytes. *)
Definition small (v : Z) : Prop := -8192 < v < 8192.
Definition usmall (v : Z) : Prop := 0 <= v < 8192.

(** * Fixed-width little-endian integers *)
Definition enc_le (n : nat) (v : Z) : list Z := le_bytes n (v mod 256 ^ Z.of_nat n).
Definition i32_range (v : Z) : Prop := - 2 ^ 31 <= v < 2 ^ 31.

(** * UTF-8 (RFC 3629): scalar values and their encodings *)
Definition scalar (c : Z) : Prop := 0 <= c < 55296 \/ 57344 <= c < 1114112.
Definition utf8_char (c : Z) : list Z :=
  if c <? 128 then [c]
  else if c <? 2048 then [192 + c / 64; 128 + c mod 64]
  else if c <? 65536 then [224 + c / 4096; 128 + c / 64 mod 64; 128 + c mod 64]
  else [240 + c / 262144; 128 + c / 4096 mod 64; 128 + c / 64 mod 64; 128 + c mod 64].
(** [s] is well-formed UTF-8. *)
Definition utf8 (s : list Z) : Prop := exists cs, Forall scalar cs /\ s = flat_map utf8_char cs.

(** * String tables: total size, NUL-terminated strings, then their lengths *)
Definition enc_strings (ss : list str) : list Z :=
  let text := flat_map (fun s => s ++ [0]) ss in
  enc_le 4 (zlen text) ++ text ++ flat_map (fun s => enc_index (zlen s)) ss.

(** * Type table entries.  Names are indices into the string table, types indices into the table. *)
Inductive atype :=
| APrim (kind : Z)                                        (* void, i32, dyn, array, ... *)
| AFun (method : bool) (args : list Z) (ret : Z)
| AObj (struct : bool) (name : Z) (super : option Z) (global : Z)
       (fields : list (Z * Z))                            (* name, type *)
       (protos : list (Z * Z * Z))                        (* name, function, slot *)
       (bindings : list (Z * Z))                          (* field, function *)
| AVirtual (fields : list (Z * Z))
| AAbstract (name : Z)
| AEnum (name global : Z) (constructs : list (Z * list Z)) (* name, parameter types *)
| AParam (kind t : Z).                                    (* ref, null, packed *)

Definition prim_kinds : list Z :=
  [HVOID; HUI8; HUI16; HI32; HI64; HF32; HF64; HBOOL; HBYTES; HDYN; HARRAY; HTYPE; HDYNOBJ].
Definition param_kinds : list Z := [HREF; HNULL; HPACKED].

Definition enc_atype (t : atype) : list Z :=
  match t with
  | APrim k => [k]
  | AFun m args r =>
      (if m then HMETHOD else HFUN) :: zlen args :: flat_map enc_index args ++ enc_index r
  | AObj st name sup g fs ps bs =>
      (if st then HSTRUCT else HOBJ) :: enc_index name
        ++ enc_index (match sup with Some k => k | None => -1 end)
        ++ enc_index g ++ enc_index (zlen fs) ++ enc_index (zlen ps) ++ enc_index (zlen bs)
        ++ flat_map (fun f => enc_index (fst f) ++ enc_index (snd f)) fs
        ++ flat_map (fun p => enc_index (fst (fst p)) ++ enc_index (snd (fst p)) ++ enc_index (snd p)) ps
        ++ flat_map (fun b => enc_index (fst b) ++ enc_index (snd b)) bs
  | AVirtual fs =>
      HVIRTUAL :: enc_index (zlen fs) ++ flat_map (fun f => enc_index (fst f) ++ enc_index (snd f)) fs
  | AAbstract n => HABSTRACT :: enc_index n
  | AEnum n g cs =>
      HENUM :: enc_index n ++ enc_index g ++ enc_index (zlen cs)
        ++ flat_map (fun c => enc_index (fst c) ++ enc_index (zlen (snd c))
                              ++ flat_map enc_index (snd c)) cs
  | AParam k t => k :: enc_index t
  end.

(** String / type at an index. *)
Definition nm (ss : list str) (n : Z) : str := nth (Z.to_nat n) ss [].
Definition ty (ts : list vtype) (k : Z) : vtype := nth (Z.to_nat k) ts vt_default.

(** The type an entry denotes, given the string table and the types the references denote. *)
Definition view_field (ss : list str) (ts : list vtype) (f : Z * Z) : obj_field vtype :=
  mkField (nm ss (fst f)) (crc32 (nm ss (fst f))) (ty ts (snd f)).
Definition view_type (ss : list str) (ts : list vtype) (t : atype) : vtype :=
  match t with
  | APrim k => VT UNull None None k
  | AFun m args r =>
      VT (FuncType (map (ty ts) args) (zlen args) (ty ts r)) None None (if m then HMETHOD else HFUN)
  | AObj st name sup g fs ps bs =>
      VT (ObjType (nm ss name) (match sup with Some k => ty ts k | None => vt_default end)
            (map (view_field ss ts) fs) (zlen fs) (zlen ps) (zlen bs)
            (map (fun p => mkProto (nm ss (fst (fst p))) (crc32 (nm ss (fst (fst p))))
                             (snd (fst p)) (snd p)) ps)
            (flat_map (fun b => [fst b; snd b]) bs) [g] None)
         None None (if st then HSTRUCT else HOBJ)
  | AVirtual fs => VT (VirtualType (zlen fs) (map (view_field ss ts) fs)) None None HVIRTUAL
  | AAbstract n => VT UNull (Some (nm ss n)) None HABSTRACT
  | AEnum n g cs =>
      VT (EnumType (nm ss n) (zlen cs)
            (map (fun c => mkCon (nm ss (fst c)) (zlen (snd c)) (map (ty ts) (snd c)) 0 false []) cs)
            [g]) None None HENUM
  | AParam k t => VT UNull None (Some (ty ts t)) k
  end.

(** Names and type references of an entry, in file order. *)
Definition names_of (t : atype) : list Z :=
  match t with
  | AObj _ n _ _ fs ps _ => n :: map fst fs ++ map (fun p => fst (fst p)) ps
  | AVirtual fs => map fst fs
  | AAbstract n => [n]
  | AEnum n _ cs => n :: map fst cs
  | _ => []
  end.
Definition refs_of (t : atype) : list Z :=
  match t with
  | AFun _ args r => args ++ [r]
  | AObj _ _ sup _ fs _ _ => (match sup with Some k => [k] | None => [] end) ++ map snd fs
  | AVirtual fs => map snd fs
  | AEnum _ _ cs => flat_map snd cs
  | AParam _ t => [t]
  | _ => []
  end.

(** Well-formed entry in a module with [ns] strings and [nt] types: every number fits the one- and
    two-byte index forms, names and references are in range. *)
Definition wf_atype (ns nt : Z) (t : atype) : Prop :=
  Forall (fun n => 0 <= n < ns) (names_of t) /\ Forall (fun k => 0 <= k < nt) (refs_of t) /\
  match t with
  | APrim k => In k prim_kinds
  | AFun _ args _ => zlen args < 256
  | AObj _ _ _ g fs ps bs =>
      usmall g /\ usmall (zlen fs) /\ usmall (zlen ps) /\ usmall (zlen bs) /\
      Forall (fun p => usmall (snd (fst p)) /\ small (snd p)) ps /\
      Forall (fun b => usmall (fst b) /\ usmall (snd b)) bs
  | AVirtual fs => usmall (zlen fs)
  | AAbstract _ => True
  | AEnum _ g cs => usmall g /\ usmall (zlen cs) /\ Forall (fun c => usmall (zlen (snd c))) cs
  | AParam k _ => In k param_kinds
  end.

(** The types of a table when only earlier entries can be referred to: a reference to the entry
    itself or to a later one denotes the default (null) type. *)
Definition view_types (ss : list str) (ats : list atype) : list vtype :=
  fold_left (fun ts a => ts ++ [view_type ss ts a]) ats [].

(** Every use of a name is either a name used before or has a larger index than all used before. *)
Fixpoint increasing_first_use (seen : list Z) (ns : list Z) : Prop :=
  match ns with
  | [] => True
  | n :: r => (In n seen \/ Forall (fun m => m < n) seen) /\ increasing_first_use (n :: seen) r
  end.

(** * Instructions *)
(** Operand counts of the opcodes 0..98, run-length coded: [None] for the variadic ones. *)
Definition arity_runs : list (Z * option Z) :=
  [ (6, Some 2); (1, Some 1);                    (* mov int float bool bytes string; null *)
    (13, Some 3); (2, Some 2); (2, Some 1);      (* add .. xor; neg not; incr decr *)
    (1, Some 2); (1, Some 3); (1, Some 4); (1, Some 5); (1, Some 6);  (* call0 .. call4 *)
    (4, None);                                   (* callN callmethod callthis callclosure *)
    (1, Some 2); (2, Some 3);                    (* static, instance, virtual closure *)
    (2, Some 2); (2, Some 3); (2, Some 2); (2, Some 3);  (* globals, fields, this, dyn *)
    (4, Some 2); (10, Some 3); (1, Some 1);      (* conditional jumps; always *)
    (7, Some 2); (1, Some 0); (3, Some 1);       (* conversions; label; ret throw rethrow *)
    (1, None); (1, Some 1); (1, Some 2); (1, Some 1);  (* switch; nullcheck; trap; endtrap *)
    (8, Some 3); (1, Some 1); (7, Some 2);       (* memory; new; arraysize .. setref *)
    (1, None); (2, Some 2); (1, Some 4); (1, Some 3);  (* makeenum; enums *)
    (1, Some 0); (1, Some 2); (1, Some 3); (1, Some 0) ].  (* assert refdata refoffset nop *)
Definition arity (op : Z) : option (option Z) :=
  znth (flat_map (fun r => repeat (snd r) (Z.to_nat (fst r))) arity_runs) op.

Inductive aop :=
| IFixed (op : Z) (args : list Z)                  (* as many operands as the arity says *)
| ICall (op p1 p2 : Z) (extra : list Z)            (* callN, callmethod, callthis, callclosure, makeenum *)
| ISwitch (reg : Z) (offsets : list Z) (last : Z).
Definition variadic_calls : list Z := [29; 30; 31; 32; 90].

Definition enc_aop (i : aop) : list Z :=
  match i with
  | IFixed op args => op :: flat_map enc_index args
  | ICall op p1 p2 xs => op :: enc_index p1 ++ enc_index p2 ++ zlen xs :: flat_map enc_index xs
  | ISwitch r offs e => 70 :: enc_index r ++ enc_index (zlen offs) ++ flat_map enc_index offs ++ enc_index e
  end.
Definition wf_aop (i : aop) : Prop :=
  match i with
  | IFixed op args => arity op = Some (Some (zlen args)) /\ Forall small args
  | ICall op p1 p2 xs => In op variadic_calls /\ small p1 /\ small p2 /\ zlen xs < 256 /\ Forall small xs
  | ISwitch r offs e => usmall r /\ usmall (zlen offs) /\ Forall usmall offs /\ usmall e
  end.
(** The operand lists an instruction stands for: first three operands, then the extra ones. *)
Definition view_op (i : aop) : opcode :=
  match i with
  | IFixed op args =>
      {| o_op := op; o_p1 := nth_error args 0; o_p2 := nth_error args 1; o_p3 := nth_error args 2;
         o_extra := skipn 3 args |}
  | ICall op p1 p2 xs =>
      {| o_op := op; o_p1 := Some p1; o_p2 := Some p2; o_p3 := Some (zlen xs); o_extra := xs |}
  | ISwitch r offs e =>
      {| o_op := 70; o_p1 := Some r; o_p2 := Some (zlen offs); o_p3 := Some e; o_extra := offs |}
  end.

(** * Debug information *)
Inductive drec :=
| DFile (f : Z)                  (* switch to file f *)
| DRepeat (delta count : Z)      (* the current line, [count] times; then advance by delta *)
| DDelta (d : Z)                 (* advance by d, one instruction there *)
| DLine (l : Z).                 (* go to line l, one instruction there *)
Definition enc_drec (r : drec) : list Z :=
  match r with
  | DFile f => [Z.lor (f / 128) 1; f mod 256]
  | DRepeat d n => [d * 64 + n * 4 + 2]
  | DDelta d => [d * 8 + 4]
  | DLine l => [l * 8 mod 256; l / 32 mod 256; l / 8192]
  end.
Definition wf_drec (nfiles : Z) (r : drec) : Prop :=
  match r with
  | DFile f => 0 <= f < nfiles /\ f < 32768
  | DRepeat d n => 0 <= d < 4 /\ 0 <= n < 16
  | DDelta d => 0 <= d < 32
  | DLine l => 0 <= l < 2 ^ 21
  end.
(** The (file, line) of each instruction, from current file and line. *)
Fixpoint lines (rs : list drec) (file line : Z) : list (Z * Z) :=
  match rs with
  | [] => []
  | DFile f :: r => lines r f line
  | DRepeat d n :: r => repeat (file, line) (Z.to_nat n) ++ lines r file (line + d)
  | DDelta d :: r => (file, line + d) :: lines r file (line + d)
  | DLine l :: r => (file, l) :: lines r file l
  end.
(** Records that give an instruction its line on their own. *)
Definition stores (r : drec) : bool :=
  match r with DDelta _ | DLine _ => true | _ => false end.
(** Streams without effective repeats, with absolute lines below 256, ending with an instruction. *)
Definition no_repeat (r : drec) : Prop :=
  match r with DRepeat _ n => n = 0 | DLine l => l < 256 | _ => True end.
Definition ends_stored (rs : list drec) : Prop :=
  rs = [] \/ exists r0 r, rs = r0 ++ [r] /\ stores r = true.

(** * Modules *)
Record afun := {
  af_type : Z; af_findex : Z; af_regs : list Z; af_ops : list aop; af_debug : list drec;
  af_assigns : list (Z * Z) }.
Record amod := {
  am_version : Z; am_debug : bool; am_ints : list Z; am_floats : list Z; am_strings : list str;
  am_bytes : list Z; am_bytes_pos : list Z; am_debugfiles : list str; am_types : list atype;
  am_globals : list Z; am_natives : list (Z * Z * Z * Z) (* lib, name, type, findex *);
  am_functions : list afun; am_constants : list (Z * list Z) (* global, fields *);
  am_entrypoint : Z }.

Definition enc_fun (version : Z) (debug : bool) (f : afun) : list Z :=
  enc_index (af_type f) ++ enc_index (af_findex f) ++ enc_index (zlen (af_regs f))
  ++ enc_index (zlen (af_ops f)) ++ flat_map enc_index (af_regs f) ++ flat_map enc_aop (af_ops f)
  ++ (if debug then
        flat_map enc_drec (af_debug f)
        ++ (if 3 <=? version then
              enc_index (zlen (af_assigns f))
              ++ flat_map (fun a => enc_index (fst a) ++ enc_index (snd a)) (af_assigns f)
            else [])
      else []).

Definition enc_header (m : amod) : list Z :=
  let v := am_version m in
  [72; 76; 66; v]
  ++ enc_index (if am_debug m then 1 else 0)
  ++ enc_index (zlen (am_ints m)) ++ enc_index (zlen (am_floats m)) ++ enc_index (zlen (am_strings m))
  ++ (if 5 <=? v then enc_index (zlen (am_bytes_pos m)) else [])
  ++ enc_index (zlen (am_types m)) ++ enc_index (zlen (am_globals m))
  ++ enc_index (zlen (am_natives m)) ++ enc_index (zlen (am_functions m))
  ++ (if 4 <=? v then enc_index (zlen (am_constants m)) else [])
  ++ enc_index (am_entrypoint m).

Definition enc_module (m : amod) : list Z :=
  let v := am_version m in
  enc_header m
  ++ flat_map (enc_le 4) (am_ints m)
  ++ flat_map (enc_le 8) (am_floats m)
  ++ enc_strings (am_strings m)
  ++ (if 5 <=? v then enc_le 4 (zlen (am_bytes m)) ++ am_bytes m ++ flat_map enc_index (am_bytes_pos m)
      else [])
  ++ (if am_debug m then enc_index (zlen (am_debugfiles m)) ++ enc_strings (am_debugfiles m) else [])
  ++ flat_map enc_atype (am_types m)
  ++ flat_map enc_index (am_globals m)
  ++ flat_map (fun n => let '(lib, name, t, fi) := n in
                 enc_index lib ++ enc_index name ++ enc_index t ++ enc_index fi) (am_natives m)
  ++ flat_map (enc_fun v (am_debug m)) (am_functions m)
  ++ flat_map (fun k => enc_index (fst k) ++ enc_index (zlen (snd k)) ++ flat_map enc_index (snd k))
       (am_constants m).

(** * What reading a module must return *)
(** The instruction as this reader returns it: where operands are counted (and for call3/call4), the
    extra operands are followed by as many zeros. *)
Definition padded (i : aop) : bool :=
  match i with IFixed _ args => 4 <? zlen args | _ => true end.
Definition read_op (i : aop) : opcode :=
  let o := view_op i in
  if padded i then
    {| o_op := o_op o; o_p1 := o_p1 o; o_p2 := o_p2 o; o_p3 := o_p3 o;
       o_extra := o_extra o ++ zrepeat 0 (zlen (o_extra o)) |}
  else o.

Definition pairs (l : list (Z * Z)) : list Z := flat_map (fun p => [fst p; snd p]) l.
Definition view_fun (debug : bool) (ts : list vtype) (f : afun) : hl_function :=
  mkFun (ty ts (af_type f)) (af_findex f) (zlen (af_regs f)) (zlen (af_ops f)) 0
    (map (ty ts) (af_regs f)) (map read_op (af_ops f))
    (if debug then pairs (lines (af_debug f) (-1) 0) else []) None None.

(** The tables of module [m] as returned.  [types] and [globals] are followed by as many default
    entries; [debugfiles_lens] stays empty; [u] is the state of the name cache. *)
Definition view_module (m : amod) (u : list (option str)) : code :=
  let v := am_version m in
  let ss := am_strings m in
  let ts := view_types ss (am_types m) in
  {| c_types := ts ++ zrepeat vt_default (zlen (am_types m)); c_ntypes := zlen (am_types m);
     c_strings := ss; c_strings_lens := map zlen ss; c_ustrings := u; c_nstrings := zlen ss;
     c_nints := zlen (am_ints m); c_ints := am_ints m;
     c_nfloats := zlen (am_floats m); c_floats := am_floats m;
     c_nbytes := (if 5 <=? v then zlen (am_bytes_pos m) else 0);
     c_nfunctions := zlen (am_functions m);
     c_functions := map (view_fun (am_debug m) ts) (am_functions m);
     c_nconstants := zlen (am_constants m);
     c_constants := map (fun k => {| k_global := fst k; k_nfields := zlen (snd k); k_fields := snd k |})
                      (am_constants m);
     c_entrypoint := am_entrypoint m; c_nglobals := zlen (am_globals m);
     c_globals := map (ty ts) (am_globals m) ++ zrepeat vt_default (zlen (am_globals m));
     c_nnatives := zlen (am_natives m);
     c_natives := map (fun n => let '(lib, name, t, fi) := n in
                     {| n_lib := nm ss lib; n_name := nm ss name; n_t := ty ts t; n_findex := fi |})
                    (am_natives m);
     c_hasdebug := (if am_debug m then 1 else 0); c_version := v;
     c_bytes := (if 5 <=? v then am_bytes m else []);
     c_bytes_pos := (if 5 <=? v then am_bytes_pos m else []);
     c_ndebugfiles := (if am_debug m then zlen (am_debugfiles m) else 0);
     c_debugfiles := (if am_debug m then am_debugfiles m else []);
     c_debugfiles_lens := [] |}.

Definition wf_strings (ss : list str) : Prop :=
  usmall (zlen ss) /\ Forall (fun s : str => utf8 s /\ zlen s < 8192) ss.

Definition wf_fun (debug : bool) (nt nfiles : Z) (f : afun) : Prop :=
  0 <= af_type f < nt /\ usmall (af_findex f) /\ usmall (zlen (af_regs f)) /\
  usmall (zlen (af_ops f)) /\ Forall (fun k => 0 <= k < nt) (af_regs f) /\
  Forall wf_aop (af_ops f) /\
  (debug = true ->
     Forall (wf_drec nfiles) (af_debug f) /\ Forall no_repeat (af_debug f) /\
     zlen (af_debug f) < 2 ^ 24 /\ ends_stored (af_debug f) /\ length (lines (af_debug f) (-1) 0) = length (af_ops f) /\
     usmall (zlen (af_assigns f)) /\
     Forall (fun a => usmall (fst a) /\ small (snd a)) (af_assigns f)).

Definition encodable (m : amod) : Prop :=
  let ns := zlen (am_strings m) in
  let nt := zlen (am_types m) in
  2 <= am_version m <= 5 /\
  usmall (zlen (am_ints m)) /\ Forall i32_range (am_ints m) /\
  usmall (zlen (am_floats m)) /\ Forall (fun x => 0 <= x < 2 ^ 64) (am_floats m) /\
  wf_strings (am_strings m) /\
  usmall (zlen (am_bytes_pos m)) /\ zlen (am_bytes m) < 2 ^ 31 /\ Forall is_byte (am_bytes m) /\
  Forall usmall (am_bytes_pos m) /\
  wf_strings (am_debugfiles m) /\
  usmall nt /\ Forall (wf_atype ns nt) (am_types m) /\
  increasing_first_use [] (flat_map names_of (am_types m)) /\
  usmall (zlen (am_globals m)) /\ Forall (fun k => 0 <= k < nt) (am_globals m) /\
  usmall (zlen (am_natives m)) /\
  Forall (fun n => let '(lib, name, t, fi) := n in
            0 <= lib < ns /\ 0 <= name < ns /\ 0 <= t < nt /\ usmall fi) (am_natives m) /\
  usmall (zlen (am_functions m)) /\
  Forall (wf_fun (am_debug m) nt (zlen (am_debugfiles m))) (am_functions m) /\
  usmall (zlen (am_constants m)) /\
  Forall (fun k => usmall (fst k) /\ usmall (zlen (snd k)) /\ Forall usmall (snd k)) (am_constants m) /\
  (am_version m < 4 -> am_constants m = []) /\
  usmall (am_entrypoint m).
(** A module with debug information, types or constants. *)
Definition wf_module (m : amod) : Prop :=
  encodable m /\ (am_debug m = true \/ am_types m <> [] \/ am_constants m <> []).
