(** The language of the reader: which byte sequences are module files to it, and what module each one
    denotes.  Used by C66-C70.

    [spell_* bs x] says that the bytes [bs] are a spelling of the syntax tree [x]; numbers may be spelled
    in any of the forms of [index_value].  [mean_*] gives the module a tree denotes.  Where the reader
    departs from the HashLink format (four-byte indices, absolute lines, repeats, doubled operand lists,
    forward references, name lookups), these definitions describe the reader.  No decoder definitions;
    the trees of types and instructions are those of FormatSpec.v. *)
From Verif Require Import Prelude StdModel BrassTypes FormatSpec ErrSpec.

(** * Numbers and sequences *)
Definition ix (bs : list Z) (v : Z) : Prop := index_value bs = Some v.
Definition uix (bs : list Z) (v : Z) : Prop := index_value bs = Some v /\ 0 <= v.
Inductive many {A} (P : list Z -> A -> Prop) : list Z -> list A -> Prop :=
| many_nil : many P [] []
| many_cons b bs x xs : P b x -> many P bs xs -> many P (b ++ bs) (x :: xs).
Definition both {A B} (P : list Z -> A -> Prop) (Q : list Z -> B -> Prop) (bs : list Z) (p : A * B) : Prop :=
  exists b1 b2, bs = b1 ++ b2 /\ P b1 (fst p) /\ Q b2 (snd p).
(** a byte *)
Definition byte (bs : list Z) (v : Z) : Prop := bs = [v] /\ 0 <= v < 256.

(** * Type entries *)
Definition super_ix (bs : list Z) (sup : option Z) : Prop :=
  exists k, ix bs k /\ sup = if k <? 0 then None else Some k.
Definition spell_type (bs : list Z) (t : atype) : Prop :=
  match t with
  | APrim k => bs = [k] /\ In k prim_kinds
  | AFun m args r =>
      exists a b, bs = (if m then HMETHOD else HFUN) :: zlen args :: a ++ b /\ zlen args < 256 /\
        many ix a args /\ ix b r
  | AObj st name sup g fs ps ds =>
      exists b1 b2 b3 b4 b5 b6 b7 b8 b9,
        bs = (if st then HSTRUCT else HOBJ) :: b1 ++ b2 ++ b3 ++ b4 ++ b5 ++ b6 ++ b7 ++ b8 ++ b9 /\
        ix b1 name /\ super_ix b2 sup /\ uix b3 g /\ uix b4 (zlen fs) /\ uix b5 (zlen ps) /\ uix b6 (zlen ds) /\
        many (both ix ix) b7 fs /\ many (both (both ix uix) ix) b8 ps /\ many (both uix uix) b9 ds
  | AVirtual fs => exists b1 b2, bs = HVIRTUAL :: b1 ++ b2 /\ uix b1 (zlen fs) /\ many (both ix ix) b2 fs
  | AAbstract n => exists b, bs = HABSTRACT :: b /\ ix b n
  | AEnum n g cs =>
      exists b1 b2 b3 b4, bs = HENUM :: b1 ++ b2 ++ b3 ++ b4 /\ ix b1 n /\ uix b2 g /\ uix b3 (zlen cs) /\
        many (both ix (fun b ts => exists c1 c2, b = c1 ++ c2 /\ uix c1 (zlen ts) /\ many ix c2 ts)) b4 cs
  | AParam k t => exists b, bs = k :: b /\ In k param_kinds /\ ix b t
  end.

(** Names.  A lookup of name [n] that has not been cached inserts [n] in the cache at place [n], moving
    the later places up; [slot] is the content of place [p] after the insertions [ins] (latest first).
    Only existing strings are remembered. *)
Fixpoint slot (have : Z) (ins : list Z) (p : Z) : option Z :=
  match ins with
  | [] => None
  | m :: r =>
      if p <? m then slot have r p
      else if p =? m then (if m <? have then Some m else None)
      else slot have r (p - 1)
  end.
(** The string tables indices that a sequence of lookups yields, and the insertions afterwards. *)
Fixpoint resolve (have : Z) (ins : list Z) (ns : list Z) : list Z * list Z :=
  match ns with
  | [] => ([], ins)
  | n :: r =>
      match slot have ins n with
      | Some m => let '(ms, ins') := resolve have ins r in (m :: ms, ins')
      | None => let '(ms, ins') := resolve have (n :: ins) r in (n :: ms, ins')
      end
  end.

(** The type denoted by an entry, given its names in file order and the types declared before it. *)
Definition mean_field (ts : list vtype) (p : str * Z) : obj_field vtype :=
  mkField (fst p) (crc32 (fst p)) (ty ts (snd p)).
Definition mean_type (xs : list str) (ts : list vtype) (t : atype) : vtype :=
  match t with
  | APrim k => VT UNull None None k
  | AFun m args r =>
      VT (FuncType (map (ty ts) args) (zlen args) (ty ts r)) None None (if m then HMETHOD else HFUN)
  | AObj st _ sup g fs ps ds =>
      VT (ObjType (nth 0 xs []) (match sup with Some k => ty ts k | None => vt_default end)
            (map (mean_field ts) (combine (skipn 1 xs) (map snd fs))) (zlen fs) (zlen ps) (zlen ds)
            (map (fun p => mkProto (fst p) (crc32 (fst p)) (snd (fst (snd p))) (snd (snd p)))
               (combine (skipn (1 + length fs) xs) ps))
            (flat_map (fun b => [fst b; snd b]) ds) [g] None)
         None None (if st then HSTRUCT else HOBJ)
  | AVirtual fs => VT (VirtualType (zlen fs) (map (mean_field ts) (combine xs (map snd fs)))) None None HVIRTUAL
  | AAbstract _ => VT UNull (Some (nth 0 xs [])) None HABSTRACT
  | AEnum _ g cs =>
      VT (EnumType (nth 0 xs []) (zlen cs)
            (map (fun p => mkCon (fst p) (zlen (snd p)) (map (ty ts) (snd p)) 0 false [])
               (combine (skipn 1 xs) (map snd cs))) [g]) None None HENUM
  | AParam k t => VT UNull None (Some (ty ts t)) k
  end.
(** The types of a table and the name insertions. *)
Fixpoint mean_types (ss : list str) (ins : list Z) (ts : list vtype) (ats : list atype) : list vtype * list Z :=
  match ats with
  | [] => (ts, ins)
  | a :: r =>
      let '(ms, ins') := resolve (zlen ss) ins (names_of a) in
      mean_types ss ins' (ts ++ [mean_type (map (nm ss) ms) ts a]) r
  end.
(** References other than super types are below the declared number of types [nt]; a super type of
    entry [i] is below [nt + i]; names are below the declared number of strings [ns]. *)
Definition plain_refs (t : atype) : list Z :=
  match t with AObj _ _ _ _ fs _ _ => map snd fs | _ => refs_of t end.
Definition legal_type (ns nt i : Z) (t : atype) : Prop :=
  Forall (fun n => 0 <= n < ns) (names_of t) /\ Forall (fun k => 0 <= k < nt) (plain_refs t) /\
  match t with AObj _ _ (Some k) _ _ _ _ => k < nt + i | _ => True end.
Fixpoint legal_types (ns nt i : Z) (ats : list atype) : Prop :=
  match ats with [] => True | a :: r => legal_type ns nt i a /\ legal_types ns nt (i + 1) r end.

(** * Instructions *)
Definition spell_op (bs : list Z) (i : aop) : Prop :=
  match i with
  | IFixed op args => exists b, bs = op :: b /\ arity op = Some (Some (zlen args)) /\ many ix b args
  | ICall op p1 p2 xs =>
      exists b1 b2 b3, bs = op :: b1 ++ b2 ++ zlen xs :: b3 /\ In op variadic_calls /\ ix b1 p1 /\ ix b2 p2 /\
        zlen xs < 256 /\ many ix b3 xs
  | ISwitch r offs e =>
      exists b1 b2 b3 b4, bs = 70 :: b1 ++ b2 ++ b3 ++ b4 /\ uix b1 r /\ uix b2 (zlen offs) /\ many uix b3 offs /\ uix b4 e
  end.

(** * Debug information, as this reader takes it *)
Inductive rrec :=
| RFile (f : Z)                (* switch to file f *)
| RRepeat (delta count : Z)    (* advance by delta; the count has no effect *)
| RDelta (d : Z)               (* advance by d, one instruction there *)
| RAbs (a b c : Z).            (* go to a line made of the low 8 bits of three numbers *)
Definition spell_rrec (bs : list Z) (r : rrec) : Prop :=
  match r with
  | RFile f => bs = [2 * (f / 256) + 1; f mod 256] /\ 0 <= f < 32768
  | RRepeat d n => bs = [64 * d + 4 * n + 2] /\ 0 <= d < 4 /\ 0 <= n < 16
  | RDelta d => bs = [8 * d + 4] /\ 0 <= d < 32
  | RAbs a b c => bs = [8 * a; b; c] /\ 0 <= a < 32 /\ 0 <= b < 256 /\ 0 <= c < 256
  end.
Definition abs_line (a b c : Z) : Z := Z.lor (Z.lor a (32 * b mod 256)) c.
(** The (file, line) pairs of instructions [i], [i+1], ... [nops-1]: the records end exactly with the
    last instruction; [None] when the records are not acceptable. *)
Fixpoint run_debug (nfiles nops i file line : Z) (rs : list rrec) : option (list (Z * Z)) :=
  match rs with
  | [] => if i <? nops then None else Some []
  | r :: rest =>
      if negb (i <? nops) then None else
      match r with
      | RFile f => if f <? nfiles then run_debug nfiles nops i f line rest else None
      | RRepeat d n =>
          if (i + n <=? nops) && (line + d <? 2 ^ 31) then run_debug nfiles nops i file (line + d) rest else None
      | RDelta d =>
          if line + d <? 2 ^ 31 then option_map (cons (file, line + d)) (run_debug nfiles nops (i + 1) file (line + d) rest)
          else None
      | RAbs a b c => option_map (cons (file, abs_line a b c)) (run_debug nfiles nops (i + 1) file (abs_line a b c) rest)
      end
  end.

(** * Functions *)
Record rfun := { rf_type : Z; rf_findex : Z; rf_regs : list Z; rf_ops : list aop; rf_debug : list rrec; rf_assigns : list (Z * Z) }.
Definition spell_fun (version : Z) (debug : bool) (bs : list Z) (f : rfun) : Prop :=
  exists b1 b2 b3 b4 b5 b6 b7, bs = b1 ++ b2 ++ b3 ++ b4 ++ b5 ++ b6 ++ b7 /\
    ix b1 (rf_type f) /\ uix b2 (rf_findex f) /\ uix b3 (zlen (rf_regs f)) /\ uix b4 (zlen (rf_ops f)) /\
    many ix b5 (rf_regs f) /\ many spell_op b6 (rf_ops f) /\
    if debug then
      exists c1 c2, b7 = c1 ++ c2 /\ many spell_rrec c1 (rf_debug f) /\
        if 3 <=? version then exists d1 d2, c2 = d1 ++ d2 /\ uix d1 (zlen (rf_assigns f)) /\ many (both uix ix) d2 (rf_assigns f)
        else c2 = [] /\ rf_assigns f = []
    else b7 = [] /\ rf_debug f = [] /\ rf_assigns f = [].
Definition legal_fun (nt nfiles : Z) (debug : bool) (f : rfun) : Prop :=
  0 <= rf_type f < nt /\ Forall (fun k => 0 <= k < nt) (rf_regs f) /\
  (debug = true -> run_debug nfiles (zlen (rf_ops f)) 0 (-1) 0 (rf_debug f) <> None).
Definition mean_fun (nfiles : Z) (debug : bool) (ts : list vtype) (f : rfun) : hl_function :=
  mkFun (ty ts (rf_type f)) (rf_findex f) (zlen (rf_regs f)) (zlen (rf_ops f)) 0
    (map (ty ts) (rf_regs f)) (map read_op (rf_ops f))
    (if debug then match run_debug nfiles (zlen (rf_ops f)) 0 (-1) 0 (rf_debug f) with Some l => pairs l | None => [] end else [])
    None None.

(** * String tables: the declared number of strings, the text, the sizes *)
Record rstrings := { rs_count : Z; rs_text : list Z; rs_sizes : list Z }.
Definition spell_strings (bs : list Z) (t : rstrings) : Prop :=
  exists b, bs = enc_le 4 (zlen (rs_text t)) ++ rs_text t ++ b /\ zlen (rs_text t) < 2 ^ 31 /\ many uix b (rs_sizes t).
(** [s] is the piece of [text] of [k] bytes from byte [cur], cut between characters. *)
Definition piece_at (text : str) (cur k : Z) (s : str) : Prop :=
  exists pre post, text = pre ++ s ++ post /\ zlen pre = cur /\ zlen s = k /\ utf8 pre /\ utf8 s /\ utf8 post.
(** Successive pieces, one byte apart, until [n] strings are read or the text is used up. *)
Fixpoint cuts (text : str) (n : nat) (cur : Z) (sizes : list Z) (ss : list str) : Prop :=
  match n, sizes, ss with
  | O, [], [] => True
  | S n', k :: sizes', s :: ss' =>
      piece_at text cur k s /\
      (if zlen text <=? cur + k then sizes' = [] /\ ss' = [] else cuts text n' (cur + k + 1) sizes' ss')
  | _, _, _ => False
  end.
Definition strings_of (t : rstrings) (ss : list str) : Prop :=
  0 <= rs_count t /\ cuts (from_utf8_lossy (rs_text t)) (Z.to_nat (rs_count t)) 0 (rs_sizes t) ss.

(** * Modules *)
Record rmod := {
  rm_version : Z; rm_flags : Z; rm_ints : list Z; rm_floats : list Z; rm_strings : rstrings;
  rm_bytes : list Z; rm_bytes_pos : list Z; rm_debugfiles : rstrings; rm_types : list atype;
  rm_globals : list Z; rm_natives : list (Z * Z * Z * Z) (* lib, name, type, findex *);
  rm_functions : list rfun; rm_constants : list (Z * list Z) (* global, fields *); rm_entrypoint : Z }.
Definition rm_debug (m : rmod) : bool := Z.odd (rm_flags m).
Definition no_strings : rstrings := {| rs_count := 0; rs_text := []; rs_sizes := [] |}.

Definition spell_header (bs : list Z) (m : rmod) : Prop :=
  let v := rm_version m in
  exists b0 b1 b2 b3 b4 b5 b6 b7 b8 b9 b10,
    bs = [72; 76; 66; v] ++ b0 ++ b1 ++ b2 ++ b3 ++ b4 ++ b5 ++ b6 ++ b7 ++ b8 ++ b9 ++ b10 /\
    uix b0 (rm_flags m) /\ uix b1 (zlen (rm_ints m)) /\ uix b2 (zlen (rm_floats m)) /\ uix b3 (rs_count (rm_strings m)) /\
    (if 5 <=? v then uix b4 (zlen (rm_bytes_pos m)) else b4 = [] /\ rm_bytes m = [] /\ rm_bytes_pos m = []) /\
    uix b5 (zlen (rm_types m)) /\ uix b6 (zlen (rm_globals m)) /\ uix b7 (zlen (rm_natives m)) /\
    uix b8 (zlen (rm_functions m)) /\
    (if 4 <=? v then uix b9 (zlen (rm_constants m)) else b9 = [] /\ rm_constants m = []) /\
    uix b10 (rm_entrypoint m).
Definition spell_bytes (bs : list Z) (m : rmod) : Prop :=
  if 5 <=? rm_version m then
    exists b, bs = enc_le 4 (zlen (rm_bytes m)) ++ rm_bytes m ++ b /\ zlen (rm_bytes m) < 2 ^ 31 /\ many uix b (rm_bytes_pos m)
  else bs = [].
Definition spell_debugfiles (bs : list Z) (m : rmod) : Prop :=
  if rm_debug m then
    exists b1 b2, bs = b1 ++ b2 /\ uix b1 (rs_count (rm_debugfiles m)) /\ spell_strings b2 (rm_debugfiles m)
  else bs = [] /\ rm_debugfiles m = no_strings.
Definition spell_native : list Z -> Z * Z * Z * Z -> Prop := both (both (both ix ix) ix) uix.
Definition spell_constant : list Z -> Z * list Z -> Prop :=
  both uix (fun b l => exists c1 c2, b = c1 ++ c2 /\ uix c1 (zlen l) /\ many uix c2 l).
Definition spell_module (bs : list Z) (m : rmod) : Prop :=
  exists h s1 s2 s3 s4 s5, bs = h ++ flat_map (enc_le 4) (rm_ints m) ++ flat_map (enc_le 8) (rm_floats m)
      ++ s1 ++ s2 ++ s3 ++ s4 ++ s5 /\
    spell_header h m /\ Forall i32_range (rm_ints m) /\ Forall (fun x => 0 <= x < 2 ^ 64) (rm_floats m) /\
    spell_strings s1 (rm_strings m) /\ spell_bytes s2 m /\ spell_debugfiles s3 m /\ many spell_type s4 (rm_types m) /\
    exists t1 t2 t3 t4, s5 = t1 ++ t2 ++ t3 ++ t4 /\
      many ix t1 (rm_globals m) /\ many spell_native t2 (rm_natives m) /\
      many (spell_fun (rm_version m) (rm_debug m)) t3 (rm_functions m) /\ many spell_constant t4 (rm_constants m).

(** References in range. [ss], [fs] are the strings and debug files of the module. *)
Definition legal_module (m : rmod) (ss fs : list str) : Prop :=
  let ns := rs_count (rm_strings m) in
  let nt := zlen (rm_types m) in
  2 <= rm_version m <= 5 /\ strings_of (rm_strings m) ss /\ strings_of (rm_debugfiles m) fs /\
  legal_types ns nt 0 (rm_types m) /\
  Forall (fun k => 0 <= k < nt) (rm_globals m) /\
  Forall (fun n => let '(lib, name, t, fi) := n in
            0 <= lib < zlen ss /\ 0 <= name < zlen ss /\ 0 <= t < nt) (rm_natives m) /\
  Forall (legal_fun nt (rs_count (rm_debugfiles m)) (rm_debug m)) (rm_functions m).

(** The module denoted.  Files with neither debug information, types nor constants denote the empty
    module. *)
Definition cache_list (ss : list str) (n : Z) (ins : list Z) : list (option str) :=
  map (fun p => option_map (nm ss) (slot (zlen ss) ins (Z.of_nat p))) (seq 0 (Z.to_nat n + length ins)).
Definition mean_module (m : rmod) (ss fs : list str) : code :=
  let nt := zlen (rm_types m) in
  let '(ts, ins) := mean_types ss [] [] (rm_types m) in
  if negb (rm_debug m) && (nt =? 0) && (zlen (rm_constants m) =? 0) then code_new else
  {| c_types := ts ++ zrepeat vt_default nt; c_ntypes := nt;
     c_strings := ss; c_strings_lens := map zlen ss;
     c_ustrings := cache_list ss (rs_count (rm_strings m)) ins; c_nstrings := rs_count (rm_strings m);
     c_nints := zlen (rm_ints m); c_ints := rm_ints m;
     c_nfloats := zlen (rm_floats m); c_floats := rm_floats m;
     c_nbytes := zlen (rm_bytes_pos m); c_nfunctions := zlen (rm_functions m);
     c_functions := map (mean_fun (rs_count (rm_debugfiles m)) (rm_debug m) ts) (rm_functions m);
     c_nconstants := zlen (rm_constants m);
     c_constants := map (fun k => {| k_global := fst k; k_nfields := zlen (snd k); k_fields := snd k |}) (rm_constants m);
     c_entrypoint := rm_entrypoint m; c_nglobals := zlen (rm_globals m);
     c_globals := map (ty ts) (rm_globals m) ++ zrepeat vt_default (zlen (rm_globals m));
     c_nnatives := zlen (rm_natives m);
     c_natives := map (fun n => let '(lib, name, t, fi) := n in
                     {| n_lib := nm ss lib; n_name := nm ss name; n_t := ty ts t; n_findex := fi |}) (rm_natives m);
     c_hasdebug := (if rm_debug m then 1 else 0); c_version := rm_version m;
     c_bytes := rm_bytes m; c_bytes_pos := rm_bytes_pos m;
     c_ndebugfiles := rs_count (rm_debugfiles m); c_debugfiles := fs; c_debugfiles_lens := [] |}.
