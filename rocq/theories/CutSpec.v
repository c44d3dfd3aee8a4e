(** Vocabulary of C82: the pieces of a module file, and what the reader does with a file cut inside a piece of each kind. *)
From Verif Require Import Prelude StdModel BrassTypes FormatSpec GrammarSpec.

(** Where a cut falls. *)
Inductive place :=
| Number (width : Z)   (* the table of integers (4) or of floats (8) *)
| Text                 (* the characters of a string table *)
| BytesSize            (* the size of the block of bytes *)
| Block                (* the block of bytes; the version *)
| Elsewhere.
Definition piece : Type := place * list Z.
Definition whole_of (l : list piece) : list Z := concat (map snd l).

(** How a call ends, and what it leaves in the error cell. *)
Inductive stop := StopErr (e : derr) (cell : option derr) | StopPanic (why : panic) (cell : option derr).
(** The file stops [k] bytes into a piece that starts at byte [p]. *)
Definition outcome (pl : place) (p k : Z) : stop :=
  match pl with
  | Number w => let e := {| e_kind := NoMoreData; e_pos := p + w * (k / w) |} in StopErr e (Some e)   (* refused at the first missing number *)
  | BytesSize => StopErr {| e_kind := NoMoreData; e_pos := p |} None                                   (* refused, but not recorded *)
  | Text => StopPanic PSlice None
  | Block => StopPanic PUnwrap (Some {| e_kind := NoMoreData; e_pos := p |})                           (* recorded, then a crash *)
  | Elsewhere => StopPanic PUnwrap None
  end.

(** The pieces of a string table, of the block of bytes, of the debug files. *)
Definition strings_pieces (t : rstrings) (l : list piece) : Prop :=
  exists sizes, l = [(Elsewhere, enc_le 4 (zlen (rs_text t))); (Text, rs_text t); (Elsewhere, sizes)] /\ zlen (rs_text t) < 2 ^ 31 /\ many uix sizes (rs_sizes t).
Definition bytes_pieces (m : rmod) (l : list piece) : Prop :=
  if 5 <=? rm_version m then
    exists pos, l = [(BytesSize, enc_le 4 (zlen (rm_bytes m))); (Block, rm_bytes m); (Elsewhere, pos)] /\ zlen (rm_bytes m) < 2 ^ 31 /\ many uix pos (rm_bytes_pos m)
  else l = [].
Definition debug_pieces (m : rmod) (l : list piece) : Prop :=
  if rm_debug m then exists n l1, l = (Elsewhere, n) :: l1 /\ uix n (rs_count (rm_debugfiles m)) /\ strings_pieces (rm_debugfiles m) l1
  else l = [] /\ rm_debugfiles m = no_strings.
(** The pieces of a file that spells [m] (compare [spell_module] in GrammarSpec.v: same bytes, with their places). *)
Definition sections (m : rmod) (l : list piece) : Prop :=
  exists counts strings blob debug types globals natives functions constants,
    l = [(Elsewhere, [72; 76; 66]); (Block, [rm_version m]); (Elsewhere, counts);
         (Number 4, flat_map (enc_le 4) (rm_ints m)); (Number 8, flat_map (enc_le 8) (rm_floats m))]
        ++ strings ++ blob ++ debug
        ++ [(Elsewhere, types); (Elsewhere, globals); (Elsewhere, natives); (Elsewhere, functions); (Elsewhere, constants)] /\
    spell_header ([72; 76; 66; rm_version m] ++ counts) m /\
    Forall i32_range (rm_ints m) /\ Forall (fun x => 0 <= x < 2 ^ 64) (rm_floats m) /\
    strings_pieces (rm_strings m) strings /\ bytes_pieces m blob /\ debug_pieces m debug /\
    many spell_type types (rm_types m) /\ many ix globals (rm_globals m) /\ many spell_native natives (rm_natives m) /\
    many (spell_fun (rm_version m) (rm_debug m)) functions (rm_functions m) /\ many spell_constant constants (rm_constants m).
(** A call of the reader that ends so. *)
Definition ended {A : Type} (r : res derr A * option derr) (o : stop) : Prop :=
  match o with StopErr e cell => r = (Err e, cell) | StopPanic q cell => r = (Panic q, cell) end.
