(** What the reader's errors and crashes mean, in terms of the bytes of the file alone.
    Used by C63-C65.  No decoder definitions. *)
From Verif Require Import Prelude StdModel BrassTypes.

(** The value the reader gives to a complete variable-length index: one byte below 128 is itself; a
    first byte 128..191 is followed by one byte (13-bit magnitude, 32 in the first byte negates); a
    first byte from 192 on makes the four bytes, first one included, a little-endian 32-bit word. *)
Definition index_value (enc : list Z) : option Z :=
  match enc with
  | [b] => if b <? 128 then Some b else None
  | [b; x] =>
      if (128 <=? b) && (b <? 192)
      then Some (if b <? 160 then (b - 128) * 256 + x else - ((b - 160) * 256 + x)) else None
  | [b; x; y; z] =>
      if 192 <=? b
      then let w := b + 256 * x + 65536 * y + 16777216 * z in
           Some (if w <? 2147483648 then w else w - 4294967296)
      else None
  | _ => None
  end.

(** An index of value [v] is encoded just before position [p]. *)
Definition index_ending (file : list Z) (p v : Z) : Prop :=
  exists pre enc rest, file = pre ++ enc ++ rest /\ p = zlen pre + zlen enc /\ index_value enc = Some v.
(** A little-endian 32-bit signed integer of value [v] is just before position [p]. *)
Definition word_ending (file : list Z) (p v : Z) : Prop :=
  exists pre a b c d rest, file = pre ++ [a; b; c; d] ++ rest /\ p = zlen pre + 4 /\
    let w := a + 256 * b + 65536 * c + 16777216 * d in
    v = (if w <? 2147483648 then w else w - 4294967296).

(** The counts after the four bytes of magic and version: flags, ints, floats, strings, (bytes, from
    version 5,) types, ...; negative ones count as 0. *)
Definition header_counts (file : list Z) (version : Z) (ks : list Z) : Prop :=
  exists encs rest, file = [72; 76; 66; version] ++ concat encs ++ rest /\
    map index_value encs = map Some ks.
Definition declares_strings (file : list Z) (n : Z) : Prop :=
  exists version ks k, header_counts file version ks /\ znth ks 3 = Some k /\ n = Z.max 0 k.
Definition declares_types (file : list Z) (n : Z) : Prop :=
  exists version ks k, header_counts file version ks /\
    znth ks (if 5 <=? version then 5 else 4) = Some k /\ n = Z.max 0 k.

(** What each error says about the file, at the position it carries. *)
Definition error_explained (file : list Z) (e : derr) : Prop :=
  let p := e_pos e in 0 <= p <= zlen file /\
  match e_kind e with
  | InvalidBytecodeHeader =>        (* the byte before [p] is the first that differs from "HLB" *)
      1 <= p <= 3 /\ znth file (p - 1) <> znth [72; 76; 66] (p - 1) /\
      forall i, 0 <= i < p - 1 -> znth file i = znth [72; 76; 66] i
  | UnsupportedBytecodeVersion =>
      p = 4 /\ exists v rest, file = [72; 76; 66; v] ++ rest /\ ~ 2 <= v <= 5
  | NoMoreData => zlen file < p + 8          (* a number of at most 8 bytes does not fit *)
  | InvalidType => exists b, znth file (p - 1) = Some b /\ 23 <= b
  | InvalidOpcode => exists b, znth file (p - 1) = Some b /\ 99 <= b
  | NegativeIndex => exists v, index_ending file p v /\ v < 0
  | InvalidStringIndex =>
      exists v n, index_ending file p v /\ declares_strings file n /\
        (v < 0 \/ n <= v \/ declares_types file 0)
  | InvalidTypeIndex => exists v n, index_ending file p v /\ declares_types file n /\ (v < 0 \/ n <= v)
  | InvalidDebugFile =>             (* a file switch *)
      exists a b, znth file (p - 2) = Some a /\ znth file (p - 1) = Some b /\ Z.odd a = true
  | OutsideRange =>                 (* a repeat record with a count of at least 2 *)
      exists b, znth file (p - 1) = Some b /\ b mod 4 = 2 /\ 2 <= b / 4 mod 16
  | _ => False
  end.

(** The same for an error left behind by a crash: besides the above, a byte section that does not fit. *)
Definition error_left (file : list Z) (e : derr) : Prop :=
  error_explained file e \/
  e_kind e = NoMoreData /\ exists n, word_ending file (e_pos e) n /\ zlen file < e_pos e + n.

(** Several errors can be found in one file, and errors of earlier files stay around; one is kept.  A
    later error replaces the one kept before, except that running out of data inside a number table and
    an unknown type kind never replace an error. *)
Definition never_replaces (k : err_kind) : bool :=
  match k with NoMoreData | InvalidType => true | _ => false end.
Fixpoint kept (cell : option derr) (found : list derr) : option derr :=
  match found with
  | [] => cell
  | e :: rest =>
      kept (match cell with Some e0 => if never_replaces (e_kind e) then Some e0 else Some e | None => Some e end) rest
  end.
(** in file order, and not past [p] *)
Fixpoint in_order (found : list derr) (p : Z) : Prop :=
  match found with [] => True | e :: rest => e_pos e <= p /\ Forall (fun e' => e_pos e <= e_pos e') rest /\ in_order rest p end.

(** Where the reader may crash: only at a position [q] where
    - fewer than 4 bytes are left, or
    - a reference or a string length has just been read, or
    - the size of a string or byte section that does not fit has just been read,
    or, in a file of at least 64 MB, on overflow of a line number. *)
Definition crash_explained (file : list Z) (p : panic) (q : Z) : Prop :=
  0 <= q <= zlen file /\
  match p with
  | PUnwrap =>
      zlen file < q + 4 \/
      (exists v, index_ending file q v /\ (0 <= v \/ declares_types file 0)) \/
      (exists n, word_ending file q n /\ zlen file < q + n)
  | PSlice =>
      (exists v, index_ending file q v) \/
      (exists n, word_ending file q n /\ (n < 0 \/ zlen file < q + n))
  | PCapacity => znth file 3 = Some 5 /\ exists n, word_ending file q n /\ n < 0
  | POverflow => 2 ^ 26 <= zlen file
  | _ => False
  end.

(** * Files whose errors are easy to list, for C72 and C73 *)
(** kinds of types that are one byte long *)
Definition plain_kind (k : Z) : bool := existsb (Z.eqb k) [0; 1; 2; 3; 4; 5; 6; 7; 8; 9; 12; 13; 16].
(** A file of version 4 without numbers and strings, with the types [kinds] and the globals [globals]:
    [counts] spells the header's ten counts. *)
Definition small_file (counts : list (list Z)) (kinds : list Z) (globals : list (list Z)) (rest : list Z) : list Z :=
  [72; 76; 66; 4] ++ concat counts ++ [0; 0; 0; 0] ++ kinds ++ concat globals ++ rest.
Definition small_counts (counts : list (list Z)) (nkinds nglobals : Z) : Prop :=
  exists nnatives nfunctions nconstants entry,
    map index_value counts = map Some [0; 0; 0; 0; nkinds; nglobals; nnatives; nfunctions; nconstants; entry] /\
    0 <= nnatives /\ 0 <= nfunctions /\ 0 <= nconstants /\ 0 <= entry.
(** the number of counts in the header of a file of version [v] *)
Definition header_fields (v : Z) : Z := if v <? 4 then 9 else if v =? 4 then 10 else 11.
