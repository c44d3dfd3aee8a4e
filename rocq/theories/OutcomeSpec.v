(** Every way in which a file can be refused.  Used by C84.

    A file is read as a sequence of items: pieces of the file, each marked with the fault found in it, if
    any.  A [shape] says which sequences of items a part of the file may consist of; numbers are spelled in
    any of the forms of [index_value].  A part that has no shape cannot be read, and the reader crashes
    there.  No decoder definitions. *)
From Verif Require Import Prelude StdModel BrassTypes FormatSpec ErrSpec GrammarSpec.

Definition item : Type := option err_kind * list Z.
Definition flat (l : list item) : list Z := flat_map snd l.
Definition faulty (l : list item) : bool := existsb (fun i => match fst i with Some _ => true | None => false end) l.
(** The errors found in items that start at byte [p]: each is reported at the byte after its item. *)
Fixpoint found (p : Z) (l : list item) : list derr :=
  match l with
  | [] => []
  | (k, b) :: r => match k with Some k => [{| e_kind := k; e_pos := p + zlen b |}] | None => [] end ++ found (p + zlen b) r
  end.

Definition shape := list item -> Prop.
Definition nothing : shape := fun l => l = [].
Definition cat (P Q : shape) : shape := fun l => exists a b, l = a ++ b /\ P a /\ Q b.
(** [P] with a value on which the continuation depends *)
Definition along (P : Z -> shape) (Q : Z -> shape) : shape := fun l => exists v a b, l = a ++ b /\ P v a /\ Q v b.
Fixpoint times (n : nat) (P : shape) : shape := match n with O => nothing | S n' => cat P (times n' P) end.
Definition rep (n : Z) (P : shape) : shape := times (Z.to_nat n) P.

(** * Items *)
Definition a_byte (v : Z) : shape := fun l => l = [(None, [v])] /\ 0 <= v < 256.
Definition an_index (v : Z) : shape := fun l => exists b, l = [(None, b)] /\ index_value b = Some v.
(** a count: a negative one is a fault, and counts as 0 *)
Definition a_count (v : Z) : shape := fun l =>
  exists b k, l = [(if k <? 0 then Some NegativeIndex else None, b)] /\ index_value b = Some k /\ v = Z.max 0 k.
(** a reference to one of [n] things *)
Definition reference (k : err_kind) (n : Z) : shape := fun l =>
  exists b v, l = [(if (0 <=? v) && (v <? n) then None else Some k, b)] /\ index_value b = Some v.
(** a code below [n] *)
Definition a_code (k : err_kind) (n v : Z) : shape := fun l => l = [(if v <? n then None else Some k, [v])] /\ 0 <= v < 256.
Definition index : shape := fun l => exists v, an_index v l.
Definition count : shape := fun l => exists v, a_count v l.
Fixpoint counts (vs : list Z) : shape := match vs with [] => nothing | v :: r => cat (a_count v) (counts r) end.

(** * Parts, in a file that announces [ns] strings and [nt] types *)
Section parts.
Variable ns nt : Z.
Definition name : shape := reference InvalidStringIndex ns.
(** no type can be referred to when there is none *)
Definition typeref : shape := fun l => 0 < nt /\ reference InvalidTypeIndex nt l.

(** What follows the kind byte [k] of type entry number [i]. *)
Definition entry_body (i k : Z) : shape :=
  if 23 <=? k then nothing
  else if (k =? HFUN) || (k =? HMETHOD) then along a_byte (fun n => cat (rep n typeref) typeref)
  else if (k =? HOBJ) || (k =? HSTRUCT) then
    (* name, super type (none if negative, else an entry that is there already), global, numbers of fields, methods, bindings *)
    cat name (along an_index (fun super l => super < nt + i /\
      cat count (along a_count (fun nf => along a_count (fun np => along a_count (fun nb =>
        cat (rep nf (cat name typeref)) (cat (rep np (cat name (cat count index))) (rep nb (cat count count))))))) l))
  else if k =? HVIRTUAL then along a_count (fun nf => rep nf (cat name typeref))
  else if k =? HABSTRACT then name
  else if k =? HENUM then
    cat name (cat count (along a_count (fun nc => rep nc (cat name (along a_count (fun np => rep np typeref))))))
  else if (k =? HREF) || (k =? HNULL) || (k =? HPACKED) then typeref
  else nothing.
Definition entry (i : Z) : shape := along (a_code InvalidType 23) (entry_body i).
Fixpoint entries (n : nat) (i : Z) : shape := match n with O => nothing | S n' => cat (entry i) (entries n' (i + 1)) end.

(** An instruction: an unknown one has no operands. *)
Definition operands (k : Z) : shape :=
  match arity k with
  | Some (Some n) => rep n index
  | Some None =>
      if k =? 70 then cat count (along a_count (fun n => cat (rep n count) count))
      else cat index (cat index (along a_byte (fun n => rep n index)))
  | None => nothing
  end.
Definition instruction : shape := along (a_code InvalidOpcode 99) operands.

(** Debug records of a function of [nops] instructions, from instruction [i] and line [line] on. *)
Inductive records (nfiles nops : Z) : Z -> Z -> shape :=
| rec_end i line : nops <= i -> records nfiles nops i line []
| rec_file i line f l : i < nops -> 0 <= f < 32768 -> records nfiles nops i line l ->
    records nfiles nops i line ((if f <? nfiles then None else Some InvalidDebugFile, [2 * (f / 256) + 1; f mod 256]) :: l)
| rec_repeat i line d n l : i < nops -> 0 <= d < 4 -> 0 <= n < 16 -> line + d < 2 ^ 31 -> records nfiles nops i (line + d) l ->
    records nfiles nops i line ((if i + n <=? nops then None else Some OutsideRange, [64 * d + 4 * n + 2]) :: l)
| rec_delta i line d l : i < nops -> 0 <= d < 32 -> line + d < 2 ^ 31 -> records nfiles nops (i + 1) (line + d) l ->
    records nfiles nops i line ((None, [8 * d + 4]) :: l)
| rec_abs i line a b c l : i < nops -> 0 <= a < 32 -> 0 <= b < 256 -> 0 <= c < 256 -> records nfiles nops (i + 1) (abs_line a b c) l ->
    records nfiles nops i line ((None, [8 * a; b; c]) :: l).

(** A function.  Once a fault has been found in a function section, instructions are not read any more. *)
Definition fun_head (nregs nops : Z) : shape :=
  cat typeref (cat count (cat (a_count nregs) (cat (a_count nops) (rep nregs typeref)))).
Definition fun_debug (version nfiles nops : Z) (debug : bool) : shape :=
  if debug then cat (records nfiles nops 0 0) (if 3 <=? version then along a_count (fun n => rep n (cat count index)) else nothing)
  else nothing.
Definition func (version nfiles : Z) (debug dirty : bool) : shape := fun l =>
  exists nregs nops a b c, l = a ++ b ++ c /\ fun_head nregs nops a /\
    (if dirty || faulty a then nothing else rep nops instruction) b /\ fun_debug version nfiles nops debug c.
Fixpoint funcs (version nfiles : Z) (debug : bool) (n : nat) (dirty : bool) : shape :=
  match n with
  | O => nothing
  | S n' => fun l => exists a b, l = a ++ b /\ func version nfiles debug dirty a /\ funcs version nfiles debug n' (dirty || faulty a) b
  end.
(** A native names two strings that are in the table (of [have] strings), or beyond the announced number. *)
Definition string_name (have : Z) : shape := fun l => exists b v,
  l = [(if (0 <=? v) && (v <? ns) then None else Some InvalidStringIndex, b)] /\ index_value b = Some v /\ ~ have <= v < ns.
Definition a_native (have : Z) : shape := cat (string_name have) (cat (string_name have) (cat typeref count)).
Definition a_constant : shape := cat count (along a_count (fun n => rep n count)).
End parts.

(** A table of [n] strings, of which [have] are read. *)
Definition strings_part (n have : Z) : shape := fun l =>
  exists text sizes ss r, l = (None, enc_le 4 (zlen text)) :: (None, text) :: r /\ zlen text < 2 ^ 31 /\ counts sizes r /\
    cuts (from_utf8_lossy text) (Z.to_nat n) 0 sizes ss /\ have = zlen ss.

(** * Refusals *)
Record header := { h_flags : Z; h_ints : Z; h_floats : Z; h_strings : Z; h_bytes : Z; h_types : Z; h_globals : Z;
  h_natives : Z; h_functions : Z; h_constants : Z; h_entry : Z }.
Definition header_part (v : Z) (h : header) : shape := fun l =>
  (v < 4 -> h_constants h = 0) /\
  counts ([h_flags h; h_ints h; h_floats h; h_strings h] ++ (if 5 <=? v then [h_bytes h] else []) ++
          [h_types h; h_globals h; h_natives h; h_functions h] ++ (if 4 <=? v then [h_constants h] else []) ++ [h_entry h]) l.

(** [k p buf e cell]: what remains of the file, [buf], starting at byte [p], is refused with error [e],
    and the error cell then holds [cell]. *)
Definition verdict := Z -> list Z -> derr -> option derr -> Prop.
(** A part with a fault is refused with the error that survives ([kept], ErrSpec.v); otherwise the rest decides. *)
Definition checked (P : shape) (K : verdict) : verdict := fun p buf e cell =>
  exists l rest, buf = flat l ++ rest /\ P l /\
    if faulty l then kept None (found p l) = Some e /\ cell = Some e else K (p + zlen (flat l)) rest e cell.
(** [n] numbers of [w] bytes: if they are not all there the file is refused at the first missing one. *)
Definition numbers (w n : Z) (K : verdict) : verdict := fun p buf e cell =>
  if w * n <=? zlen buf then K (p + w * n) (skipn (Z.to_nat (w * n)) buf) e cell
  else e = {| e_kind := NoMoreData; e_pos := p + w * (zlen buf / w) |} /\ cell = Some e.
(** The block of bytes of version 5; an incomplete size is refused without being recorded. *)
Definition block (v n : Z) (K : verdict) : verdict := fun p buf e cell =>
  if 5 <=? v then
    if zlen buf <? 4 then e = {| e_kind := NoMoreData; e_pos := p |} /\ cell = None
    else exists bs rest, buf = enc_le 4 (zlen bs) ++ bs ++ rest /\ zlen bs < 2 ^ 31 /\ checked (rep n count) K (p + 4 + zlen bs) rest e cell
  else K p buf e cell.
Definition never : verdict := fun _ _ _ _ => False.
(** Constants are checked one by one. *)
Fixpoint constants (n : nat) : verdict := match n with O => never | S n' => checked a_constant (constants n') end.

Definition after_debugfiles (v : Z) (h : header) (have nfiles : Z) : verdict :=
  checked (cat (entries (h_strings h) (h_types h) (Z.to_nat (h_types h)) 0) (rep (h_globals h) (typeref (h_types h))))
  (checked (rep (h_natives h) (a_native (h_strings h) (h_types h) have))
  (checked (funcs (h_types h) v nfiles (Z.odd (h_flags h)) (Z.to_nat (h_functions h)) false)
  (constants (Z.to_nat (h_constants h))))).
Definition after_header (v : Z) (h : header) : verdict :=
  numbers 4 (h_ints h) (numbers 8 (h_floats h) (fun p buf e cell => exists have,
    checked (strings_part (h_strings h) have) (block v (h_bytes h) (fun p buf e cell =>
      if Z.odd (h_flags h) then exists nfiles, checked (cat (a_count nfiles) (fun l => exists n, strings_part nfiles n l)) (after_debugfiles v h have nfiles) p buf e cell
      else after_debugfiles v h have 0 p buf e cell)) p buf e cell)).
(** A file is refused with error [e], in a process whose error cell is empty; the cell then holds [cell]. *)
Definition refused (buf : list Z) (e : derr) (cell : option derr) : Prop :=
  (* not "HLB": at the first byte that differs *)
  (exists k b rest, 0 <= k < 3 /\ buf = firstn (Z.to_nat k) [72; 76; 66] ++ b :: rest /\ znth [72; 76; 66] k <> Some b /\
     e = {| e_kind := InvalidBytecodeHeader; e_pos := k + 1 |} /\ cell = None) \/
  exists v rest, buf = [72; 76; 66; v] ++ rest /\
    if (2 <=? v) && (v <=? 5) then exists h, checked (header_part v h) (after_header v h) 4 rest e cell
    else e = {| e_kind := UnsupportedBytecodeVersion; e_pos := 4 |} /\ cell = None.
