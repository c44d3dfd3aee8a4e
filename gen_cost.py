#!/usr/bin/env python3
"""Generates rocq/theories/CostModel.v from CodeModel.v: the same functions, counting turns of loops, entries copied by clone() and entries written by vec![x; n]."""
import os
H = os.path.dirname(os.path.abspath(__file__)) + '/rocq/theories/'
c = open(H + 'CodeModel.v').read()
head = '''(** The reader of crates/brass/src/code.rs once more, with its cost: how many turns its loops take, how many
    entries of tables it copies with [clone()], and how many entries it writes with [vec![x; n]].  No proofs here.

    The functions below have the same text as those of CodeModel.v (this file is generated from it by
    /verif/gen_cost.py), plus a mark [copy n] wherever the code clones tables of [n] entries, and [fill n]
    for [vec![x; n]]; functions with none of these are taken over as they are ([free]).  CostProofs.v proves that the outcomes are
    those of CodeModel.v.  Not counted: what is owned by an entry (strings, types inside types), the shifting
    of entries by [Vec::insert], and vectors of one entry. *)
From Verif Require Import Prelude StdModel BrassTypes.
From Verif Require DecoderModel CodeModel.
Notation st := DecoderModel.st. Notation d_buf := DecoderModel.d_buf. Notation d_code := DecoderModel.d_code. Notation d_pos := DecoderModel.d_pos.

Record cost := { turns : Z; copied : Z; filled : Z }.
Definition none : cost := {| turns := 0; copied := 0; filled := 0 |}.
Definition plus (x y : cost) : cost := {| turns := turns x + turns y; copied := copied x + copied y; filled := filled x + filled y |}.

Definition M (A : Type) := st -> (res derr A * st) * cost.
(** a computation of CodeModel.v that costs nothing *)
Definition free {A} (m : DecoderModel.M A) : M A := fun s => (m s, none).
Definition ret {A} (a : A) : M A := free (DecoderModel.ret a).
Definition bind {A B} (m : M A) (k : A -> M B) : M B := fun s =>
  match m s with
  | ((Ok a, s'), t) => let (r, t') := k a s' in (r, plus t t')
  | ((Err e, s'), t) => ((Err e, s'), t)
  | ((Panic p, s'), t) => ((Panic p, s'), t)
  end.
Notation "x <- m ;; k" := (bind m (fun x => k)) (at level 61, m at next level, right associativity).
Notation "m ;;; k" := (bind m (fun _ => k)) (at level 61, right associativity).
Definition turn : M unit := fun s => ((Ok tt, s), {| turns := 1; copied := 0; filled := 0 |}).
Definition copy (n : Z) : M unit := fun s => ((Ok tt, s), {| turns := 0; copied := n; filled := 0 |}).
Definition fill (n : Z) : M unit := fun s => ((Ok tt, s), {| turns := 0; copied := 0; filled := Z.max 0 n |}).
(** [.unwrap()], [.map_err(Code::map_err).unwrap()], [if let Ok(..) = ..map_err(..)], [if let Ok(..)]: as in DecoderModel.v *)
Definition on {A B} (f : DecoderModel.M A -> DecoderModel.M B) (m : M A) : M B := fun s =>
  let (r, t) := m s in (f (fun _ => r) s, t).
Definition unwrap {A} (m : M A) : M A := on DecoderModel.unwrap m.
Definition unwrap_mapped {A} (m : M A) : M A := on DecoderModel.unwrap_mapped m.
Definition ok_mapped {A} (m : M A) : M (option A) := on DecoderModel.ok_mapped m.
Definition ok {A} (m : M A) : M (option A) := on DecoderModel.ok m.
Fixpoint for_loop {A} (n : nat) (i : Z) (body : Z -> A -> M A) (acc : A) : M A :=
  match n with
  | O => ret acc
  | S n' => turn ;;; acc' <- body i acc ;; for_loop n' (i + 1) body acc'
  end.
Definition for_range {A} (n : Z) (body : Z -> A -> M A) (acc : A) : M A := for_loop (Z.to_nat n) 0 body acc.

Definition throw {A} (e : derr) : M A := free (DecoderModel.throw e).
Definition crash {A} (p : panic) : M A := free (DecoderModel.crash p).
Definition get_pos : M Z := free DecoderModel.get_pos.
Definition get_code : M code := free DecoderModel.get_code.
Definition put_code (c : code) : M unit := free (DecoderModel.put_code c).
Definition expect {A} (p : panic) (o : option A) : M A := free (DecoderModel.expect p o).
Definition record_error (e : derr) : M unit := free (DecoderModel.record_error e).
Definition map_err (e : derr) : M unit := free (DecoderModel.map_err e).
Definition check_error : M unit := free DecoderModel.check_error.
Definition vec_insert {A} (l : list A) (i : Z) (x : A) : M (list A) := free (DecoderModel.vec_insert l i x).
Definition advance (n : Z) : M unit := free (DecoderModel.advance n).
Definition read_bytes (n : Z) : M (list Z) := free (DecoderModel.read_bytes n).
Definition decode_u8 : M Z := free DecoderModel.decode_u8.
Definition decode_i32 : M Z := free DecoderModel.decode_i32.
Definition decode_f64 : M Z := free DecoderModel.decode_f64.
Definition INDEX : M Z := free DecoderModel.INDEX.
Definition UINDEX : M Z := free DecoderModel.UINDEX.
Definition to_i32 (x : Z) : M Z := free (CodeModel.to_i32 x).
Definition lift {A} (r : res derr A) : M A := free (CodeModel.lift r).
Definition i32_add (x y : Z) : M Z := free (CodeModel.i32_add x y).
Definition debug_store (debug : list Z) (i curfile curline : Z) : M (list Z) := free (CodeModel.debug_store debug i curfile curline).
Definition read_magic (c : code) : M code := free (CodeModel.read_magic c).
Definition read_count (set : Z -> code -> code) (c : code) : M code := free (CodeModel.read_count set c).
Definition read_counts (c : code) : M code := free (CodeModel.read_counts c).
Notation get_ustring := CodeModel.get_ustring. Notation i32_as_usize := CodeModel.i32_as_usize. Notation mkop := CodeModel.mkop.

(** entries of the tables of a module: what [Code::clone] (derived, code.rs:51) copies *)
Definition entries (c : code) : Z :=
  zlen (c_ints c) + zlen (c_floats c) + zlen (c_strings c) + zlen (c_strings_lens c) + zlen (c_bytes c) + zlen (c_bytes_pos c) + zlen (c_debugfiles c) +
  zlen (c_debugfiles_lens c) + zlen (c_ustrings c) + zlen (c_types c) + zlen (c_globals c) + zlen (c_natives c) + zlen (c_functions c) + zlen (c_constants c).
(** [decoder.code = c.clone()] *)
Definition put_clone (c : code) : M unit := copy (entries c) ;;; put_code c.
(** [c = decoder.code.clone()] *)
Definition get_clone : M code := dc <- get_code ;; copy (entries dc) ;;; get_code.
(** code.rs:132, 136: tables cloned by a look-up in the name cache *)
Definition ustring_copies (c : code) (index : Z) : Z :=
  zlen (c_ustrings c) + match znth (c_ustrings c) index with Some None => zlen (c_strings c) | _ => 0 end.

'''
a = c.index('(** code.rs:114') if '(** code.rs:114' in c else c.index('Definition read_string : M str')
a = c.rindex('(**', 0, c.index('Definition read_string : M str'))
b = c.index('(** decoder.rs:16-22 [Decoder::new]')
body = c[a:b]
def cutdef(name, nxt):
    """drop a definition (with its comment), up to the comment or definition [nxt]"""
    global body
    i = body.index(name); i = body.rindex('(**', 0, i) if '(**' in body[max(0, i-400):i] and body[:i].rstrip().endswith('*)') else i
    j = body.index(nxt, i + 1); body = body[:i] + body[j:]
def sub(o, n, k=1):
    global body
    assert body.count(o) == k, (o, body.count(o)); body = body.replace(o, n)
cutdef('Definition get_ustring', 'Definition lift')
cutdef('Definition lift', '(** code.rs')
cutdef('Definition i32_as_usize', '(** code.rs')
cutdef('Definition mkop', '(** code.rs')
cutdef('Definition i32_add', 'Definition debug_store')
cutdef('Definition debug_store', '(** code.rs')
cutdef('Definition read_magic', '(** [if let Ok(x)')
cutdef('Definition read_count ', '(** code.rs:636')
cutdef('Definition read_counts', '(** code.rs:683')
# loops written out
sub('''      sz <- unwrap UINDEX ;;
      tail <-''', '''      turn ;;;
      sz <- unwrap UINDEX ;;
      tail <-''')
sub('''      if i <? nops then
        c <- unwrap decode_u8 ;;''', '''      if i <? nops then
        turn ;;;
        c <- unwrap decode_u8 ;;''')
sub('''  slice <- (fun s => if zlen (d_buf s) <? size then (Panic PSlice, s)
                     else (Ok (firstn (Z.to_nat size) (d_buf s)), s)) ;;''', '''  slice <- free (fun s => if zlen (d_buf s) <? size then (Panic PSlice, s)
                     else (Ok (firstn (Z.to_nat size) (d_buf s)), s)) ;;''')
# clones
sub('else expect PUnwrap (znth (c_strings c) index)', 'else copy (zlen (c_strings c)) ;;; expect PUnwrap (znth (c_strings c) index)')
sub('    r <- lift (get_ustring c index) ;;', '    copy (ustring_copies c index) ;;; r <- lift (get_ustring c index) ;;')
sub('    expect PUnwrap (znth (c_types c) 0)', '    copy (zlen (c_types c)) ;;; expect PUnwrap (znth (c_types c) 0)')
sub('  else expect PUnwrap (znth (c_types c) index)', '  else copy (zlen (c_types c)) ;;; expect PUnwrap (znth (c_types c) index)')
sub('else expect PUnwrap (znth (c_types c) super_index)', 'else copy (zlen (c_types c)) ;;; expect PUnwrap (znth (c_types c) super_index)')
sub('put_code c ;;;', 'put_clone c ;;;', 6)
sub('''    c <- get_code ;;
    check_error ;;; ret c''', '''    c <- get_clone ;;
    check_error ;;; ret c''')
sub('put_code (set_types ts dc) ;;; get_code)', 'put_code (set_types ts dc) ;;; get_clone)')
sub('''     | None => ret tt
     end) ;;; get_code)''', '''     | None => ret tt
     end) ;;; get_clone)''')
sub('''   else ret tt) ;;;
  get_code.''', '''   else ret tt) ;;;
  get_clone.''')
# vec![x; n]
sub('''  for_range n (fun i l => x <- unwrap read ;; vec_insert l i x) (zrepeat 0 n).''', '''  fill n ;;; for_range n (fun i l => x <- unwrap read ;; vec_insert l i x) (zrepeat 0 n).''')
sub('''  debug_loop (S (length (d_buf s))) nops 0 (-1) 0 (zrepeat 0 (2 * nops)) s.''', '''  (fill (2 * nops) ;;; debug_loop (S (length (d_buf s))) nops 0 (-1) 0 (zrepeat 0 (2 * nops))) s.''')
sub('''  check_error ;;; ret (set_ustrings (zrepeat None (c_nstrings c)) c).''', '''  check_error ;;; fill (c_nstrings c) ;;; ret (set_ustrings (zrepeat None (c_nstrings c)) c).''')
sub('''    bs <- unwrap_mapped (read_bytes size) ;;''', '''    fill size ;;;
    bs <- unwrap_mapped (read_bytes size) ;;''')
sub('''  for_range (c_ntypes c) (fun i c =>''', '''  fill (c_ntypes c) ;;;
  for_range (c_ntypes c) (fun i c =>''')
sub('''  c <- for_range (c_nglobals c) (fun i c =>''', '''  fill (c_nglobals c) ;;;
  c <- for_range (c_nglobals c) (fun i c =>''')
open(H + 'CostModel.v', 'w').write(head + body.rstrip() + '\n')
