#!/usr/bin/env python3
"""Generates rocq/theories/HashCostModel.v from HashModel.v: the same functions, counting how many types are compared with ==."""
import os, re
H = os.path.dirname(os.path.abspath(__file__)) + '/rocq/theories/'
c = open(H + 'HashModel.v').read()
head = r'''(** crates/brass/src/code_hash.rs once more, with its cost: how many times two [ValueType]s are compared
    with [==] (the derived [PartialEq] of types.rs:59-60, 95-96, which compares what the types own in turn).
    No proofs here.

    The functions after "The functions" have the same text as those of HashModel.v (this file is generated from it
    by /verif/gen_hashcost.py) in a monad that counts; functions that compare no types are taken over as
    they are ([free]).  HashCostProofs.v proves that the outcomes are those of HashModel.v. *)
From Verif Require Import Prelude StdModel BrassTypes DecoderModel.
From Verif Require HashModel.
Notation code_hash := HashModel.code_hash. Notation ch_code := HashModel.ch_code. Notation ch_type_hashes := HashModel.ch_type_hashes.
Notation ch_globals_signs := HashModel.ch_globals_signs. Notation ch_functions_signs := HashModel.ch_functions_signs.
Notation ch_functions_hashes := HashModel.ch_functions_hashes. Notation ch_functions_indexes := HashModel.ch_functions_indexes.
Notation set_type_hashes := HashModel.set_type_hashes. Notation set_globals_signs := HashModel.set_globals_signs.
Notation set_functions_signs := HashModel.set_functions_signs. Notation set_functions_hashes := HashModel.set_functions_hashes.
Notation set_functions_indexes := HashModel.set_functions_indexes.
Notation as_i32 := HashModel.as_i32. Notation as_usize := HashModel.as_usize. Notation f64_as_i32 := HashModel.f64_as_i32.
Notation str_eqb := HashModel.str_eqb. Notation list_eqb := HashModel.list_eqb. Notation option_eqb := HashModel.option_eqb.
Notation proto_eqb := HashModel.proto_eqb. Notation unit_eqb := HashModel.unit_eqb. Notation alloc_start := HashModel.alloc_start.

(** * Plumbing: an outcome and the number of comparisons made on the way *)
Definition R (A : Type) := (res derr A * Z)%type.
Definition free {A} (m : HashModel.R A) : R A := (m, 0).
Definition rret {A} (a : A) : R A := free (Ok a).
Definition rbind {A B} (m : R A) (k : A -> R B) : R B :=
  match m with
  | (Ok a, n) => let (r, n') := k a in (r, n + n')
  | (Err e, n) => (Err e, n)
  | (Panic p, n) => (Panic p, n)
  end.
Notation "x <~ m ;; k" := (rbind m (fun x => k)) (at level 61, m at next level, right associativity).
Definition need {A} (p : panic) (o : option A) : R A := free (HashModel.need p o).
Fixpoint rloop {A} (n : nat) (i : Z) (body : Z -> A -> R A) (acc : A) : R A :=
  match n with
  | O => rret acc
  | S n' => acc' <~ body i acc ;; rloop n' (i + 1) body acc'
  end.
Definition rfor {A} (n : Z) (body : Z -> A -> R A) (acc : A) : R A := rloop (Z.to_nat n) 0 body acc.
Definition try_usize (x : Z) : R Z := free (HashModel.try_usize x).

(** * Structural equality, counting *)
(** [a && b] and comparisons of other things than types *)
Definition andc (x y : bool * Z) : bool * Z := if fst x then (fst y, snd x + snd y) else (false, snd x).
Definition pure (b : bool) : bool * Z := (b, 0).
Infix "&&&" := andc (at level 40, left associativity).
(** [Vec] compares the lengths first, then the entries in order up to the first difference *)
Definition list_eqc {A} (eqc : A -> A -> bool * Z) : list A -> list A -> bool * Z :=
  let fix go (a b : list A) : bool * Z :=
    match a, b with
    | x :: a', y :: b' => eqc x y &&& go a' b'
    | _, _ => pure true
    end in
  fun a b => if zlen a =? zlen b then go a b else pure false.
Definition option_eqc {A} (eqc : A -> A -> bool * Z) (a b : option A) : bool * Z :=
  match a, b with Some x, Some y => eqc x y | None, None => pure true | _, _ => pure false end.
Definition field_eqc {T} (eqc : T -> T -> bool * Z) (a b : obj_field T) : bool * Z :=
  match a, b with mkField n h t, mkField n' h' t' => pure (str_eqb n n') &&& pure (h =? h') &&& eqc t t' end.
Definition construct_eqc {T} (eqc : T -> T -> bool * Z) (a b : enum_construct T) : bool * Z :=
  match a, b with mkCon n np ps sz hp os, mkCon n' np' ps' sz' hp' os' =>
    pure (str_eqb n n') &&& pure (np =? np') &&& list_eqc eqc ps ps' &&& pure (sz =? sz') &&& pure (Bool.eqb hp hp') &&& pure (list_eqb Z.eqb os os') end.
Definition vtu_eqc {T} (eqc : T -> T -> bool * Z) (a b : vtu T) : bool * Z :=
  match a, b with
  | FuncType xs n r, FuncType xs' n' r' => list_eqc eqc xs xs' &&& pure (n =? n') &&& eqc r r'
  | ObjType n s fs nf np nb ps bs gs rt, ObjType n' s' fs' nf' np' nb' ps' bs' gs' rt' =>
      pure (str_eqb n n') &&& eqc s s' &&& list_eqc (field_eqc eqc) fs fs' &&& pure (nf =? nf') &&& pure (np =? np') &&& pure (nb =? nb')
      &&& pure (list_eqb proto_eqb ps ps') &&& pure (list_eqb Z.eqb bs bs') &&& pure (list_eqb Z.eqb gs gs') &&& pure (option_eqb unit_eqb rt rt')
  | VirtualType n fs, VirtualType n' fs' => pure (n =? n') &&& list_eqc (field_eqc eqc) fs fs'
  | EnumType n nc cs gs, EnumType n' nc' cs' gs' =>
      pure (str_eqb n n') &&& pure (nc =? nc') &&& list_eqc (construct_eqc eqc) cs cs' &&& pure (list_eqb Z.eqb gs gs')
  | URef t, URef t' => eqc t t'
  | UAbstract s, UAbstract s' => pure (str_eqb s s')
  | UNull, UNull => pure true
  | UVoid, UVoid => pure true
  | _, _ => pure false
  end.
(** one comparison, and those of the parts *)
Fixpoint vt_eqc (a b : vtype) {struct a} : bool * Z :=
  match a, b with
  | VT u n p k, VT u' n' p' k' =>
      (true, 1) &&& vtu_eqc vt_eqc u u' &&& pure (option_eqb str_eqb n n') &&& option_eqc vt_eqc p p' &&& pure (k =? k')
  end.
(** [types.iter().position(|v| *v == t)]: up to the first that is equal *)
Fixpoint position (ts : list vtype) (t : vtype) : R (option Z) :=
  match ts with
  | [] => rret None
  | x :: r => let (b, n) := vt_eqc x t in if b then (Ok (Some 0), n) else let (o, n') := position r t in
              (match o with Ok o => Ok (option_map (Z.add 1) o) | e => e end, n + n')
  end.

(** * The functions *)
(** ** No comparison of types *)
'''
free = [('vt_hash', 'bool -> vtype -> R Z', 'fun b t => free (HashModel.vt_hash b t)'),
 ('alloc_indexes', 'code -> list Z -> R (list Z)', 'fun c l => free (HashModel.alloc_indexes c l)'),
 ('alloc_types1', 'code -> list Z -> R (list Z)', 'fun c l => free (HashModel.alloc_types1 c l)'),
 ('alloc_constants', 'code -> list Z -> R (list Z)', 'fun c l => free (HashModel.alloc_constants c l)'),
 ('alloc_boot', 'code -> list Z -> list Z -> R (list Z)', 'fun c fidx l => free (HashModel.alloc_boot c fidx l)'),
 ('hfun', 'code_hash -> hasher -> Z -> R hasher', 'fun ch h i => free (HashModel.hfun ch h i)'),
 ('write_p', 'option Z -> hasher -> R hasher', 'fun o h => free (HashModel.write_p o h)'),
 ('write_extra', 'opcode -> Z -> hasher -> R hasher', 'fun o i h => free (HashModel.write_extra o i h)'),
 ('write_extras', 'opcode -> Z -> hasher -> R hasher', 'fun o n h => free (HashModel.write_extras o n h)'),
 ('write_call', 'code_hash -> opcode -> hasher -> R hasher', 'fun ch o h => free (HashModel.write_call ch o h)')]
out = head
src = {'vt_hash': 'types.rs:105-195', 'alloc_indexes': 'code_hash.rs:34-44', 'alloc_types1': 'code_hash.rs:46-49', 'alloc_constants': 'code_hash.rs:104-134',
  'alloc_boot': 'code_hash.rs:136-152', 'hfun': 'code_hash.rs:288-290', 'write_p': 'code_hash.rs:305-449, one operand', 'write_extra': 'code_hash.rs:305-449, one of [extra]',
  'write_extras': 'code_hash.rs:305-449, several of [extra]', 'write_call': 'code_hash.rs:336-382, the callee'}
for n, ty, d in free:
    out += '(** %s *)\nDefinition %s : %s := %s.\n' % (src[n], n, ty, d)
out += '\n(** ** With comparisons *)\n'
def take(name):
    """comment + definition of [name]"""
    i = c.index('Definition %s ' % name)
    j = c.index('.\n', c.index(':=', i))
    # the definition ends at the first ".\n" at the end of a line
    k = c.rfind('(**', 0, i)
    com = c[k:i]
    if com.count('Definition') or '\n\n' in com.strip(): com = ''
    return com + c[i:j + 2] + '\n'
for n in ['hash_at', 'write_type', 'hash_type_rec', 'code_hash_type', 'alloc_types2', 'alloc_globals1', 'alloc_globals2', 'alloc_finish', 'alloc', 'hash_native', 'hash_fun_sign', 'hash_op', 'hash_fun', 'finalize']:
    t = take(n)
    t = t.replace('need PUnwrap (position types t)', 'o <~ position types t ;; need PUnwrap o') if n == 'hash_at' else t
    if n == 'hash_at':
        t = t.replace('i <~ o <~ position types t ;; need PUnwrap o ;; need PIndex (znth hs i)', 'o <~ position types t ;; i <~ need PUnwrap o ;; need PIndex (znth hs i)')
    out += t
out = out.replace('[alloc], phase by phase *)\n', '[alloc], phase by phase *)\n')
open(H + 'HashCostModel.v', 'w').write(out)
