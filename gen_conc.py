import re
d=open('/verif/rocq/theories/DecoderModel.v').read(); c=open('/verif/rocq/theories/CodeModel.v').read()
head='''(** The reader of crates/brass/src/code.rs once more, for several threads: the decoder is local to a
    call, but the error cell [static mut ERRORS] (code.rs:29) is shared by all threads of the process.
    No proofs here.

    A computation stops at every access to the cell.  The functions below have the same text as those of
    DecoderModel.v and CodeModel.v (this file is generated from them by /verif/gen_conc.py); only the
    operations they are made of differ.  ConcProofs.v proves that one thread alone behaves exactly as in
    those files.  Accesses to the cell are atomic and in order (sequential consistency); in Rust two
    unsynchronised accesses one of which writes are a data race. *)
From Verif Require Import Prelude StdModel BrassTypes.
From Verif Require DecoderModel CodeModel.

(** decoder.rs:9-13 [Decoder] *)
Record local := { d_buf : list Z; d_pos : Z; d_code : code }.

(** A running call: finished, about to read the cell, or about to store an error in it. *)
Inductive act (A : Type) : Type :=
| Done (r : res derr A) (l : local)
| Look (k : option derr -> act A)
| Put (e : derr) (k : act A).
Arguments Done {A} r l. Arguments Look {A} k. Arguments Put {A} e k.
Definition M (A : Type) := local -> act A.

(** what happens when a computation finishes *)
Fixpoint finish {A B} (a : act A) (k : res derr A -> local -> act B) : act B :=
  match a with
  | Done r l => k r l
  | Look f => Look (fun o => finish (f o) k)
  | Put e a => Put e (finish a k)
  end.

Definition ret {A} (a : A) : M A := fun l => Done (Ok a) l.
Definition bind {A B} (m : M A) (k : A -> M B) : M B := fun l =>
  finish (m l) (fun r l => match r with Ok a => k a l | Err e => Done (Err e) l | Panic p => Done (Panic p) l end).
Notation "x <- m ;; k" := (bind m (fun x => k)) (at level 61, m at next level, right associativity).
Notation "m ;;; k" := (bind m (fun _ => k)) (at level 61, right associativity).
Definition throw {A} (e : derr) : M A := fun l => Done (Err e) l.
Definition crash {A} (p : panic) : M A := fun l => Done (Panic p) l.
Definition get_pos : M Z := fun l => Done (Ok (d_pos l)) l.
Definition get_code : M code := fun l => Done (Ok (d_code l)) l.
Definition put_code (c : code) : M unit := fun l => Done (Ok tt) {| d_buf := d_buf l; d_pos := d_pos l; d_code := c |}.
Definition expect {A} (p : panic) (o : option A) : M A :=
  match o with Some a => ret a | None => crash p end.

(** [ERRORS = Some(e)] *)
Definition record_error (e : derr) : M unit := fun l => Put e (Done (Ok tt) l).
(** code.rs:590-596 [Code::map_err]: a read, and a store if the cell was empty *)
Definition map_err (e : derr) : M unit := fun l =>
  Look (fun o => match o with None => Put e (Done (Ok tt) l) | Some _ => Done (Ok tt) l end).
(** code.rs:598-605 [Code::check_error] *)
Definition check_error : M unit := fun l =>
  Look (fun o => match o with Some e => Done (Err e) l | None => Done (Ok tt) l end).

Definition unwrap {A} (m : M A) : M A := fun l =>
  finish (m l) (fun r l => match r with Err _ => Done (Panic PUnwrap) l | r => Done r l end).
Definition unwrap_mapped {A} (m : M A) : M A := fun l =>
  finish (m l) (fun r l => match r with
    | Err e => finish (map_err e l) (fun _ l => Done (Panic PUnwrap) l)
    | r => Done r l end).
Definition ok_mapped {A} (m : M A) : M (option A) := fun l =>
  finish (m l) (fun r l => match r with
    | Ok a => Done (Ok (Some a)) l
    | Err e => finish (map_err e l) (fun _ l => Done (Ok None) l)
    | Panic p => Done (Panic p) l end).
Definition ok {A} (m : M A) : M (option A) := fun l =>
  finish (m l) (fun r l => match r with
    | Ok a => Done (Ok (Some a)) l
    | Err e => Done (Ok None) l
    | Panic p => Done (Panic p) l end).

Fixpoint for_loop {A} (n : nat) (i : Z) (body : Z -> A -> M A) (acc : A) : M A :=
  match n with
  | O => ret acc
  | S n' => acc' <- body i acc ;; for_loop n' (i + 1) body acc'
  end.
Definition for_range {A} (n : Z) (body : Z -> A -> M A) (acc : A) : M A :=
  for_loop (Z.to_nat n) 0 body acc.
Definition vec_insert {A} (l : list A) (i : Z) (x : A) : M (list A) := expect PInsert (zinsert l i x).

(** decoder.rs:30-41 [advance] *)
Definition advance (count : Z) : M unit := fun s =>
  if zlen (d_buf s) <? count then Done (Err (with_info NoMoreData (d_pos s))) s
  else Done (Ok tt) {| d_buf := skipn (Z.to_nat count) (d_buf s); d_pos := d_pos s + count; d_code := d_code s |}.
(** decoder.rs:44-56 [read_bytes] *)
Definition read_bytes (n : Z) : M (list Z) := fun s =>
  if zlen (d_buf s) <? n then Done (Err (with_info NoMoreData (d_pos s))) s
  else Done (Ok (firstn (Z.to_nat n) (d_buf s)))
            {| d_buf := skipn (Z.to_nat n) (d_buf s); d_pos := d_pos s + n; d_code := d_code s |}.
Notation from_le := DecoderModel.from_le.
Notation to_signed := DecoderModel.to_signed.
Notation I32_MAX := CodeModel.I32_MAX.
Notation get_ustring := CodeModel.get_ustring.
Notation i32_as_usize := CodeModel.i32_as_usize.
Notation mkop := CodeModel.mkop.

'''
a=d.index('(** decoder.rs:89-119'); body=d[a:]
a=c.index('(** [x.try_into().unwrap()] from usize to i32 *)'); b=c.index('(** decoder.rs:16-22 [Decoder::new]')
body+=c[a:b]
def cut(start,end):
    global body
    i=body.index(start); j=body.index(end,i); body=body[:i]+body[j:]
cut('(** code.rs:131-151 [get_ustring]','Definition lift')
cut('(** [x as usize] for an i32 *)','(** code.rs:403-415')
cut('Definition mkop','(** code.rs:448-535')
def sub(o,n):
    global body
    assert body.count(o)==1,(o,body.count(o)); body=body.replace(o,n)
sub('Definition lift {A} (r : res derr A) : M A := fun s => (r, s).','Definition lift {A} (r : res derr A) : M A := fun l => Done r l.')
sub('''slice <- (fun s => if zlen (d_buf s) <? size then (Panic PSlice, s)
                     else (Ok (firstn (Z.to_nat size) (d_buf s)), s)) ;;''','''slice <- (fun s => if zlen (d_buf s) <? size then Done (Panic PSlice) s
                     else Done (Ok (firstn (Z.to_nat size) (d_buf s))) s) ;;''')
tail='''
(** decoder.rs:16-22 [Decoder::new], then [Code::read]. *)
Definition reader (buf : list Z) : act code := code_read {| d_buf := buf; d_pos := 0; d_code := code_new |}.

(** * Threads *)
(** The cell, and the calls in progress, one per thread. *)
Definition config := (option derr * list (act code))%type.
Inductive step : config -> config -> Prop :=
| step_look cell before k after : step (cell, before ++ Look k :: after) (cell, before ++ k cell :: after)
| step_put cell before e k after : step (cell, before ++ Put e k :: after) (Some e, before ++ k :: after).
(** any number of steps *)
Inductive steps : config -> config -> Prop :=
| steps_refl s : steps s s
| steps_step s1 s2 s3 : step s1 s2 -> steps s2 s3 -> steps s1 s3.
'''
open('/verif/rocq/theories/ConcModel.v','w').write(head+body.rstrip()+'\n'+tail)
