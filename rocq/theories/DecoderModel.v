(** Model of crates/brass/src/decoder.rs and of the error cell of code.rs, as a state monad.
    No proofs here. *)
From Verif Require Import Prelude StdModel BrassTypes.

(** decoder.rs:9-13 [Decoder] plus the global [static mut ERRORS] (code.rs:29).  [d_log] is ghost
    state, read by no modelled function: every error passed to the error cell so far, oldest first. *)
Record st := { d_buf : list Z; d_pos : Z; d_code : code; errs : option derr; d_log : list derr }.

(** A Rust function with access to the decoder, returning [Result<A, DecodeError>] or panicking. *)
Definition M (A : Type) := st -> res derr A * st.

Definition ret {A} (a : A) : M A := fun s => (Ok a, s).
(** [m?] followed by [k] *)
Definition bind {A B} (m : M A) (k : A -> M B) : M B := fun s =>
  match m s with
  | (Ok a, s') => k a s'
  | (Err e, s') => (Err e, s')
  | (Panic p, s') => (Panic p, s')
  end.
Notation "x <- m ;; k" := (bind m (fun x => k)) (at level 61, m at next level, right associativity).
Notation "m ;;; k" := (bind m (fun _ => k)) (at level 61, right associativity).

Definition throw {A} (e : derr) : M A := fun s => (Err e, s).
Definition crash {A} (p : panic) : M A := fun s => (Panic p, s).
Definition get_pos : M Z := fun s => (Ok (d_pos s), s).
Definition get_code : M code := fun s => (Ok (d_code s), s).
Definition put_code (c : code) : M unit := fun s =>
  (Ok tt, {| d_buf := d_buf s; d_pos := d_pos s; d_code := c; errs := errs s; d_log := d_log s |}).

(** [Option::unwrap], indexing, ... *)
Definition expect {A} (p : panic) (o : option A) : M A :=
  match o with Some a => ret a | None => crash p end.

(** [ERRORS = Some(e)] *)
Definition record_error (e : derr) : M unit := fun s =>
  (Ok tt, {| d_buf := d_buf s; d_pos := d_pos s; d_code := d_code s; errs := Some e;
             d_log := d_log s ++ [e] |}).

(** code.rs:590-596 [Code::map_err]: keeps the first error. *)
Definition map_err (e : derr) : M unit := fun s =>
  (Ok tt, {| d_buf := d_buf s; d_pos := d_pos s; d_code := d_code s;
             errs := match errs s with None => Some e | Some e0 => Some e0 end;
             d_log := d_log s ++ [e] |}).

(** code.rs:598-605 [Code::check_error] *)
Definition check_error : M unit := fun s =>
  match errs s with Some e => (Err e, s) | None => (Ok tt, s) end.

(** [m.unwrap()] *)
Definition unwrap {A} (m : M A) : M A := fun s =>
  match m s with
  | (Err _, s') => (Panic PUnwrap, s')
  | r => r
  end.

(** [m.map_err(Code::map_err).unwrap()] *)
Definition unwrap_mapped {A} (m : M A) : M A := fun s =>
  match m s with
  | (Err e, s') => (Panic PUnwrap, snd (map_err e s'))
  | r => r
  end.

(** [if let Ok(x) = m.map_err(Code::map_err)] *)
Definition ok_mapped {A} (m : M A) : M (option A) := fun s =>
  match m s with
  | (Ok a, s') => (Ok (Some a), s')
  | (Err e, s') => (Ok None, snd (map_err e s'))
  | (Panic p, s') => (Panic p, s')
  end.

(** [if let Ok(x) = m] *)
Definition ok {A} (m : M A) : M (option A) := fun s =>
  match m s with
  | (Ok a, s') => (Ok (Some a), s')
  | (Err e, s') => (Ok None, s')
  | (Panic p, s') => (Panic p, s')
  end.

(** [for i in i0..i0+n { acc = body(i, acc) }] *)
Fixpoint for_loop {A} (n : nat) (i : Z) (body : Z -> A -> M A) (acc : A) : M A :=
  match n with
  | O => ret acc
  | S n' => acc' <- body i acc ;; for_loop n' (i + 1) body acc'
  end.
Definition for_range {A} (n : Z) (body : Z -> A -> M A) (acc : A) : M A :=
  for_loop (Z.to_nat n) 0 body acc.

(** [v.insert(i, x)] *)
Definition vec_insert {A} (l : list A) (i : Z) (x : A) : M (list A) := expect PInsert (zinsert l i x).

(** decoder.rs:30-41 [advance] *)
Definition advance (count : Z) : M unit := fun s =>
  if zlen (d_buf s) <? count then (Err (with_info NoMoreData (d_pos s)), s)
  else (Ok tt, {| d_buf := skipn (Z.to_nat count) (d_buf s); d_pos := d_pos s + count;
                  d_code := d_code s; errs := errs s; d_log := d_log s |}).

(** decoder.rs:44-56 [read_bytes], with a destination of [n] bytes; the bytes are returned. *)
Definition read_bytes (n : Z) : M (list Z) := fun s =>
  if zlen (d_buf s) <? n then (Err (with_info NoMoreData (d_pos s)), s)
  else (Ok (firstn (Z.to_nat n) (d_buf s)),
        {| d_buf := skipn (Z.to_nat n) (d_buf s); d_pos := d_pos s + n;
           d_code := d_code s; errs := errs s; d_log := d_log s |}).

(** [from_le_bytes] *)
Fixpoint from_le (bs : list Z) : Z :=
  match bs with [] => 0 | b :: r => b + 256 * from_le r end.
Definition to_signed (bits v : Z) : Z := if v <? 2 ^ (bits - 1) then v else v - 2 ^ bits.

(** decoder.rs:89-119: [u8::decode] ... [i64::decode], [f64::decode] (bit pattern) *)
Definition decode_unsigned (n : Z) : M Z := bs <- read_bytes n ;; ret (from_le bs).
Definition decode_signed (n : Z) : M Z := bs <- read_bytes n ;; ret (to_signed (8 * n) (from_le bs)).
Definition decode_u8 := decode_unsigned 1.
Definition decode_i8 := decode_signed 1.
Definition decode_u16 := decode_unsigned 2.
Definition decode_i16 := decode_signed 2.
Definition decode_u32 := decode_unsigned 4.
Definition decode_i32 := decode_signed 4.
Definition decode_u64 := decode_unsigned 8.
Definition decode_i64 := decode_signed 8.
Definition decode_f64 := decode_u64.

(** decoder.rs:58-78 [read_index] *)
Definition read_index : M Z :=
  b <- decode_u8 ;;
  if Z.land b 128 =? 0 then ret (Z.land b 127)                       (* :60-62 *)
  else if Z.land b 64 =? 0 then                                      (* :63-69 *)
    x <- unwrap decode_u8 ;;
    let v := Z.lor x (Z.shiftl (Z.land b 31) 8) in
    ret (if Z.land b 32 =? 0 then v else - v)
  else                                                               (* :70-77 *)
    c <- decode_u8 ;;
    d <- decode_u8 ;;
    e <- decode_u8 ;;
    ret (to_signed 32 (from_le [b; c; d; e])).

(** code.rs:46-49 [INDEX] *)
Definition INDEX : M Z := unwrap read_index.

(** code.rs:31-44 [UINDEX] *)
Definition UINDEX : M Z :=
  i <- unwrap_mapped INDEX ;;
  if i <? 0 then
    p <- get_pos ;; record_error (with_info NegativeIndex p) ;;; ret 0
  else ret i.
