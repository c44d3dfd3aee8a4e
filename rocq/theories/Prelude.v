(** Shared vocabulary: outcomes of Rust calls and [Vec] operations as list functions.
    No proofs here. *)
From Coq Require Export List ZArith Bool.
Export ListNotations.
Open Scope Z_scope.

(** Why a Rust call panicked.  Arithmetic overflow is modelled with the debug/test profile
    semantics (overflow checks on): [POverflow]. *)
Inductive panic : Type :=
| PUnwrap        (* [Result::unwrap] on [Err], [Option::unwrap] on [None] *)
| PExpect        (* [Option::expect] on [None] *)
| PAssert        (* [assert!] *)
| PIndex         (* slice/array/Vec index out of range *)
| PInsert        (* [Vec::insert] past the end *)
| PSlice         (* slicing out of range or off a UTF-8 boundary *)
| PCapacity      (* [vec![0; n]] with an impossible n *)
| POverflow      (* arithmetic overflow *)
| PTryInto       (* failed integer conversion *)
| PTodo          (* [todo!()] *)
| PFuel.         (* not a Rust panic: the model ran out of recursion fuel; proved unreachable *)

(** Result of a Rust call returning [Result<A, E>], or diverging by panic. *)
Inductive res (E A : Type) : Type :=
| Ok (a : A)
| Err (e : E)
| Panic (p : panic).
Arguments Ok {E A} a.
Arguments Err {E A} e.
Arguments Panic {E A} p.

(** [l[i]] / [l.get(i)]: [None] when out of range (negative [i] never occurs for usize). *)
Fixpoint znth {A} (l : list A) (i : Z) : option A :=
  match l with
  | [] => None
  | x :: r => if i =? 0 then Some x else znth r (i - 1)
  end.

(** [l[i] = x]: [None] when out of range. *)
Fixpoint zset {A} (l : list A) (i : Z) (x : A) : option (list A) :=
  match l with
  | [] => None
  | y :: r => if i =? 0 then Some (x :: r) else option_map (cons y) (zset r (i - 1) x)
  end.

(** [Vec::insert(i, x)]: shifts the elements from [i] on; [None] (panic) when [i > len]. *)
Fixpoint zinsert {A} (l : list A) (i : Z) (x : A) : option (list A) :=
  if i =? 0 then Some (x :: l)
  else match l with
       | [] => None
       | y :: r => option_map (cons y) (zinsert r (i - 1) x)
       end.

(** [vec![x; n]] *)
Definition zrepeat {A} (x : A) (n : Z) : list A := repeat x (Z.to_nat n).

Definition zlen {A} (l : list A) : Z := Z.of_nat (length l).

(** Little-endian bytes of an [n]-byte unsigned integer ([to_ne_bytes] on a little-endian host). *)
Fixpoint le_bytes (n : nat) (v : Z) : list Z :=
  match n with
  | O => []
  | S n' => (v mod 256) :: le_bytes n' (v / 256)
  end.

Definition is_byte (b : Z) : Prop := 0 <= b < 256.
