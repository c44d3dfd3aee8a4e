(** Vocabulary for the statements about the allocator.  Nothing here refers to the allocator's
    internal functions: sizes are literal numbers, and histories only use the client-visible
    operations. *)
From Verif Require Import Prelude ImmixModel.

(** ** Sizes *)

(** [r] is [n] rounded up to whole 8-byte words. *)
Definition round8 (n r : Z) : Prop := r mod 8 = 0 /\ n <= r < n + 8.

(** The storage taken by an allocation of [payload] bytes under a header of [hs] bytes. *)
Definition storage_size (hs payload : Z) : Z := 8 * ((hs + payload + 7) / 8).

(** Documented class of a size that can be served. *)
Definition class_of (sz : Z) : size_class := if sz <=? 128 then Small else Medium.

(** ** Environment assumptions *)

(** What is assumed of the system allocator: a non-null result is aligned as requested, fits the
    address space, and blocks returned by different calls do not overlap (none is released while
    the heap is alive). *)
Record sys_ok (E : env) : Prop := {
  so_valid : forall i l p, sys E i l = Some p ->
      0 < p /\ p + l_size l <= 2 ^ 64 /\ (0 < l_align l -> p mod l_align l = 0);
  so_disjoint : forall i j l l' p p', i <> j -> sys E i l = Some p -> sys E j l' = Some p' ->
      p + l_size l <= p' \/ p' + l_size l' <= p;
  so_box : forall i, 0 <= boxaddr E i < 2 ^ 64 }.

(** The client's header type has the size it says (Rust guarantees this), at most isize::MAX. *)
Record hdr_ok (H : header_impl) : Prop := {
  ho_size : 0 <= h_size H < 2 ^ 63;
  ho_new : forall tid n c m, zlen (h_new H tid n c m) = h_size H;
  ho_new_array : forall n c m, zlen (h_new_array H n c m) = h_size H }.

(** ** The abstract heap: the list of objects the client was given. *)
Record aobj := { a_ptr : Z; a_hdr : list Z; a_data : list Z }.

(** Overwrite [bytes] at [off] in [l]. *)
Definition splice (l : list Z) (off : Z) (bytes : list Z) : list Z :=
  firstn (Z.to_nat off) l ++ bytes ++ skipn (Z.to_nat off + length bytes) l.

Definition a_write (o : aobj) (off : Z) (bytes : list Z) : aobj :=
  {| a_ptr := a_ptr o; a_hdr := a_hdr o; a_data := splice (a_data o) off bytes |}.

(** Storage extent [lo, hi) of an object. *)
Definition a_lo (H : header_impl) (o : aobj) : Z := a_ptr o - h_size H.
Definition a_hi (H : header_impl) (o : aobj) : Z :=
  a_lo H o + storage_size (h_size H) (zlen (a_data o)).

(** What an operation does to the abstract heap, given what it returned. *)
Definition abs_step (H : header_impl) (objs : list aobj) (o : op) (r : res alloc_error Z)
  : list aobj :=
  match o, r with
  | OpAlloc ob, Ok p =>
      let n := zlen (ob_bytes ob) in
      objs ++ [{| a_ptr := p;
                  a_hdr := h_new H (ob_tid ob) n (class_of (storage_size (h_size H) n)) Allocated;
                  a_data := ob_bytes ob |}]
  | OpAllocArray n, Ok p =>
      objs ++ [{| a_ptr := p;
                  a_hdr := h_new_array H n (class_of (storage_size (h_size H) n)) Allocated;
                  a_data := zrepeat 0 n |}]
  | OpWrite p off bytes, _ =>
      map (fun x => if a_ptr x =? p then a_write x off bytes else x) objs
  | _, _ => objs
  end.

(** Operations a well-behaved client may perform: an object value to be moved into the heap exists
    in memory, so its size is below 2^62 (64-bit address spaces are far smaller); array sizes are
    u32; stores stay inside the payload of an object the client was given. *)
Definition op_legal (objs : list aobj) (o : op) : Prop :=
  match o with
  | OpAlloc ob => zlen (ob_bytes ob) < 2 ^ 62
  | OpAllocArray n => 0 <= n < 2 ^ 32
  | OpWrite p off bytes =>
      exists x, In x objs /\ a_ptr x = p /\ 0 <= off /\ off + zlen bytes <= zlen (a_data x)
  end.

(** [reach E H m objs s]: some history of legal operations from an empty heap over memory [m] leads
    to state [s] with the client holding [objs]. *)
Inductive reach (E : env) (H : header_impl) (m : memory) : list aobj -> hstate -> Prop :=
| reach_init : reach E H m [] (state0 m)
| reach_step objs s o r s' :
    reach E H m objs s -> op_legal objs o -> exec E H s o = (r, s') ->
    reach E H m (abs_step H objs o r) s'.

(** Blocks granted by the system allocator during the first [n] calls. *)
Definition granted (E : env) (n : nat) : list Z :=
  flat_map (fun i => match sys E i {| l_size := 32768; l_align := 32768 |} with
                     | Some p => [p] | None => [] end) (seq 0 n).

(** ** Lines and holes of a block (256 lines of 128 bytes) *)
Definition unmarked (lines : list bool) (i : Z) : Prop := znth lines i = Some false.

(** Line [i] may be allocated into when searching from line [k]: it is unmarked and, unless it is
    line 0, the line before it is an unmarked line that was also examined (conservative marking:
    the first line of a hole is given up). *)
Definition usable (lines : list bool) (k i : Z) : Prop :=
  k <= i /\ unmarked lines i /\ (i = 0 \/ (k <= i - 1 /\ unmarked lines (i - 1))).

(** [s, e) is a maximal run of usable lines. *)
Definition usable_run (lines : list bool) (k s e : Z) : Prop :=
  s < e /\ (forall i, s <= i < e -> usable lines k i) /\ ~ usable lines k e
  /\ ~ usable lines k (s - 1).

(** Requests served by one block, in order: for each size, [Some offset] or [None]. *)
Fixpoint serve (b : bump_block) (sizes : list Z) : list (res alloc_error (option Z)) * bump_block :=
  match sizes with
  | [] => ([], b)
  | n :: r => let '(x, b1) := inner_alloc b n in
              let '(xs, b2) := serve b1 r in (x :: xs, b2)
  end.

(** The ranges of addresses handed out by a list of requests. *)
Fixpoint ranges (sizes : list Z) (results : list (res alloc_error (option Z))) : list (Z * Z) :=
  match sizes, results with
  | n :: sr, Ok (Some a) :: rr => (a, a + n) :: ranges sr rr
  | _ :: sr, _ :: rr => ranges sr rr
  | _, _ => []
  end.

(** Ranges in strictly increasing address order without overlap. *)
Fixpoint increasing (from : Z) (rs : list (Z * Z)) : Prop :=
  match rs with
  | [] => True
  | (a, b) :: r => from <= a /\ a < b /\ increasing b r
  end.

(** ** Placement *)

(** Unused bytes at the end of a block. *)
Definition unused (b : bump_block) : Z := 32768 - bb_cursor b.

(** A request of [sz] bytes needs a new block: there is no current block with room for it; medium
    requests may also use the overflow block, small ones (at most 128 bytes) may not. *)
Definition needs_block (bl : block_list) (sz : Z) : Prop :=
  match head bl with
  | None => True
  | Some hd => unused hd < sz /\
      (sz <= 128 \/ match overflow bl with None => True | Some ov => unused ov < sz end)
  end.

(** Payload size of an allocation request, and the storage it takes; [None] for stores. *)
Definition payload_of (o : op) : option Z :=
  match o with
  | OpAlloc ob => Some (zlen (ob_bytes ob))
  | OpAllocArray n => Some n
  | OpWrite _ _ _ => None
  end.

(** [n] is a power of two. *)
Definition pow2 (n : Z) : Prop := exists k, 0 <= k /\ n = 2 ^ k.

(** The block is in the recycled state: its cursor sits at its limit, and it has 256 line marks. *)
Definition recycled (b : bump_block) : Prop :=
  bb_limit b = bb_cursor b /\ 0 <= bb_cursor b <= 32768 /\ zlen (line_mark (bb_meta b)) = 256.
Definition marks (b : bump_block) : list bool := line_mark (bb_meta b).
Definition base (b : bump_block) : Z := blk_ptr (bb_block b).

(** ** Witnesses for the examples *)

(** A system allocator that grants 1000 blocks of 32768 bytes, one after the other. *)
Definition env_ex : env := {|
  sys := fun i l =>
    if ((l_size l =? 32768) && (l_align l =? 32768) && Nat.ltb i 1000)%bool
    then Some (32768 * (Z.of_nat i + 1)) else None;
  boxaddr := fun i => 16 * Z.of_nat i mod 2 ^ 64 |}.

(** One that never grants anything. *)
Definition env_none : env := {| sys := fun _ _ => None; boxaddr := fun _ => 0 |}.

(** A header type of [k] bytes: the first byte is the type id, the second the payload size. *)
Definition hdr_ex (k : nat) : header_impl := {|
  h_size := Z.of_nat k;
  h_new := fun tid n _ _ => firstn k (tid :: n :: repeat 0 k);
  h_new_array := fun n _ _ => firstn k (255 :: n :: repeat 0 k) |}.
