(** Model of the crate [stickyimmix] (crates/stickyimmix/src), function by function.
    Target: 64-bit usize.  No proofs in this file.

    Memory is a total map from addresses to bytes.  The system allocator and [Box] are an
    environment ([env]): the result of the n-th call is [sys n] / [boxaddr n]. *)
From Verif Require Import Prelude.

(** * constants.rs *)
Definition WORD : Z := 8.                                  (* size_of::<usize>(), 64-bit target *)
Definition BLOCK_SIZE_BITS : Z := 15.                      (* constants.rs:4 *)
Definition BLOCK_SIZE : Z := Z.shiftl 1 BLOCK_SIZE_BITS.   (* constants.rs:5 *)
Definition USIZE_MAX : Z := 2 ^ 64 - 1.
Definition unot (x : Z) : Z := USIZE_MAX - x.              (* [!x] on usize *)
Definition BLOCK_PTR_MASK : Z := unot (BLOCK_SIZE - 1).    (* constants.rs:7 *)
Definition LINE_SIZE_BITS : Z := 7.                        (* constants.rs:10 *)
Definition LINE_SIZE : Z := Z.shiftl 1 LINE_SIZE_BITS.     (* constants.rs:11 *)
Definition LINE_COUNT : Z := BLOCK_SIZE / LINE_SIZE.       (* constants.rs:12 *)
Definition MAX_ALLOC_SIZE : Z := 2 ^ 32 - 1.               (* constants.rs:15 *)
Definition FIRST_OBJECT_OFFSET : Z := WORD * 2.            (* constants.rs:20 *)
Definition BLOCK_CAPACITY : Z := BLOCK_SIZE - FIRST_OBJECT_OFFSET. (* constants.rs:21 *)
Definition SMALL_OBJECT_MIN : Z := 1.                      (* constants.rs:24-29 *)
Definition SMALL_OBJECT_MAX : Z := LINE_SIZE.
Definition MEDIUM_OBJECT_MIN : Z := SMALL_OBJECT_MAX + 1.
Definition MEDIUM_OBJECT_MAX : Z := BLOCK_CAPACITY.
Definition LARGE_OBJECT_MIN : Z := MEDIUM_OBJECT_MAX + 1.
Definition LARGE_OBJECT_MAX : Z := MAX_ALLOC_SIZE.

(** * allocator.rs *)

(** allocator.rs:10-16 *)
Inductive alloc_error := BadRequest | OOM.

(** allocator.rs:52-56 *)
Inductive size_class := Small | Medium | Large.

Definition size_class_eqb (a b : size_class) : bool :=
  match a, b with
  | Small, Small | Medium, Medium | Large, Large => true
  | _, _ => false
  end.

(** allocator.rs:58-67 [SizeClass::get_for_size]; [lo..=hi] patterns tried in order. *)
Definition get_for_size (object_size : Z) : res alloc_error size_class :=
  if (SMALL_OBJECT_MIN <=? object_size) && (object_size <=? SMALL_OBJECT_MAX) then Ok Small
  else if (MEDIUM_OBJECT_MIN <=? object_size) && (object_size <=? MEDIUM_OBJECT_MAX) then Ok Medium
  else if (LARGE_OBJECT_MIN <=? object_size) && (object_size <=? LARGE_OBJECT_MAX) then Ok Large
  else Err BadRequest.

(** allocator.rs:74-80 *)
Inductive mark := Allocated | Unmarked | Marked.

(** usize addition with overflow check. *)
Definition usize_add (a b : Z) : res alloc_error Z :=
  if USIZE_MAX <? a + b then Panic POverflow else Ok (a + b).

(** allocator.rs:133-136 [alloc_size_of] *)
Definition alloc_size_of (object_size : Z) : res alloc_error Z :=
  let align := WORD in
  match usize_add object_size (align - 1) with
  | Ok s => Ok (Z.land s (unot (align - 1)))
  | Err e => Err e
  | Panic p => Panic p
  end.

(** * blockmeta.rs *)

(** blockmeta.rs:5-8 *)
Record block_meta := { line_mark : list bool; block_mark : bool }.

(** blockmeta.rs:14-19 [BlockMeta::new_boxed] *)
Definition meta_new : block_meta :=
  {| line_mark := zrepeat false LINE_COUNT; block_mark := false |}.

(** blockmeta.rs:22-24 [mark_line]; [None] = index panic *)
Definition mark_line (m : block_meta) (index : Z) : option block_meta :=
  match zset (line_mark m) index true with
  | Some l => Some {| line_mark := l; block_mark := block_mark m |}
  | None => None
  end.

(** blockmeta.rs:27-29 [mark_block] *)
Definition mark_block (m : block_meta) : block_meta :=
  {| line_mark := line_mark m; block_mark := true |}.

(** blockmeta.rs:32-37 [reset] *)
Definition meta_reset (m : block_meta) : block_meta :=
  {| line_mark := map (fun _ => false) (line_mark m); block_mark := false |}.

(** blockmeta.rs:40-42 [line_iter]: the flags in order. *)
Definition line_iter (m : block_meta) : list bool := line_mark m.

(** blockmeta.rs:56-95: the loop body of [find_next_available_hole].  [lines] are the lines from
    [abs_index] on; [count], [start], [stop] are the local variables. *)
Fixpoint hole_loop (lines : list bool) (abs_index count : Z) (start : option Z) (stop : Z)
  : option (Z * Z) :=
  match lines with
  | [] => None                                                         (* :97 *)
  | marked :: rest =>
      if negb marked && (count + 1 =? 1) && (0 <? abs_index) then      (* :60-66 [continue] *)
        hole_loop rest (abs_index + 1) (count + 1) start stop
      else
        let count1 := if negb marked then count + 1 else count in
        let start1 := if negb marked                                   (* :70-72 *)
                      then match start with None => Some abs_index | Some s => Some s end
                      else start in
        let stop1 := if negb marked then abs_index + 1 else stop in    (* :75 *)
        match (if (0 <? count1) && (marked || (LINE_COUNT <=? stop1))  (* :80-87 *)
               then start1 else None) with
        | Some s => Some (s * LINE_SIZE, stop1 * LINE_SIZE)
        | None =>
            if marked                                                  (* :91-94 *)
            then hole_loop rest (abs_index + 1) 0 None stop1
            else hole_loop rest (abs_index + 1) count1 start1 stop1
        end
  end.

(** blockmeta.rs:49-98 [find_next_available_hole].  The slice [self.line_mark[starting_line..]]
    panics when [starting_line > LINE_COUNT]. *)
Definition find_next_available_hole (m : block_meta) (starting_at : Z)
  : res alloc_error (option (Z * Z)) :=
  let starting_line := starting_at / LINE_SIZE in
  if zlen (line_mark m) <? starting_line then Panic PSlice
  else Ok (hole_loop (skipn (Z.to_nat starting_line) (line_mark m)) starting_line 0 None 0).

(** * Memory and environment *)
Definition memory := Z -> Z.

(** [std::ptr::write] of a value whose representation is [bytes] at address [a]. *)
Definition mem_write (m : memory) (a : Z) (bytes : list Z) : memory :=
  fun x => if (a <=? x) && (x <? a + zlen bytes) then nth (Z.to_nat (x - a)) bytes 0 else m x.

Definition mem_read (m : memory) (a : Z) (n : nat) : list Z :=
  map (fun i => m (a + Z.of_nat i)) (seq 0 n).

(** [std::alloc::Layout] *)
Record layout := { l_size : Z; l_align : Z }.

(** The environment: the result of the n-th call to [std::alloc::alloc] with a given layout
    ([None] = null), and the address of the [Box<BlockMeta>] created after that call. *)
Record env := { sys : nat -> layout -> option Z; boxaddr : nat -> Z }.

(** The world: byte memory, number of system allocator calls made so far, and the calls to
    [std::alloc::dealloc] made so far (latest first). *)
Record world := { w_mem : memory; w_calls : nat; w_freed : list (Z * layout) }.

(** * blockalloc.rs *)

(** blockalloc.rs:27-35 *)
Inductive block_error := BlkBadRequest | BlkOOM.

(** blockalloc.rs:40-43 *)
Record block := { blk_ptr : Z; blk_size : Z }.

(** [usize::is_power_of_two] (std): exactly one bit set. *)
Definition is_power_of_two (n : Z) : bool := (0 <? n) && (Z.land n (n - 1) =? 0).

(** blockalloc.rs:96-107 [internal::alloc_block]: one call to the system allocator with
    size = align = [size]. *)
Definition alloc_block (E : env) (w : world) (size : Z) : res block_error Z * world :=
  let w' := {| w_mem := w_mem w; w_calls := S (w_calls w); w_freed := w_freed w |} in
  match sys E (w_calls w) {| l_size := size; l_align := size |} with
  | None => (Err BlkOOM, w')
  | Some p => (Ok p, w')
  end.

(** blockalloc.rs:49-58 [Block::new] *)
Definition block_new (E : env) (w : world) (size : Z) : res block_error block * world :=
  if negb (is_power_of_two size) then (Err BlkBadRequest, w)
  else match alloc_block E w size with
       | (Ok p, w') => (Ok {| blk_ptr := p; blk_size := size |}, w')
       | (Err e, w') => (Err e, w')
       | (Panic p, w') => (Panic p, w')
       end.

(** blockalloc.rs:111-117 [internal::dealloc_block] *)
Definition dealloc_block (w : world) (ptr size : Z) : world :=
  {| w_mem := w_mem w; w_calls := w_calls w;
     w_freed := (ptr, {| l_size := size; l_align := size |}) :: w_freed w |}.

(** blockalloc.rs:84-88 [Drop for Block]: releases the block. *)
Definition block_drop (w : world) (b : block) : world := dealloc_block w (blk_ptr b) (blk_size b).

(** blockalloc.rs:62-64 [into_mut_ptr(self)]: returns the pointer; [self] is consumed by value and
    [Block] implements [Drop], so the destructor runs at the end of the call. *)
Definition block_into_mut_ptr (w : world) (b : block) : Z * world :=
  (blk_ptr b, block_drop w b).

(** blockalloc.rs:72-74 [from_raw_parts] *)
Definition block_from_raw_parts (ptr size : Z) : block := {| blk_ptr := ptr; blk_size := size |}.

(** * bumpblock.rs *)

(** bumpblock.rs:9-16 [From<BlockError> for AllocError] *)
Definition from_block_error (e : block_error) : alloc_error :=
  match e with BlkBadRequest => BadRequest | BlkOOM => OOM end.

(** bumpblock.rs:25-30.  [bb_meta_addr] is the address of the boxed [BlockMeta] (the model keeps
    the metadata value itself in [bb_meta]). *)
Record bump_block := {
  bb_cursor : Z; bb_limit : Z; bb_block : block; bb_meta : block_meta; bb_meta_addr : Z }.

Definition bb_set (b : bump_block) (cursor limit : Z) : bump_block :=
  {| bb_cursor := cursor; bb_limit := limit; bb_block := bb_block b; bb_meta := bb_meta b;
     bb_meta_addr := bb_meta_addr b |}.

(** bumpblock.rs:52-56 [write]: unchecked write at an offset in the block. *)
Definition bb_write (w : world) (b : bump_block) (bytes : list Z) (offset : Z) : world :=
  {| w_mem := mem_write (w_mem w) (blk_ptr (bb_block b) + offset) bytes;
     w_calls := w_calls w; w_freed := w_freed w |}.

(** bumpblock.rs:36-48 [BumpBlock::new]: the metadata pointer goes to offset 0. *)
Definition bump_new (E : env) (w : world) : res alloc_error bump_block * world :=
  match block_new E w BLOCK_SIZE with
  | (Err e, w') => (Err (from_block_error e), w')
  | (Panic p, w') => (Panic p, w')
  | (Ok blk, w') =>
      let b := {| bb_cursor := FIRST_OBJECT_OFFSET; bb_limit := BLOCK_SIZE; bb_block := blk;
                  bb_meta := meta_new; bb_meta_addr := boxaddr E (w_calls w) |} in
      (Ok b, bb_write w' b (le_bytes 8 (bb_meta_addr b)) 0)
  end.

(** bumpblock.rs:61-79 [inner_alloc].  The recursion is on [fuel]; [PFuel] is proved unreachable
    from the fuel used by [inner_alloc].  Returns the address of the space, and the block. *)
Fixpoint inner_alloc_fuel (fuel : nat) (b : bump_block) (alloc_size : Z)
  : res alloc_error (option Z) * bump_block :=
  match fuel with
  | O => (Panic PFuel, b)
  | S fuel' =>
      match usize_add (bb_cursor b) alloc_size with                        (* :62 *)
      | Panic p => (Panic p, b)
      | Err e => (Err e, b)
      | Ok next_bump =>
          if bb_limit b <? next_bump then                                  (* :64 *)
            if bb_limit b <? BLOCK_SIZE then                               (* :65 *)
              match find_next_available_hole (bb_meta b) (bb_limit b) with (* :66 *)
              | Panic p => (Panic p, b)
              | Err e => (Err e, b)
              | Ok (Some (cursor, limit)) =>
                  inner_alloc_fuel fuel' (bb_set b cursor limit) alloc_size (* :67-69 *)
              | Ok None => (Ok None, b)
              end
            else (Ok None, b)                                              (* :73 *)
          else (Ok (Some (blk_ptr (bb_block b) + bb_cursor b)),            (* :75-77 *)
                bb_set b next_bump (bb_limit b))
      end
  end.

Definition inner_alloc (b : bump_block) (alloc_size : Z)
  : res alloc_error (option Z) * bump_block :=
  inner_alloc_fuel (S (Z.to_nat LINE_COUNT)) b alloc_size.

(** bumpblock.rs:83-85 [current_hole_size]: usize subtraction. *)
Definition current_hole_size (b : bump_block) : res alloc_error Z :=
  if bb_limit b <? bb_cursor b then Panic POverflow else Ok (bb_limit b - bb_cursor b).

(** bumpblock.rs:148, 170: the way the crate's tests put a block in the recycled state. *)
Definition recycle (b : bump_block) : bump_block := bb_set b (bb_cursor b) (bb_cursor b).

(** * heap.rs *)

(** heap.rs:21-25 *)
Record block_list := { head : option bump_block; overflow : option bump_block;
                       rest : list bump_block }.

(** heap.rs:29-35, 94-99 [BlockList::new], [StickyImmixHeap::new] *)
Definition heap_new : block_list := {| head := None; overflow := None; rest := [] |}.

Definition set_head (bl : block_list) (b : bump_block) : block_list :=
  {| head := Some b; overflow := overflow bl; rest := rest bl |}.
Definition set_overflow (bl : block_list) (b : bump_block) : block_list :=
  {| head := head bl; overflow := Some b; rest := rest bl |}.
Definition push_rest (bl : block_list) (b : bump_block) : block_list :=
  {| head := head bl; overflow := overflow bl; rest := rest bl ++ [b] |}.

(** Heap state: the block list in the [UnsafeCell] and the world. *)
Record hstate := { hs_blocks : block_list; hs_world : world }.
Definition mkhs bl w := {| hs_blocks := bl; hs_world := w |}.

(** heap.rs:40-79 [overflow_alloc] *)
Definition overflow_alloc (E : env) (s : hstate) (alloc_size : Z) : res alloc_error Z * hstate :=
  let bl := hs_blocks s in
  let w := hs_world s in
  if negb (alloc_size <=? BLOCK_CAPACITY) then (Panic PAssert, s)          (* :41 *)
  else match overflow bl with
       | Some ov =>
           match inner_alloc ov alloc_size with                            (* :47 *)
           | (Ok (Some space), ov') => (Ok space, mkhs (set_overflow bl ov') w)
           | (Ok None, ov') =>                                             (* :52-58 *)
               match bump_new E w with
               | (Err e, w') => (Err e, mkhs (set_overflow bl ov') w')
               | (Panic p, w') => (Panic p, mkhs (set_overflow bl ov') w')
               | (Ok nb, w') =>
                   match inner_alloc nb alloc_size with
                   | (Ok (Some space), nb') =>
                       (Ok space, mkhs (push_rest (set_overflow bl nb') ov') w')
                   | (Ok None, nb') =>
                       (Panic PExpect, mkhs (push_rest (set_overflow bl nb') ov') w')
                   | (Err e, nb') => (Err e, mkhs (push_rest (set_overflow bl nb') ov') w')
                   | (Panic p, nb') => (Panic p, mkhs (push_rest (set_overflow bl nb') ov') w')
                   end
               end
           | (Err e, ov') => (Err e, mkhs (set_overflow bl ov') w)
           | (Panic p, ov') => (Panic p, mkhs (set_overflow bl ov') w)
           end
       | None =>                                                           (* :63-75 *)
           match bump_new E w with
           | (Err e, w') => (Err e, mkhs bl w')
           | (Panic p, w') => (Panic p, mkhs bl w')
           | (Ok nb, w') =>
               match inner_alloc nb alloc_size with
               | (Ok (Some space), nb') => (Ok space, mkhs (set_overflow bl nb') w')
               | (Ok None, _) => (Panic PExpect, mkhs bl w')
               | (Err e, _) => (Err e, mkhs bl w')
               | (Panic p, _) => (Panic p, mkhs bl w')
               end
           end
       end.

(** heap.rs:104-158 [find_space] *)
Definition find_space (E : env) (s : hstate) (alloc_size : Z) (sc : size_class)
  : res alloc_error Z * hstate :=
  let bl := hs_blocks s in
  let w := hs_world s in
  if size_class_eqb sc Large then (Err BadRequest, s)                      (* :112-115 *)
  else match head bl with
       | Some hd =>
           match (if size_class_eqb sc Medium then current_hole_size hd else Ok 0) with
           | Panic p => (Panic p, s)
           | Err e => (Err e, s)
           | Ok hole =>
               if size_class_eqb sc Medium && (hole <? alloc_size)         (* :121-123 *)
               then overflow_alloc E s alloc_size
               else
                 match inner_alloc hd alloc_size with                      (* :126 *)
                 | (Ok (Some space), hd') => (Ok space, mkhs (set_head bl hd') w)
                 | (Ok None, hd') =>                                       (* :131-137 *)
                     match bump_new E w with
                     | (Err e, w') => (Err e, mkhs (set_head bl hd') w')
                     | (Panic p, w') => (Panic p, mkhs (set_head bl hd') w')
                     | (Ok nb, w') =>
                         match inner_alloc nb alloc_size with
                         | (Ok (Some space), nb') =>
                             (Ok space, mkhs (push_rest (set_head bl nb') hd') w')
                         | (Ok None, nb') =>
                             (Panic PExpect, mkhs (push_rest (set_head bl nb') hd') w')
                         | (Err e, nb') => (Err e, mkhs (push_rest (set_head bl nb') hd') w')
                         | (Panic p, nb') => (Panic p, mkhs (push_rest (set_head bl nb') hd') w')
                         end
                     end
                 | (Err e, hd') => (Err e, mkhs (set_head bl hd') w)
                 | (Panic p, hd') => (Panic p, mkhs (set_head bl hd') w)
                 end
           end
       | None =>                                                           (* :142-154 *)
           match bump_new E w with
           | (Err e, w') => (Err e, mkhs bl w')
           | (Panic p, w') => (Panic p, mkhs bl w')
           | (Ok nb, w') =>
               match inner_alloc nb alloc_size with
               | (Ok (Some space), nb') => (Ok space, mkhs (set_head bl nb') w')
               | (Ok None, _) => (Panic PExpect, mkhs bl w')
               | (Err e, _) => (Err e, mkhs bl w')
               | (Panic p, _) => (Panic p, mkhs bl w')
               end
           end
       end.

(** allocator.rs:99-123 [AllocHeader]: what the client supplies.  [h_size] is [size_of::<H>()];
    [h_new tid size class mark] and [h_new_array size class mark] are the byte representations of
    the headers built by the client's [new::<O>] (with [O::TYPE_ID = tid]) and [new_array]. *)
Record header_impl := {
  h_size : Z;
  h_new : Z -> Z -> size_class -> mark -> list Z;
  h_new_array : Z -> size_class -> mark -> list Z }.

(** A Rust value to be moved into the heap: its type id and its object representation
    ([size_of::<T>()] is the number of bytes). *)
Record object := { ob_tid : Z; ob_bytes : list Z }.

Definition w_write (s : hstate) (a : Z) (bytes : list Z) : hstate :=
  mkhs (hs_blocks s)
       {| w_mem := mem_write (w_mem (hs_world s)) a bytes;
          w_calls := w_calls (hs_world s); w_freed := w_freed (hs_world s) |}.

(** [x as u32] *)
Definition as_u32 (x : Z) : Z := x mod 2 ^ 32.

(** heap.rs:167-199 [alloc] *)
Definition alloc (E : env) (H : header_impl) (s : hstate) (o : object) : res alloc_error Z * hstate :=
  let header_size := h_size H in
  let object_size := zlen (ob_bytes o) in
  match usize_add header_size object_size with                             (* :174 *)
  | Panic p => (Panic p, s)
  | Err e => (Err e, s)
  | Ok total_size =>
      match alloc_size_of total_size with                                  (* :177 *)
      | Panic p => (Panic p, s)
      | Err e => (Err e, s)
      | Ok alloc_size =>
          match get_for_size alloc_size with                               (* :178 *)
          | Panic p => (Panic p, s)
          | Err e => (Err e, s)
          | Ok sc =>
              match find_space E s alloc_size sc with                      (* :181 *)
              | (Panic p, s1) => (Panic p, s1)
              | (Err e, s1) => (Err e, s1)
              | (Ok space, s1) =>
                  let header := h_new H (ob_tid o) (as_u32 object_size) sc Allocated in (* :184 *)
                  let s2 := w_write s1 space header in                     (* :187-189 *)
                  let object_space := space + header_size in               (* :192 *)
                  let s3 := w_write s2 object_space (ob_bytes o) in        (* :193-195 *)
                  (Ok object_space, s3)                                    (* :198 *)
              end
          end
      end
  end.

(** heap.rs:205-239 [alloc_array]; [size_bytes] is a u32. *)
Definition alloc_array (E : env) (H : header_impl) (s : hstate) (size_bytes : Z)
  : res alloc_error Z * hstate :=
  let header_size := h_size H in
  match usize_add header_size size_bytes with                              (* :208 *)
  | Panic p => (Panic p, s)
  | Err e => (Err e, s)
  | Ok total_size =>
      match alloc_size_of total_size with                                  (* :211 *)
      | Panic p => (Panic p, s)
      | Err e => (Err e, s)
      | Ok alloc_size =>
          match get_for_size alloc_size with                               (* :212 *)
          | Panic p => (Panic p, s)
          | Err e => (Err e, s)
          | Ok sc =>
              match find_space E s alloc_size sc with                      (* :215 *)
              | (Panic p, s1) => (Panic p, s1)
              | (Err e, s1) => (Err e, s1)
              | (Ok space, s1) =>
                  let header := h_new_array H size_bytes sc Allocated in   (* :218 *)
                  let s2 := w_write s1 space header in                     (* :221-223 *)
                  let array_space := space + header_size in                (* :226 *)
                  let s3 := w_write s2 array_space (zrepeat 0 size_bytes) in (* :231-235 *)
                  (Ok array_space, s3)                                     (* :238 *)
              end
          end
      end
  end.

(** heap.rs:244-246 [get_header]: [cast::<H>().offset(-1)] *)
Definition get_header (H : header_impl) (obj : Z) : Z := obj - h_size H.

(** heap.rs:251-253 [get_object]: [offset(1)] on a [*H] *)
Definition get_object (H : header_impl) (hdr : Z) : Z := hdr + h_size H.

(** Dropping a [StickyImmixHeap] (compiler-generated drop glue of [BlockList], heap.rs:21-25):
    fields in declaration order, each [BumpBlock] dropping its [Block] (blockalloc.rs:84-88). *)
Definition opt_list {A} (o : option A) : list A := match o with Some x => [x] | None => [] end.
Definition heap_blocks (bl : block_list) : list bump_block :=
  opt_list (head bl) ++ opt_list (overflow bl) ++ rest bl.
Definition heap_drop (s : hstate) : world :=
  fold_left (fun w b => block_drop w (bb_block b)) (heap_blocks (hs_blocks s)) (hs_world s).

(** * rawptr.rs: a [RawPtr] is its address; [==] (rawptr.rs:56-60) compares addresses;
    [as_word] (rawptr.rs:25-27) is the address. *)
Definition rawptr_eq (a b : Z) : bool := a =? b.
Definition rawptr_as_word (a : Z) : Z := a.

(** * Client-visible operations, used to speak about histories. *)
Inductive op :=
| OpAlloc (o : object)
| OpAllocArray (size_bytes : Z)
| OpWrite (ptr off : Z) (bytes : list Z).   (* client stores through [RawPtr::as_mut_ref] *)

Definition exec (E : env) (H : header_impl) (s : hstate) (o : op) : res alloc_error Z * hstate :=
  match o with
  | OpAlloc ob => alloc E H s ob
  | OpAllocArray n => alloc_array E H s n
  | OpWrite p off bytes => (Ok p, w_write s (p + off) bytes)
  end.

(** Run a history, returning the result of each operation in order and the final state. *)
Fixpoint run (E : env) (H : header_impl) (s : hstate) (ops : list op)
  : list (res alloc_error Z) * hstate :=
  match ops with
  | [] => ([], s)
  | o :: r =>
      let '(x, s1) := exec E H s o in
      let '(xs, s2) := run E H s1 r in
      (x :: xs, s2)
  end.

Definition world0 (m : memory) : world := {| w_mem := m; w_calls := 0; w_freed := [] |}.
Definition state0 (m : memory) : hstate := mkhs heap_new (world0 m).
