(** Library functions the crate [brass] relies on, modelled from their documentation:
    [String::from_utf8_lossy], string slicing, and CRC-32 (crate crc32fast).  No proofs here.
    These are outside /repo; the code modelled calls them at the places cited. *)
From Verif Require Import Prelude.

(** A Rust [String]/[&str] is its list of UTF-8 bytes. *)
Definition str := list Z.

(** * UTF-8 *)
Definition in_range (lo hi b : Z) : bool := (lo <=? b) && (b <=? hi).
Definition is_cont (b : Z) : bool := in_range 128 191 b.

(** Length of the well-formed character at the head of [s], or of the ill-formed prefix to be
    replaced (std [Utf8Chunks]: maximal subpart): [(true, n)] / [(false, n)].  [s] is non-empty. *)
Definition utf8_head (s : list Z) : bool * nat :=
  match s with
  | [] => (false, 0%nat)
  | b0 :: r =>
      let b1 := nth 0 r 0 in
      let b2 := nth 1 r 0 in
      let b3 := nth 2 r 0 in
      if b0 <? 128 then (true, 1%nat)
      else if in_range 194 223 b0 then
        if is_cont b1 then (true, 2%nat) else (false, 1%nat)
      else if in_range 224 239 b0 then
        if negb (if b0 =? 224 then in_range 160 191 b1
                 else if b0 =? 237 then in_range 128 159 b1 else is_cont b1) then (false, 1%nat)
        else if negb (is_cont b2) then (false, 2%nat)
        else (true, 3%nat)
      else if in_range 240 244 b0 then
        if negb (if b0 =? 240 then in_range 144 191 b1
                 else if b0 =? 244 then in_range 128 143 b1 else is_cont b1) then (false, 1%nat)
        else if negb (is_cont b2) then (false, 2%nat)
        else if negb (is_cont b3) then (false, 3%nat)
        else (true, 4%nat)
      else (false, 1%nat)
  end.

(** U+FFFD *)
Definition replacement : list Z := [239; 191; 189].

(** [String::from_utf8_lossy] (used at code.rs:397).  Recursion on [fuel]; the fuel used,
    [length s], always suffices. *)
Fixpoint lossy_fuel (fuel : nat) (s : list Z) : str :=
  match fuel with
  | O => []
  | S f =>
      match s with
      | [] => []
      | _ => match utf8_head s with
             | (true, n) => firstn n s ++ lossy_fuel f (skipn n s)
             | (false, n) => replacement ++ lossy_fuel f (skipn n s)
             end
      end
  end.
Definition from_utf8_lossy (s : list Z) : str := lossy_fuel (length s) s.

(** [str::is_char_boundary] *)
Definition is_char_boundary (s : str) (i : Z) : bool :=
  if i =? 0 then true
  else if i =? zlen s then true
  else match znth s i with Some b => negb (is_cont b) | None => false end.

(** [&s[a..]] and [&s[0..n]] on a [str]: [None] = panic. *)
Definition str_from (s : str) (a : Z) : option str :=
  if is_char_boundary s a then Some (skipn (Z.to_nat a) s) else None.
Definition str_to (s : str) (n : Z) : option str :=
  if is_char_boundary s n then Some (firstn (Z.to_nat n) s) else None.

(** * CRC-32 (IEEE, reflected polynomial 0xEDB88320), as computed by crc32fast *)
Definition crc_poly : Z := 3988292384.
Definition crc_ones : Z := 4294967295.
Definition crc_bit (c : Z) : Z := if Z.odd c then Z.lxor (c / 2) crc_poly else c / 2.
Definition crc_byte (c b : Z) : Z := Nat.iter 8 crc_bit (Z.lxor c b).

(** A [crc32fast::Hasher]: its running register.  [new], [update], [finalize]. *)
Definition hasher := Z.
Definition hasher_new : hasher := crc_ones.
Definition hasher_write (h : hasher) (bs : list Z) : hasher := fold_left crc_byte bs h.
Definition hasher_finalize (h : hasher) : Z := Z.lxor h crc_ones.

(** [crc32fast::hash] *)
Definition crc32 (bs : list Z) : Z := hasher_finalize (hasher_write hasher_new bs).

(** [std::hash::Hasher::write_*]: native-endian bytes, little-endian on the modelled target. *)
Definition write_u8 (h : hasher) (v : Z) : hasher := hasher_write h [v].
Definition write_u32 (h : hasher) (v : Z) : hasher := hasher_write h (le_bytes 4 (v mod 2 ^ 32)).
Definition write_i32 (h : hasher) (v : Z) : hasher := hasher_write h (le_bytes 4 (v mod 2 ^ 32)).
Definition write_usize (h : hasher) (v : Z) : hasher := hasher_write h (le_bytes 8 (v mod 2 ^ 64)).
Definition write_isize (h : hasher) (v : Z) : hasher := hasher_write h (le_bytes 8 (v mod 2 ^ 64)).
