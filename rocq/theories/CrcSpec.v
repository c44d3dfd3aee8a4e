(** What CRC-32 is (IEEE 802.3, section 3.2.9), independently of how it is computed: the remainder of a division of
    polynomials over GF(2).  A polynomial is a non-negative integer; bit [i] is the coefficient of x^i, so that
    [Z.lxor] is the sum and doubling is the multiplication by x. *)
From Verif Require Import Prelude.

(** Product of polynomials. *)
Fixpoint gf2_mul_pos (p : positive) (g : Z) : Z :=
  match p with
  | xH => g
  | xO p' => 2 * gf2_mul_pos p' g
  | xI p' => Z.lxor g (2 * gf2_mul_pos p' g)
  end.
Definition gf2_mul (f g : Z) : Z := match f with Zpos p => gf2_mul_pos p g | _ => 0 end.

(** x^32 + x^26 + x^23 + x^22 + x^16 + x^12 + x^11 + x^10 + x^8 + x^7 + x^5 + x^4 + x^2 + x + 1 *)
Definition crc32_generator : Z :=
  fold_right Z.add 0 (map (Z.pow 2) [32; 26; 23; 22; 16; 12; 11; 10; 8; 7; 5; 4; 2; 1; 0]).

(** [r] is the remainder of [f] divided by the generator. *)
Definition crc32_remainder (f r : Z) : Prop :=
  0 <= r < 2 ^ 32 /\ exists q, 0 <= q /\ f = Z.lxor (gf2_mul q crc32_generator) r.

(** The bits of a message in the order of transmission: bytes in order, least significant bit first. *)
Definition byte_bits (b : Z) : list bool := map (fun i => Z.odd (b / 2 ^ i)) [0; 1; 2; 3; 4; 5; 6; 7].
Definition message_bits (m : list Z) : list bool := flat_map byte_bits m.
(** The first bit is the coefficient of the highest power. *)
Definition polynomial (bits : list bool) : Z := fold_left (fun f (b : bool) => 2 * f + (if b then 1 else 0)) bits 0.

(** [v] is the CRC-32 of [m]: complement the first 32 bits of the message followed by 32 zero bits, take the remainder,
    and send its complement, again least significant bit of [v] first (= coefficient of x^31). *)
Definition is_crc32 (m : list Z) (v : Z) : Prop :=
  0 <= v < 2 ^ 32 /\ exists r,
    crc32_remainder (Z.lxor (polynomial (message_bits m) * 2 ^ 32) ((2 ^ 32 - 1) * 2 ^ (8 * zlen m))) r /\
    forall i, 0 <= i < 32 -> Z.testbit v i = negb (Z.testbit r (31 - i)).
