(** [Code::read] compiled without overflow checks (the release profile).  The only arithmetic of
    decoder.rs and code.rs that can overflow is [curline += ...] on [i32] in [debug_infos]
    (code.rs:569 and 571; see [i32_add] in CodeModel.v): here it wraps around.  The functions below are those
    of CodeModel.v that reach it, unchanged otherwise.  No proofs here. *)
From Verif Require Import Prelude StdModel BrassTypes DecoderModel CodeModel.

(** [x + y] on i32, wrapping around *)
Definition i32_wrapping_add (x y : Z) : Z := let v := (x + y) mod 2 ^ 32 in if v <? 2 ^ 31 then v else v - 2 ^ 32.

(** code.rs:545-586 *)
Fixpoint release_debug_loop (fuel : nat) (nops i curfile curline : Z) (debug : list Z) : M (list Z) :=
  match fuel with
  | O => crash PFuel
  | S fuel' =>
      if i <? nops then
        c <- unwrap decode_u8 ;;
        if negb (Z.land c 1 =? 0) then                                (* :547-554 *)
          b <- unwrap decode_u8 ;;
          let curfile' := Z.lor (Z.shiftl (Z.shiftr c 1) 8) b in
          cd <- get_code ;;
          n <- to_i32 (c_ndebugfiles cd) ;;
          p <- get_pos ;;
          (if n <=? curfile' then record_error (with_info InvalidDebugFile p) else ret tt) ;;;
          release_debug_loop fuel' nops i curfile' curline debug
        else if negb (Z.land c 2 =? 0) then                           (* :555-569 *)
          let delta := Z.shiftr c 6 in
          let count := Z.land (Z.shiftr c 2) 15 in
          p <- get_pos ;;
          (if nops <? i + count then record_error (with_info OutsideRange p) else ret tt) ;;;
          release_debug_loop fuel' nops i curfile (i32_wrapping_add curline delta) debug
        else if negb (Z.land c 4 =? 0) then                           (* :570-574 *)
          let curline' := i32_wrapping_add curline (Z.shiftr c 3) in
          debug' <- debug_store debug i curfile curline' ;;
          release_debug_loop fuel' nops (i + 1) curfile curline' debug'
        else                                                          (* :575-585 *)
          b2 <- unwrap decode_u8 ;;
          b3 <- unwrap decode_u8 ;;
          let curline' := Z.lor (Z.lor (Z.shiftr c 3) (Z.shiftl b2 5 mod 256)) b3 in
          debug' <- debug_store debug i curfile curline' ;;
          release_debug_loop fuel' nops (i + 1) curfile curline' debug'
      else ret debug
  end.
(** code.rs:537-588 *)
Definition release_debug_infos (nops : Z) : M (list Z) := fun s =>
  release_debug_loop (S (length (d_buf s))) nops 0 (-1) 0 (zrepeat 0 (2 * nops)) s.
(** code.rs:765-785 *)
Definition release_function_entry (i : Z) (c : code) : M code :=
  put_code c ;;;
  f <- unwrap_mapped read_function ;;
  dc <- get_code ;;
  put_code (set_functions (c_functions dc ++ [f]) dc) ;;;
  dc <- get_code ;;
  (if negb (c_hasdebug dc =? 0) then
     fi <- expect PIndex (znth (c_functions dc) i) ;;
     r <- ok_mapped (release_debug_infos (hf_nops fi)) ;;
     (match r with
      | Some d =>
          dc <- get_code ;;
          fi <- expect PIndex (znth (c_functions dc) i) ;;
          fs <- expect PIndex (zset (c_functions dc) i (hf_set_debug fi d)) ;;
          put_code (set_functions fs dc)
      | None => ret tt
      end) ;;;
     (if 3 <=? c_version dc then skip_assigns else ret tt)
   else ret tt) ;;;
  get_code.
Definition release_functions (c : code) : M code :=
  c <- for_range (c_nfunctions c) release_function_entry c ;;
  check_error ;;; ret c.
(** code.rs:607-806 *)
Definition release_code_read : M code :=
  let c := code_new in
  c <- read_magic c ;;
  c <- read_counts c ;;
  c <- read_ints c ;;
  c <- read_floats c ;;
  c <- read_string_table c ;;
  c <- read_bytes_section c ;;
  c <- read_debugfiles c ;;
  c <- read_types c ;;
  c <- read_globals c ;;
  c <- read_natives c ;;
  c <- release_functions c ;;
  c <- read_constants c ;;
  get_code.
Definition release_read_module (errs0 : option derr) (buf : list Z) : res derr code * option derr :=
  let '(r, s) := release_code_read (start errs0 buf) in (r, errs s).
