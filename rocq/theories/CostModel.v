(** The reader of crates/brass/src/code.rs once more, with its cost: how many turns its loops take, how many
    entries of tables it copies with [clone()], and how many entries it writes with [vec![x; n]].  No proofs here.

    The functions below have the same text as those of CodeModel.v (this file is generated from it by
    /verif/gen_cost.py), plus a mark [copy n] wherever the code clones tables of [n] entries, and [fill n]
    for [vec![x; n]]; functions with none of these are taken over as they are ([free]).  CostProofs.v proves that the outcomes are
    those of CodeModel.v.  Not counted: what is owned by an entry (strings, types inside types), the shifting
    of entries by [Vec::insert], and vectors of one entry. *)
From Verif Require Import Prelude StdModel BrassTypes.
From Verif Require DecoderModel CodeModel.
Notation st := DecoderModel.st. Notation d_buf := DecoderModel.d_buf. Notation d_code := DecoderModel.d_code. Notation d_pos := DecoderModel.d_pos.

Record cost := { turns : Z; copied : Z; filled : Z }.
Definition none : cost := {| turns := 0; copied := 0; filled := 0 |}.
Definition plus (x y : cost) : cost := {| turns := turns x + turns y; copied := copied x + copied y; filled := filled x + filled y |}.

Definition M (A : Type) := st -> (res derr A * st) * cost.
(** a computation of CodeModel.v that costs nothing *)
Definition free {A} (m : DecoderModel.M A) : M A := fun s => (m s, none).
Definition ret {A} (a : A) : M A := free (DecoderModel.ret a).
Definition bind {A B} (m : M A) (k : A -> M B) : M B := fun s =>
  match m s with
  | ((Ok a, s'), t) => let (r, t') := k a s' in (r, plus t t')
  | ((Err e, s'), t) => ((Err e, s'), t)
  | ((Panic p, s'), t) => ((Panic p, s'), t)
  end.
Notation "x <- m ;; k" := (bind m (fun x => k)) (at level 61, m at next level, right associativity).
Notation "m ;;; k" := (bind m (fun _ => k)) (at level 61, right associativity).
Definition turn : M unit := fun s => ((Ok tt, s), {| turns := 1; copied := 0; filled := 0 |}).
Definition copy (n : Z) : M unit := fun s => ((Ok tt, s), {| turns := 0; copied := n; filled := 0 |}).
Definition fill (n : Z) : M unit := fun s => ((Ok tt, s), {| turns := 0; copied := 0; filled := Z.max 0 n |}).
(** [.unwrap()], [.map_err(Code::map_err).unwrap()], [if let Ok(..) = ..map_err(..)], [if let Ok(..)]: as in DecoderModel.v *)
Definition on {A B} (f : DecoderModel.M A -> DecoderModel.M B) (m : M A) : M B := fun s =>
  let (r, t) := m s in (f (fun _ => r) s, t).
Definition unwrap {A} (m : M A) : M A := on DecoderModel.unwrap m.
Definition unwrap_mapped {A} (m : M A) : M A := on DecoderModel.unwrap_mapped m.
Definition ok_mapped {A} (m : M A) : M (option A) := on DecoderModel.ok_mapped m.
Definition ok {A} (m : M A) : M (option A) := on DecoderModel.ok m.
Fixpoint for_loop {A} (n : nat) (i : Z) (body : Z -> A -> M A) (acc : A) : M A :=
  match n with
  | O => ret acc
  | S n' => turn ;;; acc' <- body i acc ;; for_loop n' (i + 1) body acc'
  end.
Definition for_range {A} (n : Z) (body : Z -> A -> M A) (acc : A) : M A := for_loop (Z.to_nat n) 0 body acc.

Definition throw {A} (e : derr) : M A := free (DecoderModel.throw e).
Definition crash {A} (p : panic) : M A := free (DecoderModel.crash p).
Definition get_pos : M Z := free DecoderModel.get_pos.
Definition get_code : M code := free DecoderModel.get_code.
Definition put_code (c : code) : M unit := free (DecoderModel.put_code c).
Definition expect {A} (p : panic) (o : option A) : M A := free (DecoderModel.expect p o).
Definition record_error (e : derr) : M unit := free (DecoderModel.record_error e).
Definition map_err (e : derr) : M unit := free (DecoderModel.map_err e).
Definition check_error : M unit := free DecoderModel.check_error.
Definition vec_insert {A} (l : list A) (i : Z) (x : A) : M (list A) := free (DecoderModel.vec_insert l i x).
Definition advance (n : Z) : M unit := free (DecoderModel.advance n).
Definition read_bytes (n : Z) : M (list Z) := free (DecoderModel.read_bytes n).
Definition decode_u8 : M Z := free DecoderModel.decode_u8.
Definition decode_i32 : M Z := free DecoderModel.decode_i32.
Definition decode_f64 : M Z := free DecoderModel.decode_f64.
Definition INDEX : M Z := free DecoderModel.INDEX.
Definition UINDEX : M Z := free DecoderModel.UINDEX.
Definition to_i32 (x : Z) : M Z := free (CodeModel.to_i32 x).
Definition lift {A} (r : res derr A) : M A := free (CodeModel.lift r).
Definition i32_add (x y : Z) : M Z := free (CodeModel.i32_add x y).
Definition debug_store (debug : list Z) (i curfile curline : Z) : M (list Z) := free (CodeModel.debug_store debug i curfile curline).
Definition read_magic (c : code) : M code := free (CodeModel.read_magic c).
Definition read_count (set : Z -> code -> code) (c : code) : M code := free (CodeModel.read_count set c).
Definition read_counts (c : code) : M code := free (CodeModel.read_counts c).
Notation get_ustring := CodeModel.get_ustring. Notation i32_as_usize := CodeModel.i32_as_usize. Notation mkop := CodeModel.mkop.

(** entries of the tables of a module: what [Code::clone] (derived, code.rs:51) copies *)
Definition entries (c : code) : Z :=
  zlen (c_ints c) + zlen (c_floats c) + zlen (c_strings c) + zlen (c_strings_lens c) + zlen (c_bytes c) + zlen (c_bytes_pos c) + zlen (c_debugfiles c) +
  zlen (c_debugfiles_lens c) + zlen (c_ustrings c) + zlen (c_types c) + zlen (c_globals c) + zlen (c_natives c) + zlen (c_functions c) + zlen (c_constants c).
(** [decoder.code = c.clone()] *)
Definition put_clone (c : code) : M unit := copy (entries c) ;;; put_code c.
(** [c = decoder.code.clone()] *)
Definition get_clone : M code := dc <- get_code ;; copy (entries dc) ;;; get_code.
(** code.rs:132, 136: tables cloned by a look-up in the name cache *)
Definition ustring_copies (c : code) (index : Z) : Z :=
  zlen (c_ustrings c) + match znth (c_ustrings c) index with Some None => zlen (c_strings c) | _ => 0 end.

(** code.rs:115-129 *)
Definition read_string : M str :=
  index <- unwrap_mapped INDEX ;;
  c <- get_code ;;
  n <- to_i32 (c_nstrings c) ;;
  if (index <? 0) || (n <=? index) then
    p <- get_pos ;; record_error (with_info InvalidStringIndex p) ;;; ret []
  else copy (zlen (c_strings c)) ;;; expect PUnwrap (znth (c_strings c) index).

(** code.rs:153-167 *)
Definition read_ustring : M str :=
  index <- unwrap INDEX ;;
  c <- get_code ;;
  n <- to_i32 (c_nstrings c) ;;
  if (index <? 0) || (n <=? index) then
    p <- get_pos ;; record_error (with_info InvalidStringIndex p) ;;; ret []
  else
    copy (ustring_copies c index) ;;; r <- lift (get_ustring c index) ;;
    put_code (snd r) ;;; ret (fst r).

(** code.rs:169-188 *)
Definition get_type : M vtype :=
  index <- unwrap INDEX ;;
  c <- get_code ;;
  n <- to_i32 (c_ntypes c) ;;
  if (index <? 0) || (n <=? index) then
    p <- get_pos ;; record_error (with_info InvalidTypeIndex p) ;;;
    copy (zlen (c_types c)) ;;; expect PUnwrap (znth (c_types c) 0)
  else copy (zlen (c_types c)) ;;; expect PUnwrap (znth (c_types c) index).

(** code.rs:273-283, 319-329: reading [n] fields *)
Definition read_fields (n : Z) : M (list (obj_field vtype)) :=
  for_range n (fun i fields =>
    name <- unwrap read_ustring ;;
    t <- unwrap get_type ;;
    vec_insert fields i (mkField name (crc32 name) t)) [].

(** code.rs:284-295 *)
Definition read_protos (n : Z) : M (list obj_proto) :=
  for_range n (fun i protos =>
    name <- unwrap read_ustring ;;
    findex <- unwrap UINDEX ;;
    pindex <- unwrap INDEX ;;
    vec_insert protos i (mkProto name (crc32 name) findex pindex)) [].

(** code.rs:296-299 *)
Definition read_bindings (n : Z) : M (list Z) :=
  for_range n (fun i l =>
    a <- unwrap UINDEX ;;
    l1 <- vec_insert l (2 * i) a ;;
    b <- unwrap UINDEX ;;
    vec_insert l1 (2 * i + 1) b) [].

(** code.rs:223-225 and 363-365: reading [n] type references *)
Definition read_type_refs (n : Z) : M (list vtype) :=
  for_range n (fun i args => t <- unwrap get_type ;; vec_insert args i t) [].

(** code.rs:352-368 *)
Definition read_constructs (n : Z) : M (list (enum_construct vtype)) :=
  for_range n (fun i cons_ =>
    name <- unwrap read_ustring ;;
    nparams <- unwrap UINDEX ;;
    params <- read_type_refs nparams ;;
    vec_insert cons_ i (mkCon name nparams params 0 false [])) [].

(** code.rs:190-388 [read_type]: [t] is a default type on entry; returns the final [t]. *)
Definition read_type : M vtype :=
  v <- unwrap decode_u8 ;;
  if HLAST <=? v then                                                 (* :196-202 *)
    p <- get_pos ;; map_err (with_info InvalidType p) ;;; ret vt_default
  else if (v =? HFUN) || (v =? HMETHOD) then                          (* :209-231 *)
    nargs <- unwrap decode_u8 ;;
    args <- read_type_refs nargs ;;
    r <- unwrap get_type ;;
    ret (VT (FuncType args nargs r) None None v)
  else if (v =? HOBJ) || (v =? HSTRUCT) then                          (* :232-303 *)
    name <- unwrap read_ustring ;;
    super_index <- unwrap INDEX ;;
    c <- get_code ;;
    super <- (if super_index <? 0 then ret vt_default
              else copy (zlen (c_types c)) ;;; expect PUnwrap (znth (c_types c) super_index)) ;;
    g <- unwrap UINDEX ;;
    nfields <- unwrap UINDEX ;;
    nproto <- unwrap UINDEX ;;
    nbindings <- unwrap UINDEX ;;
    fields <- read_fields nfields ;;
    proto <- read_protos nproto ;;
    bindings <- read_bindings nbindings ;;
    ret (VT (ObjType name super fields nfields nproto nbindings proto bindings [g] None) None None v)
  else if v =? HREF then                                              (* :304-306 *)
    t <- unwrap get_type ;; ret (VT UNull None (Some t) v)
  else if v =? HVIRTUAL then                                          (* :307-333 *)
    nfields <- unwrap UINDEX ;;
    fields <- read_fields nfields ;;
    ret (VT (VirtualType nfields fields) None None v)
  else if v =? HABSTRACT then                                         (* :334-336 *)
    name <- unwrap read_ustring ;; ret (VT UNull (Some name) None v)
  else if v =? HENUM then                                             (* :337-372 *)
    name <- unwrap read_ustring ;;
    g <- unwrap UINDEX ;;
    nconstructs <- unwrap UINDEX ;;
    constructs <- read_constructs nconstructs ;;
    ret (VT (EnumType name nconstructs constructs [g]) None None v)
  else if (v =? HNULL) || (v =? HPACKED) then                         (* :373-375 *)
    t <- unwrap get_type ;; ret (VT UNull None (Some t) v)
  else ret (VT UNull None None v).                                    (* :376-384; kind < HLAST *)

(** code.rs:403-415: the loop of [read_strings]; [n] iterations left. *)
Fixpoint strings_loop (n : nat) (text : str) (cursor : Z) (strings : list str) (lens : list Z)
  : M (list str * list Z) :=
  match n with
  | O => ret (strings, lens)
  | S n' =>
      turn ;;;
      sz <- unwrap UINDEX ;;
      tail <- expect PSlice (str_from text cursor) ;;
      s <- expect PSlice (str_to tail sz) ;;
      let strings' := strings ++ [s] in
      let lens' := lens ++ [zlen s] in
      let cursor' := cursor + sz in
      if zlen text <=? cursor' then ret (strings', lens')
      else strings_loop n' text (cursor' + 1) strings' lens'
  end.

(** code.rs:390-418 [read_strings]; returns the strings and the updated [out_lens]. *)
Definition read_strings (nstrings : Z) (out_lens : list Z) : M (list str * list Z) :=
  size0 <- unwrap decode_i32 ;;
  let size := i32_as_usize size0 in
  slice <- free (fun s => if zlen (d_buf s) <? size then (Panic PSlice, s)
                     else (Ok (firstn (Z.to_nat size) (d_buf s)), s)) ;;
  let text := from_utf8_lossy slice in
  advance size ;;;
  strings_loop (Z.to_nat nstrings) text 0 [] out_lens.

(** code.rs:494-497, 506-509, 527-530: [n] operands inserted in a vector of [n] zeros *)
Definition read_extra (read : M Z) (n : Z) : M (list Z) :=
  fill n ;;; for_range n (fun i l => x <- unwrap read ;; vec_insert l i x) (zrepeat 0 n).

(** code.rs:448-535 [read_opcode] *)
Definition read_opcode : M opcode :=
  n <- unwrap decode_u8 ;;
  if 99 <=? n then                                                    (* :451-459 *)
    p <- get_pos ;; record_error (with_info InvalidOpcode p) ;;; ret opcode_default
  else
    nargs <- expect PUnwrap (znth OP_NARGS n) ;;                      (* :463 *)
    if nargs =? 0 then ret (mkop n None None None [])
    else if nargs =? 1 then
      p1 <- unwrap INDEX ;; ret (mkop n (Some p1) None None [])
    else if nargs =? 2 then
      p1 <- unwrap INDEX ;; p2 <- unwrap INDEX ;; ret (mkop n (Some p1) (Some p2) None [])
    else if nargs =? 3 then
      p1 <- unwrap INDEX ;; p2 <- unwrap INDEX ;; p3 <- unwrap INDEX ;;
      ret (mkop n (Some p1) (Some p2) (Some p3) [])
    else if nargs =? 4 then                                           (* :478-484 *)
      p1 <- unwrap INDEX ;; p2 <- unwrap INDEX ;; p3 <- unwrap INDEX ;;
      x <- unwrap INDEX ;;
      ret (mkop n (Some p1) (Some p2) (Some p3) [x])
    else if nargs =? -1 then
      if (n =? OCallN) || (n =? OCallClosure) || (n =? OCallMethod) || (n =? OCallThis)
         || (n =? OMakeEnum) then                                     (* :486-498 *)
        p1 <- unwrap INDEX ;; p2 <- unwrap INDEX ;; p3 <- unwrap decode_u8 ;;
        extra <- read_extra INDEX p3 ;;
        ret (mkop n (Some p1) (Some p2) (Some p3) extra)
      else if n =? OSwitch then                                       (* :499-511 *)
        p1 <- unwrap UINDEX ;; p2 <- unwrap UINDEX ;;
        extra <- read_extra UINDEX p2 ;;
        p3 <- unwrap UINDEX ;;
        ret (mkop n (Some p1) (Some p2) (Some p3) extra)
      else p <- get_pos ;; throw (with_info CouldNotProcessOpcode p)  (* :512-517 *)
    else                                                              (* :519-531 *)
      let size := nargs - 3 in
      p1 <- unwrap INDEX ;; p2 <- unwrap INDEX ;; p3 <- unwrap INDEX ;;
      (if size <? 0 then crash PTryInto else ret tt) ;;;
      extra <- read_extra INDEX size ;;
      ret (mkop n (Some p1) (Some p2) (Some p3) extra).

(** code.rs:420-446 [read_function] *)
Definition read_function : M hl_function :=
  t <- unwrap get_type ;;
  findex <- unwrap UINDEX ;;
  nregs <- unwrap UINDEX ;;
  nops <- unwrap UINDEX ;;
  regs <- for_range nregs (fun i regs =>
            t <- unwrap_mapped get_type ;; vec_insert regs i t) [] ;;
  e <- ok check_error ;;                                              (* :437-439 *)
  match e with
  | None => ret (mkFun t findex nregs nops 0 regs [] [] None None)
  | Some _ =>
      ops <- for_range nops (fun i ops => o <- unwrap read_opcode ;; vec_insert ops i o) [] ;;
      ret (mkFun t findex nregs nops 0 regs ops [] None None)
  end.

(** code.rs:545-586: the loop of [debug_infos].  Each iteration reads at least one byte, so the
    fuel [S (length buf)] used below never runs out ([PFuel] is proved unreachable).
    :564-568: the body of [for _j in count..0] never runs, since [count >= 0]. *)
Fixpoint debug_loop (fuel : nat) (nops i curfile curline : Z) (debug : list Z) : M (list Z) :=
  match fuel with
  | O => crash PFuel
  | S fuel' =>
      if i <? nops then
        turn ;;;
        c <- unwrap decode_u8 ;;
        if negb (Z.land c 1 =? 0) then                                (* :547-554 *)
          b <- unwrap decode_u8 ;;
          let curfile' := Z.lor (Z.shiftl (Z.shiftr c 1) 8) b in
          cd <- get_code ;;
          n <- to_i32 (c_ndebugfiles cd) ;;
          p <- get_pos ;;
          (if n <=? curfile' then record_error (with_info InvalidDebugFile p) else ret tt) ;;;
          debug_loop fuel' nops i curfile' curline debug
        else if negb (Z.land c 2 =? 0) then                           (* :555-569 *)
          let delta := Z.shiftr c 6 in
          let count := Z.land (Z.shiftr c 2) 15 in
          p <- get_pos ;;
          (if nops <? i + count then record_error (with_info OutsideRange p) else ret tt) ;;;
          curline' <- i32_add curline delta ;;
          debug_loop fuel' nops i curfile curline' debug
        else if negb (Z.land c 4 =? 0) then                           (* :570-574 *)
          curline' <- i32_add curline (Z.shiftr c 3) ;;
          debug' <- debug_store debug i curfile curline' ;;
          debug_loop fuel' nops (i + 1) curfile curline' debug'
        else                                                          (* :575-585 *)
          b2 <- unwrap decode_u8 ;;
          b3 <- unwrap decode_u8 ;;
          let curline' := Z.lor (Z.lor (Z.shiftr c 3) (Z.shiftl b2 5 mod 256)) b3 in
          debug' <- debug_store debug i curfile curline' ;;
          debug_loop fuel' nops (i + 1) curfile curline' debug'
      else ret debug
  end.

(** code.rs:537-588 [debug_infos] *)
Definition debug_infos (nops : Z) : M (list Z) := fun s =>
  (fill (2 * nops) ;;; debug_loop (S (length (d_buf s))) nops 0 (-1) 0 (zrepeat 0 (2 * nops))) s.

(** * [Code::read], code.rs:607-806, phase by phase.  [c] is the local variable. *)

(** code.rs:683-688 and 690-695 *)
Definition read_table (decode : M Z) (n : Z) : M (list Z) :=
  for_range n (fun i l =>
    r <- ok_mapped decode ;;
    match r with Some x => vec_insert l i x | None => ret l end) [].
Definition read_ints (c : code) : M code :=
  l <- read_table decode_i32 (c_nints c) ;; check_error ;;; ret (set_ints l c).
Definition read_floats (c : code) : M code :=
  l <- read_table decode_f64 (c_nfloats c) ;; check_error ;;; ret (set_floats l c).

(** code.rs:697-704 *)
Definition read_string_table (c : code) : M code :=
  r <- ok_mapped (read_strings (c_nstrings c) (c_strings_lens c)) ;;
  let c := match r with
           | Some (ss, lens) => set_strings_lens lens (set_strings ss c)
           | None => c
           end in
  check_error ;;; fill (c_nstrings c) ;;; ret (set_ustrings (zrepeat None (c_nstrings c)) c).

(** code.rs:705-715 *)
Definition read_bytes_section (c : code) : M code :=
  if 5 <=? c_version c then
    size <- decode_i32 ;;
    (if size <? 0 then crash PCapacity else ret tt) ;;;
    fill size ;;;
    bs <- unwrap_mapped (read_bytes size) ;;
    ps <- for_range (c_nbytes c) (fun i l =>
            r <- ok_mapped UINDEX ;;
            match r with Some x => vec_insert l i x | None => ret l end) (c_bytes_pos c) ;;
    check_error ;;; ret (set_bytes_pos ps (set_bytes bs c))
  else ret c.

(** code.rs:717-728.  The lengths read at :723 go to [c.debugfiles_lens], and [c] is then
    overwritten at :726 by [decoder.code], which holds the lengths from before. *)
Definition read_debugfiles (c : code) : M code :=
  if negb (c_hasdebug c =? 0) then
    c <- read_count set_ndebugfiles c ;;
    put_clone c ;;;
    r <- ok_mapped (read_strings (c_ndebugfiles c) (c_debugfiles_lens c)) ;;
    dc <- get_code ;;
    (match r with Some (ss, _) => put_code (set_debugfiles ss dc) | None => ret tt end) ;;;
    c <- get_clone ;;
    check_error ;;; ret c
  else ret c.

(** code.rs:730-738 *)
Definition read_types (c : code) : M code :=
  fill (c_ntypes c) ;;;
  for_range (c_ntypes c) (fun i c =>
    put_clone c ;;;
    t <- read_type ;;
    dc <- get_code ;;
    ts <- vec_insert (c_types dc) i t ;;
    put_code (set_types ts dc) ;;; get_clone)
  (set_types (zrepeat vt_default (c_ntypes c)) c).

(** code.rs:740-749 *)
Definition read_globals (c : code) : M code :=
  fill (c_nglobals c) ;;;
  c <- for_range (c_nglobals c) (fun i c =>
    put_clone c ;;;
    r <- ok_mapped get_type ;;
    (match r with
     | Some t => dc <- get_code ;; gs <- vec_insert (c_globals dc) i t ;;
                 put_code (set_globals gs dc)
     | None => ret tt
     end) ;;; get_clone)
  (set_globals (zrepeat vt_default (c_nglobals c)) c) ;;
  check_error ;;; ret c.

(** code.rs:751-761 *)
Definition read_natives (c : code) : M code :=
  c <- for_range (c_nnatives c) (fun _ c =>
    lib <- unwrap_mapped read_string ;;
    name <- unwrap_mapped read_string ;;
    t <- unwrap_mapped get_type ;;
    findex <- unwrap_mapped UINDEX ;;
    let c := set_natives (c_natives c ++
               [{| n_lib := lib; n_name := name; n_t := t; n_findex := findex |}]) c in
    put_clone c ;;; ret c)
  (set_natives [] c) ;;
  check_error ;;; ret c.

(** code.rs:775-782: assigns are skipped *)
Definition skip_assigns : M unit :=
  nassigns <- unwrap_mapped UINDEX ;;
  for_range nassigns (fun _ u => ok UINDEX ;;; ok INDEX ;;; ret u) tt.

(** code.rs:765-785, one iteration *)
Definition read_function_entry (i : Z) (c : code) : M code :=
  put_clone c ;;;
  f <- unwrap_mapped read_function ;;
  dc <- get_code ;;
  put_code (set_functions (c_functions dc ++ [f]) dc) ;;;
  dc <- get_code ;;
  (if negb (c_hasdebug dc =? 0) then
     fi <- expect PIndex (znth (c_functions dc) i) ;;                 (* :771 *)
     r <- ok_mapped (debug_infos (hf_nops fi)) ;;
     (match r with
      | Some d =>
          dc <- get_code ;;
          fi <- expect PIndex (znth (c_functions dc) i) ;;
          fs <- expect PIndex (zset (c_functions dc) i (hf_set_debug fi d)) ;;
          put_code (set_functions fs dc)
      | None => ret tt
      end) ;;;
     (if 3 <=? c_version dc then skip_assigns else ret tt)
   else ret tt) ;;;
  get_clone.
Definition read_functions (c : code) : M code :=
  c <- for_range (c_nfunctions c) read_function_entry c ;;
  check_error ;;; ret c.

(** code.rs:789-803 *)
Definition read_constants (c : code) : M code :=
  for_range (c_nconstants c) (fun i c =>
    global <- unwrap_mapped UINDEX ;;
    nfields <- unwrap_mapped UINDEX ;;
    fields <- for_range nfields (fun j l =>
                x <- unwrap_mapped UINDEX ;; vec_insert l j x) [] ;;
    check_error ;;;
    ks <- vec_insert (c_constants c) i
            {| k_global := global; k_nfields := nfields; k_fields := fields |} ;;
    let c := set_constants ks c in
    put_clone c ;;; ret c) c.

(** code.rs:607-806 [Code::read]; the result is [decoder.code] (:805), not [c]. *)
Definition code_read : M code :=
  let c := code_new in
  c <- read_magic c ;;
  c <- read_counts c ;;
  c <- read_ints c ;;
  c <- read_floats c ;;
  c <- read_string_table c ;;
  c <- read_bytes_section c ;;
  c <- read_debugfiles c ;;
  c <- read_types c ;;
  c <- read_globals c ;;
  c <- read_natives c ;;
  c <- read_functions c ;;
  c <- read_constants c ;;
  get_code.
