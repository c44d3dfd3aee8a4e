(** Model of crates/brass/src/types.rs:105-195 ([ValueType::hash]) and of
    crates/brass/src/code_hash.rs (hot-reload hashing), function by function.  No proofs here.

    Every function is pure up to panics: outcomes are [res derr A] with [Err] never produced.
    [u32] values are integers in [0, 2^32), [i32] values integers in [-2^31, 2^31). *)
From Verif Require Import Prelude StdModel BrassTypes DecoderModel.

(** * Plumbing *)
Definition R (A : Type) := res derr A.
Definition rret {A} (a : A) : R A := Ok a.
Definition rbind {A B} (m : R A) (k : A -> R B) : R B :=
  match m with Ok a => k a | Err e => Err e | Panic p => Panic p end.
Notation "x <~ m ;; k" := (rbind m (fun x => k)) (at level 61, m at next level, right associativity).
(** [Option::unwrap] ([PUnwrap]) and indexing ([PIndex]) *)
Definition need {A} (p : panic) (o : option A) : R A := match o with Some a => Ok a | None => Panic p end.
(** [for i in i0..i0+n { acc = body(i, acc) }] *)
Fixpoint rloop {A} (n : nat) (i : Z) (body : Z -> A -> R A) (acc : A) : R A :=
  match n with
  | O => Ok acc
  | S n' => acc' <~ body i acc ;; rloop n' (i + 1) body acc'
  end.
Definition rfor {A} (n : Z) (body : Z -> A -> R A) (acc : A) : R A := rloop (Z.to_nat n) 0 body acc.

(** [x as i32] *)
Definition as_i32 (x : Z) : Z := to_signed 32 (x mod 2 ^ 32).
(** [x as usize] from i32/isize; out-of-range values stay out of every vector *)
Definition as_usize (x : Z) : Z := x mod 2 ^ 64.
(** [usize::try_from(x).unwrap()] *)
Definition try_usize (x : Z) : R Z := if x <? 0 then Panic PUnwrap else Ok x.

(** [f64 as i32]: truncate towards zero, saturate, NaN to 0.  The argument is the bit pattern. *)
Definition f64_as_i32 (b : Z) : Z :=
  let neg := 2 ^ 63 <=? b in
  let e := (b / 2 ^ 52) mod 2048 in
  let m := b mod 2 ^ 52 in
  let clamp v := Z.max (- 2 ^ 31) (Z.min (2 ^ 31 - 1) v) in
  if e =? 2047 then (if m =? 0 then clamp (if neg then - 2 ^ 31 else 2 ^ 31) else 0)
  else
    let sig := if e =? 0 then m else m + 2 ^ 52 in
    let ex := (if e =? 0 then 1 else e) - 1075 in
    let mag := if 0 <=? ex then sig * 2 ^ ex else sig / 2 ^ (- ex) in
    clamp (if neg then - mag else mag).

(** * Structural equality: the derived [PartialEq] of types.rs:59-60, 95-96, 209-239 *)
  Definition list_eqb {A} (eqb : A -> A -> bool) : list A -> list A -> bool :=
    fix go (a b : list A) : bool :=
    match a, b with
    | [], [] => true
    | x :: a', y :: b' => eqb x y && go a' b'
    | _, _ => false
    end.
  Definition option_eqb {A} (eqb : A -> A -> bool) (a b : option A) : bool :=
    match a, b with Some x, Some y => eqb x y | None, None => true | _, _ => false end.
  Definition str_eqb : str -> str -> bool := list_eqb Z.eqb.
  Definition field_eqb {T} (eqb : T -> T -> bool) (a b : obj_field T) : bool :=
    match a, b with mkField n h t, mkField n' h' t' => str_eqb n n' && (h =? h') && eqb t t' end.
  Definition proto_eqb (a b : obj_proto) : bool :=
    str_eqb (pr_name a) (pr_name b) && (pr_hash a =? pr_hash b) && (pr_findex a =? pr_findex b) && (pr_pindex a =? pr_pindex b).
  Definition construct_eqb {T} (eqb : T -> T -> bool) (a b : enum_construct T) : bool :=
    match a, b with mkCon n np ps sz hp os, mkCon n' np' ps' sz' hp' os' =>
      str_eqb n n' && (np =? np') && list_eqb eqb ps ps' && (sz =? sz') && Bool.eqb hp hp' && list_eqb Z.eqb os os' end.
  Definition unit_eqb (_ _ : unit) : bool := true.
  Definition vtu_eqb {T} (eqb : T -> T -> bool) (a b : vtu T) : bool :=
    match a, b with
    | FuncType xs n r, FuncType xs' n' r' => list_eqb eqb xs xs' && (n =? n') && eqb r r'
    | ObjType n s fs nf np nb ps bs gs rt, ObjType n' s' fs' nf' np' nb' ps' bs' gs' rt' =>
        str_eqb n n' && eqb s s' && list_eqb (field_eqb eqb) fs fs' && (nf =? nf') && (np =? np') && (nb =? nb')
        && list_eqb proto_eqb ps ps' && list_eqb Z.eqb bs bs' && list_eqb Z.eqb gs gs' && option_eqb unit_eqb rt rt'
    | VirtualType n fs, VirtualType n' fs' => (n =? n') && list_eqb (field_eqb eqb) fs fs'
    | EnumType n nc cs gs, EnumType n' nc' cs' gs' =>
        str_eqb n n' && (nc =? nc') && list_eqb (construct_eqb eqb) cs cs' && list_eqb Z.eqb gs gs'
    | URef t, URef t' => eqb t t'
    | UAbstract s, UAbstract s' => str_eqb s s'
    | UNull, UNull => true
    | UVoid, UVoid => true
    | _, _ => false
    end.
Fixpoint vt_eqb (a b : vtype) {struct a} : bool :=
  match a, b with
  | VT u n p k, VT u' n' p' k' =>
      vtu_eqb vt_eqb u u' && option_eqb str_eqb n n' && option_eqb vt_eqb p p' && (k =? k')
  end.
(** [types.iter().position(|v| *v == t)] *)
Fixpoint position (ts : list vtype) (t : vtype) : option Z :=
  match ts with
  | [] => None
  | x :: r => if vt_eqb x t then Some 0 else option_map (Z.add 1) (position r t)
  end.

(** * types.rs:105-195 [ValueType::hash].  [rec] is the recursive call, always with [isrec = true]. *)
(** types.rs:142-147, 158-163: one pass over the fields *)
Definition hash_fields (isrec : bool) (rec : vtype -> R Z) (nfields : Z) (fields : list (obj_field vtype)) (h : hasher) : R hasher :=
  rfor nfields (fun i h =>
    f <~ need PUnwrap (znth fields i) ;;
    let h := write_u32 h (fd_hash f) in
    if isrec then rret h else x <~ rec (fd_t f) ;; rret (write_u32 h x)) h.
Definition hash_body (isrec : bool) (rec : vtype -> R Z) (t : vtype) : R Z :=
  let h := hasher_new in
  let k := vt_kind t in
  h <~ (if (k =? HFUN) || (k =? HMETHOD) then                          (* :109-123 *)
          match vt_union t with
          | FuncType args nargs r =>
              let h := write_usize h nargs in
              h <~ rfor nargs (fun i h =>
                     if isrec then rret h
                     else a <~ need PUnwrap (znth args i) ;; x <~ rec a ;; rret (write_u32 h x)) h ;;
              if isrec then rret h else x <~ rec r ;; rret (write_u32 h x)
          | _ => rret h
          end
        else if (k =? HOBJ) || (k =? HSTRUCT) then                     (* :124-149 *)
          match vt_union t with
          | ObjType name _ fields nfields nproto _ _ _ _ _ =>
              let h := hasher_write h name in
              let h := write_usize h nfields in
              let h := write_usize h nproto in
              hash_fields isrec rec nfields fields h
          | _ => rret h
          end
        else if (k =? HREF) || (k =? HNULL) then                       (* :150-154 *)
          if isrec then rret h
          else p <~ need PUnwrap (vt_tparam t) ;; x <~ rec p ;; rret (write_u32 h x)
        else if k =? HVIRTUAL then                                     (* :155-165 *)
          match vt_union t with
          | VirtualType nfields fields => hash_fields isrec rec nfields fields (write_usize h nfields)
          | _ => rret h
          end
        else if k =? HENUM then                                        (* :166-187 *)
          match vt_union t with
          | EnumType name nconstructs constructs _ =>
              let h := hasher_write h name in
              rfor nconstructs (fun i h =>
                con <~ need PUnwrap (znth constructs i) ;;
                let h := write_usize h (ec_nparams con) in
                let h := hasher_write h (ec_name con) in
                rfor (ec_nparams con) (fun k h =>
                  p <~ need PUnwrap (znth (ec_params con) k) ;;
                  if isrec then rret h else x <~ rec p ;; rret (write_u32 h x)) h) h
          | _ => rret h
          end
        else if k =? HABSTRACT then                                    (* :188-190 *)
          n <~ need PUnwrap (vt_abs_name t) ;; rret (hasher_write h n)
        else rret h) ;;                                                (* :191 *)
  rret (hasher_finalize h).
(** [hash(true)] makes no recursive call. *)
Definition vt_hash_rec : vtype -> R Z := hash_body true (fun _ => Panic PFuel).
Definition vt_hash (isrec : bool) : vtype -> R Z := if isrec then vt_hash_rec else hash_body false vt_hash_rec.

(** * code_hash.rs:11-19 [CodeHash] *)
Record code_hash := {
  ch_code : code; ch_type_hashes : list Z; ch_globals_signs : list Z; ch_functions_signs : list Z;
  ch_functions_hashes : list Z; ch_functions_indexes : list Z }.
Definition set_type_hashes x h := {| ch_code := ch_code h; ch_type_hashes := x; ch_globals_signs := ch_globals_signs h;
  ch_functions_signs := ch_functions_signs h; ch_functions_hashes := ch_functions_hashes h;
  ch_functions_indexes := ch_functions_indexes h |}.
Definition set_globals_signs x h := {| ch_code := ch_code h; ch_type_hashes := ch_type_hashes h; ch_globals_signs := x;
  ch_functions_signs := ch_functions_signs h; ch_functions_hashes := ch_functions_hashes h;
  ch_functions_indexes := ch_functions_indexes h |}.
Definition set_functions_signs x h := {| ch_code := ch_code h; ch_type_hashes := ch_type_hashes h;
  ch_globals_signs := ch_globals_signs h; ch_functions_signs := x; ch_functions_hashes := ch_functions_hashes h;
  ch_functions_indexes := ch_functions_indexes h |}.
Definition set_functions_hashes x h := {| ch_code := ch_code h; ch_type_hashes := ch_type_hashes h;
  ch_globals_signs := ch_globals_signs h; ch_functions_signs := ch_functions_signs h; ch_functions_hashes := x;
  ch_functions_indexes := ch_functions_indexes h |}.
Definition set_functions_indexes x h := {| ch_code := ch_code h; ch_type_hashes := ch_type_hashes h;
  ch_globals_signs := ch_globals_signs h; ch_functions_signs := ch_functions_signs h;
  ch_functions_hashes := ch_functions_hashes h; ch_functions_indexes := x |}.

(** [self.type_hashes[self.code.types.iter().position(|v| *v == t).unwrap()]], the pattern of
    code_hash.rs:168-170, 174-175, 194-195, 201-207, 222-223, 238-239, 245-246, 296-302, 328-334, 455-456.
    (In hash_fun and the OType case the right operand of == is an index expression evaluated inside the
    closure; only the kind of panic could differ, when the type table is empty.) *)
Definition hash_at (types : list vtype) (hs : list Z) (t : vtype) : R Z :=
  i <~ need PUnwrap (position types t) ;; need PIndex (znth hs i).
Definition write_type (types : list vtype) (hs : list Z) (t : vtype) (h : hasher) : R hasher :=
  x <~ hash_at types hs t ;; rret (write_u32 h x).

(** code_hash.rs:160-232 [hash_type_rec] *)
Definition hash_type_rec (ch : code_hash) (pos : Z) : R Z :=
  let types := c_types (ch_code ch) in
  let wt := write_type types (ch_type_hashes ch) in
  t <~ need PUnwrap (znth types pos) ;;
  let k := vt_kind t in
  let h := hasher_new in
  h <~ (if (k =? HFUN) || (k =? HMETHOD) then                          (* :164-177 *)
          match vt_union t with
          | FuncType args nargs r =>
              h <~ rfor nargs (fun i h => a <~ need PUnwrap (znth args i) ;; wt a h) h ;; wt r h
          | _ => rret h
          end
        else if (k =? HOBJ) || (k =? HSTRUCT) then                     (* :178-198 *)
          match vt_union t with
          | ObjType _ _ fields nfields _ _ _ _ _ _ =>
              rfor nfields (fun i h => f <~ need PUnwrap (znth fields i) ;; wt (fd_t f) h) h
          | _ => rret h
          end
        else if (k =? HREF) || (k =? HNULL) then                       (* :199-208 *)
          p <~ need PUnwrap (vt_tparam t) ;; wt p h
        else if k =? HENUM then                                        (* :209-227 *)
          match vt_union t with
          | EnumType _ nconstructs constructs _ =>
              rfor nconstructs (fun i h =>
                con <~ need PUnwrap (znth constructs i) ;;
                rfor (ec_nparams con) (fun k h => p <~ need PUnwrap (znth (ec_params con) k) ;; wt p h) h) h
          | _ => rret h
          end
        else rret h) ;;                                                (* :228 *)
  rret (hasher_finalize h).

(** code_hash.rs:453-458 [code_hash_type] *)
Definition code_hash_type (ch : code_hash) (t : vtype) : R Z :=
  h <~ write_type (c_types (ch_code ch)) (ch_type_hashes ch) t hasher_new ;; rret (hasher_finalize h).

(** * code_hash.rs:22-159 [alloc], phase by phase *)
(** :24-32 *)
Definition alloc_start (c : code) : code_hash :=
  {| ch_code := c; ch_type_hashes := zrepeat 0 (c_ntypes c); ch_globals_signs := zrepeat 0 (c_nglobals c);
     ch_functions_signs := []; ch_functions_hashes := []; ch_functions_indexes := zrepeat 0 (c_nfunctions c + c_nnatives c) |}.
(** :34-38 and :40-44 *)
Definition alloc_indexes (c : code) (l : list Z) : R (list Z) :=
  l <~ rfor (c_nfunctions c) (fun i l =>
         f <~ need PIndex (znth (c_functions c) i) ;; need PIndex (zset l (hf_findex f) (as_i32 i))) l ;;
  rfor (c_nnatives c) (fun i l =>
    n <~ need PIndex (znth (c_natives c) i) ;; need PIndex (zset l (n_findex n) (as_i32 (i + c_nfunctions c)))) l.
(** :46-49 *)
Definition alloc_types1 (c : code) (l : list Z) : R (list Z) :=
  rfor (c_ntypes c) (fun i l =>
    t <~ need PIndex (znth (c_types c) i) ;; x <~ vt_hash false t ;; need PIndex (zset l i x)) l.
(** :51-56: the second buffer starts with [ntypes] zeros, which [insert] pushes to the back *)
Definition alloc_types2 (ch : code_hash) (c : code) : R (list Z) :=
  rfor (c_ntypes c) (fun i l =>
    a <~ need PIndex (znth (ch_type_hashes ch) i) ;;
    b <~ hash_type_rec ch i ;;
    need PInsert (zinsert l i (Z.lxor a b))) (zrepeat 0 (c_ntypes c)).
(** :58-65; [as i32] of a [u32] or [usize] *)
Definition alloc_globals1 (ch : code_hash) (c : code) (l : list Z) : R (list Z) :=
  rfor (c_nglobals c) (fun i l =>
    l <~ need PIndex (zset l i (as_i32 (Z.lor i 2147483648))) ;;
    t <~ need PIndex (znth (c_globals c) i) ;;
    if vt_kind t =? HABSTRACT then x <~ code_hash_type ch t ;; need PIndex (zset l i (as_i32 x)) else rret l) l.
(** :67-103 *)
Definition alloc_globals2 (ch : code_hash) (c : code) (l : list Z) : R (list Z) :=
  rfor (c_ntypes c) (fun i l =>
    t <~ need PIndex (znth (c_types c) i) ;;
    let k := vt_kind t in
    let slot gs := x <~ code_hash_type ch t ;; g <~ need PIndex (znth gs 0) ;;
                   need PIndex (zset l (as_usize (g - 1)) (as_i32 x)) in
    if (k =? HOBJ) || (k =? HSTRUCT) then
      match vt_union t with ObjType _ _ _ _ _ _ _ _ gs _ => slot gs | _ => rret l end
    else if k =? HENUM then
      match vt_union t with EnumType _ _ _ gs => slot gs | _ => rret l end
    else rret l) l.
(** :104-134, the hash of one constant *)
Definition hash_constant (c : code) (k : constant) (tt : vtype) : R Z :=
  h <~ rfor (k_nfields k) (fun j h =>
         index <~ need PIndex (znth (k_fields k) j) ;;
         match vt_union tt with
         | ObjType _ _ fields _ _ _ _ _ _ _ =>
             f <~ need PIndex (znth fields j) ;;
             if vt_kind (fd_t f) =? HI32 then x <~ need PIndex (znth (c_ints c) index) ;; rret (write_i32 h x)
             else if vt_kind (fd_t f) =? HBYTES then s <~ need PIndex (znth (c_strings c) index) ;; rret (hasher_write h s)
             else rret h
         | _ => rret h
         end) hasher_new ;;
  rret (hasher_finalize h).
Definition alloc_constants (c : code) (l : list Z) : R (list Z) :=
  rfor (c_nconstants c) (fun i l =>
    k <~ need PIndex (znth (c_constants c) i) ;;
    tt <~ need PIndex (znth (c_globals c) (k_global k)) ;;
    x <~ hash_constant c k tt ;;
    need PIndex (zset l (k_global k) (as_i32 x))) l.
(** :136-152: boot code; the global inspected is the one numbered like the instruction (:143) *)
Definition alloc_boot (c : code) (fidx : list Z) (l : list Z) : R (list Z) :=
  i <~ need PIndex (znth fidx (c_entrypoint c)) ;;
  f <~ need PIndex (znth (c_functions c) (as_usize i)) ;;
  rloop (Z.to_nat (hf_nops f - 4)) 4 (fun i l =>
    op <~ need PIndex (znth (hf_ops f) i) ;;
    if o_op op =? OSetGlobal then
      t <~ need PIndex (znth (c_globals c) i) ;;
      if vt_kind t =? HENUM then
        o2 <~ need PIndex (znth (hf_ops f) (i - 2)) ;;
        if o_op o2 =? OGetArray then
          o3 <~ need PIndex (znth (hf_ops f) (i - 3)) ;;
          if o_op o3 =? OInt then
            p2 <~ need PUnwrap (o_p2 o3) ;;
            x <~ need PIndex (znth (c_ints c) (as_usize p2)) ;;
            p1 <~ need PUnwrap (o_p1 op) ;;
            need PIndex (zset l (as_usize p1) x)
          else rret l
        else rret l
      else rret l
    else rret l) l.
(** :154-156; xor of two [i32] *)
Definition alloc_finish (ch : code_hash) (c : code) (l : list Z) : R (list Z) :=
  rfor (c_nglobals c) (fun i l =>
    t <~ need PIndex (znth (c_globals c) i) ;;
    x <~ code_hash_type ch t ;;
    g <~ need PIndex (znth l i) ;;
    need PIndex (zset l i (Z.lxor g (as_i32 x)))) l.
Definition alloc (c : code) : R code_hash :=
  let ch := alloc_start c in
  idx <~ alloc_indexes c (ch_functions_indexes ch) ;;
  let ch := set_functions_indexes idx ch in
  hs <~ alloc_types1 c (ch_type_hashes ch) ;;
  let ch := set_type_hashes hs ch in
  hs2 <~ alloc_types2 ch c ;;
  let ch := set_type_hashes hs2 ch in
  l <~ alloc_globals1 ch c (ch_globals_signs ch) ;;
  l <~ alloc_globals2 ch c l ;;
  l <~ alloc_constants c l ;;
  l <~ alloc_boot c idx l ;;
  l <~ alloc_finish ch c l ;;
  rret (set_globals_signs l ch).

(** * The rest of code_hash.rs *)
(** code_hash.rs:234-241 [hash_native] *)
Definition hash_native (ch : code_hash) (n : native) : R Z :=
  let h := hasher_write hasher_new (n_lib n) in
  let h := hasher_write h (n_name n) in
  h <~ write_type (c_types (ch_code ch)) (ch_type_hashes ch) (n_t n) h ;; rret (hasher_finalize h).

(** code_hash.rs:243-286 [hash_fun_sign] *)
Definition hash_fun_sign (ch : code_hash) (f : hl_function) : R Z :=
  h <~ write_type (c_types (ch_code ch)) (ch_type_hashes ch) (hf_t f) hasher_new ;;
  h <~ (match hf_obj f with
        | Some (ObjType name _ _ _ _ _ _ _ _ _) =>
            let h := hasher_write h name in
            fld <~ need PUnwrap (hf_field f) ;; rret (hasher_write h (ff_name fld))
        | _ => rret h
        end) ;;
  fld <~ need PUnwrap (hf_field f) ;;
  h <~ (match ff_rf fld with
        | Some rf =>
            let h := match hf_obj rf with Some (ObjType name _ _ _ _ _ _ _ _ _) => hasher_write h name | _ => h end in
            rfld <~ need PUnwrap (hf_field rf) ;;
            let h := hasher_write h (ff_name rfld) in
            rret (write_u32 h (hf_rf f))
        | None => rret h
        end) ;;
  rret (hasher_finalize h).

(** code_hash.rs:288-290 [hfun] *)
Definition hfun (ch : code_hash) (h : hasher) (idx : Z) : R hasher :=
  i <~ need PIndex (znth (ch_functions_indexes ch) idx) ;;
  x <~ need PIndex (znth (ch_functions_hashes ch) (as_usize i)) ;;
  rret (write_u32 h x).

(** [hasher.write_i32(o.pk.unwrap())] *)
Definition write_p (o : option Z) (h : hasher) : R hasher := p <~ need PUnwrap o ;; rret (write_i32 h p).
(** [hasher.write_isize(o.extra[i])] *)
Definition write_extra (o : opcode) (i : Z) (h : hasher) : R hasher :=
  x <~ need PIndex (znth (o_extra o) i) ;; rret (write_isize h x).
Definition write_extras (o : opcode) (n : Z) (h : hasher) : R hasher := rfor n (write_extra o) h.
(** [self.hfun(&mut hasher, o.p2.unwrap().try_into().unwrap())] *)
Definition write_call (ch : code_hash) (o : opcode) (h : hasher) : R hasher :=
  p <~ need PUnwrap (o_p2 o) ;; i <~ try_usize p ;; hfun ch h i.

(** code_hash.rs:305-449, one instruction *)
Definition hash_op (ch : code_hash) (o : opcode) (h : hasher) : R hasher :=
  let c := ch_code ch in
  let h := write_u8 h (o_op o) in
  let op := o_op o in
  if op =? OInt then                                                   (* :309-313 *)
    h <~ write_p (o_p1 o) h ;; p <~ need PUnwrap (o_p2 o) ;; i <~ try_usize p ;;
    x <~ need PUnwrap (znth (c_ints c) i) ;; rret (write_i32 h x)
  else if op =? OFloat then                                            (* :314-319 *)
    h <~ write_p (o_p1 o) h ;; p <~ need PUnwrap (o_p2 o) ;; i <~ try_usize p ;;
    x <~ need PUnwrap (znth (c_floats c) (2 * i)) ;; let h := write_i32 h (f64_as_i32 x) in
    y <~ need PUnwrap (znth (c_floats c) (2 * i + 1)) ;; rret (write_i32 h (f64_as_i32 y))
  else if op =? OString then                                           (* :320-324 *)
    h <~ write_p (o_p1 o) h ;; p <~ need PUnwrap (o_p2 o) ;; i <~ try_usize p ;;
    s <~ need PUnwrap (znth (c_strings c) i) ;; rret (hasher_write h s)
  else if op =? OType then                                             (* :325-335 *)
    h <~ write_p (o_p1 o) h ;; p <~ need PUnwrap (o_p2 o) ;; i <~ try_usize p ;;
    t <~ need PIndex (znth (c_types c) i) ;; write_type (c_types c) (ch_type_hashes ch) t h
  else if op =? OCall0 then                                            (* :336-339 *)
    h <~ write_p (o_p1 o) h ;; write_call ch o h
  else if op =? OCall1 then                                            (* :340-344 *)
    h <~ write_p (o_p1 o) h ;; h <~ write_call ch o h ;; write_p (o_p3 o) h
  else if op =? OCall2 then                                            (* :345-350 *)
    h <~ write_p (o_p1 o) h ;; h <~ write_call ch o h ;; h <~ write_p (o_p3 o) h ;; write_extras o 1 h
  else if op =? OCall3 then                                            (* :351-357 *)
    h <~ write_p (o_p1 o) h ;; h <~ write_call ch o h ;; h <~ write_p (o_p3 o) h ;; write_extras o 2 h
  else if op =? OCall4 then                                            (* :358-365 *)
    h <~ write_p (o_p1 o) h ;; h <~ write_call ch o h ;; h <~ write_p (o_p3 o) h ;; write_extras o 3 h
  else if op =? OCallN then                                            (* :366-373 *)
    h <~ write_p (o_p1 o) h ;; h <~ write_call ch o h ;; h <~ write_p (o_p3 o) h ;;
    n <~ need PUnwrap (o_p3 o) ;; write_extras o n h
  else if op =? OStaticClosure then                                    (* :374-377 *)
    h <~ write_p (o_p1 o) h ;; write_call ch o h
  else if op =? OInstanceClosure then                                  (* :378-382 *)
    h <~ write_p (o_p1 o) h ;; h <~ write_call ch o h ;; write_p (o_p3 o) h
  else if op =? ODynGet then                                           (* :383-387 *)
    h <~ write_p (o_p1 o) h ;; h <~ write_p (o_p2 o) h ;; p <~ need PUnwrap (o_p3 o) ;;
    s <~ need PIndex (znth (c_strings c) (as_usize p)) ;; rret (hasher_write h s)
  else if op =? ODynSet then                                           (* :388-392 *)
    h <~ write_p (o_p1 o) h ;; p <~ need PUnwrap (o_p2 o) ;;
    s <~ need PIndex (znth (c_strings c) (as_usize p)) ;; write_p (o_p3 o) (hasher_write h s)
  else
    nargs <~ need PIndex (znth OP_NARGS op) ;;                         (* :393 *)
    if nargs =? 0 then rret h
    else if nargs =? 1 then write_p (o_p1 o) h
    else if nargs =? 2 then h <~ write_p (o_p1 o) h ;; write_p (o_p2 o) h
    else if nargs =? 3 then h <~ write_p (o_p1 o) h ;; h <~ write_p (o_p2 o) h ;; write_p (o_p3 o) h
    else if nargs =? 4 then                                            (* :407-412 *)
      h <~ write_p (o_p1 o) h ;; h <~ write_p (o_p2 o) h ;; h <~ write_p (o_p3 o) h ;; write_extras o 1 h
    else if nargs =? -1 then                                           (* :413-438 *)
      if (op =? OCallN) || (op =? OCallClosure) || (op =? OCallMethod) || (op =? OCallThis) || (op =? OMakeEnum) then
        h <~ write_p (o_p1 o) h ;; h <~ write_p (o_p2 o) h ;; h <~ write_p (o_p3 o) h ;;
        n <~ need PUnwrap (o_p3 o) ;; write_extras o n h
      else if op =? OSwitch then
        h <~ write_p (o_p1 o) h ;; h <~ write_p (o_p2 o) h ;;
        n <~ need PUnwrap (o_p2 o) ;; h <~ write_extras o n h ;; write_p (o_p3 o) h
      else rret h
    else                                                               (* :439-447 *)
      h <~ write_p (o_p1 o) h ;; h <~ write_p (o_p2 o) h ;; h <~ write_p (o_p3 o) h ;; write_extras o (nargs - 3) h.
(** code_hash.rs:292-452 [hash_fun] *)
Definition hash_fun (ch : code_hash) (f : hl_function) : R Z :=
  h <~ rfor (hf_nregs f) (fun i h =>
         t <~ need PIndex (znth (hf_regs f) i) ;; write_type (c_types (ch_code ch)) (ch_type_hashes ch) t h) hasher_new ;;
  h <~ rfor (hf_nops f) (fun k h => o <~ need PIndex (znth (hf_ops f) k) ;; hash_op ch o h) h ;;
  rret (hasher_finalize h).

(** code_hash.rs:460-477 [finalize] *)
Definition finalize (ch : code_hash) : R code_hash :=
  let c := ch_code ch in
  signs <~ rfor (c_nfunctions c) (fun i l =>
             f <~ need PIndex (znth (c_functions c) i) ;; x <~ hash_fun_sign ch f ;; need PIndex (zset l i x))
           (zrepeat 0 (c_nfunctions c + c_nnatives c)) ;;
  signs <~ rfor (c_nnatives c) (fun i l =>                             (* :467-470: index i, not nfunctions + i *)
             n <~ need PIndex (znth (c_natives c) i) ;; x <~ hash_native ch n ;; need PIndex (zset l i x)) signs ;;
  let ch := set_functions_signs signs ch in
  hs <~ rfor (c_nfunctions c) (fun i l =>
          f <~ need PIndex (znth (c_functions c) i) ;;
          x <~ hash_fun (set_functions_hashes l ch) f ;; need PIndex (zset l i x))
        (zrepeat 0 (c_nfunctions c)) ;;
  rret (set_functions_hashes hs ch).
