(** crates/brass/src/code_hash.rs:22-232 once more, with the types it copies: every [.clone()] of something that owns
    [ValueType]s is an explicit step [clone n], where [n] is the number of [ValueType]s copied ([values]: a type and all it owns).
    No proofs here.  The monad is that of HashCostModel.v; outcomes are those of HashModel.v (C92_counts).
    Lookups in the type table compare, but copy nothing: they are taken over from HashModel.v ([free]). *)
From Verif Require Import Prelude StdModel BrassTypes DecoderModel PropsSize PropsGrammar.
From Verif Require HashModel.
From Verif Require Import HashCostModel.

(** A clone that copies [n] types. *)
Definition clone (n : Z) : R unit := (Ok tt, n).
(** What a [ValueTypeU] owns (types.rs:61-94, derived Clone). *)
Definition parts (u : vtu vtype) : Z := values (VT u None None 0) - 1.
(** What an [HLFunction] owns (types.rs:242-260, derived Clone): its type, its registers, the class it belongs to and the function
    its [field] points at. *)
Fixpoint fun_values (f : hl_function) : Z :=
  match f with
  | mkFun t _ _ _ _ regs _ _ obj field =>
      values t + total values regs + match obj with Some u => parts u | None => 0 end
      + match field with Some (mkFF _ (Some g)) => fun_values g | _ => 0 end
  end.
Definition native_values (n : native) : Z := values (n_t n).
(** What a [Code] owns (code.rs:52-80, derived Clone). *)
Definition code_values (c : code) : Z :=
  total values (c_types c) + total values (c_globals c) + total native_values (c_natives c) + total fun_values (c_functions c).
Definition construct_values (k : enum_construct vtype) : Z := total values (ec_params k).

(** types.rs:142-147, 158-163: the field is cloned for its name (:143, 159) and once more for its type (:145, 161) *)
Definition hash_fields (isrec : bool) (rec : vtype -> R Z) (nfields : Z) (fields : list (obj_field vtype)) (h : hasher) : R hasher :=
  rfor nfields (fun i h =>
    f <~ need PUnwrap (znth fields i) ;; _ <~ clone (values (fd_t f)) ;;
    let h := write_u32 h (fd_hash f) in
    if isrec then rret h
    else _ <~ clone (values (fd_t f)) ;; x <~ rec (fd_t f) ;; rret (write_u32 h x)) h.
(** types.rs:105-195; [self] is moved, so are the clones passed to [hash(true)] *)
Definition hash_body (isrec : bool) (rec : vtype -> R Z) (t : vtype) : R Z :=
  let h := hasher_new in
  let k := vt_kind t in
  h <~ (if (k =? HFUN) || (k =? HMETHOD) then                          (* :109-123 *)
          match vt_union t with
          | FuncType args nargs r =>
              let h := write_usize h nargs in
              h <~ rfor nargs (fun i h =>
                     if isrec then rret h
                     else a <~ need PUnwrap (znth args i) ;; _ <~ clone (values a) ;; x <~ rec a ;; rret (write_u32 h x)) h ;;
              if isrec then rret h else _ <~ clone (values r) ;; x <~ rec r ;; rret (write_u32 h x)
          | _ => rret h
          end
        else if (k =? HOBJ) || (k =? HSTRUCT) then                     (* :124-149 *)
          match vt_union t with
          | ObjType name _ fields nfields nproto _ _ _ _ _ =>
              let h := hasher_write h name in
              let h := write_usize h nfields in
              let h := write_usize h nproto in
              hash_fields isrec rec nfields fields h
          | _ => rret h
          end
        else if (k =? HREF) || (k =? HNULL) then                       (* :150-154: moved, not cloned *)
          if isrec then rret h
          else p <~ need PUnwrap (vt_tparam t) ;; x <~ rec p ;; rret (write_u32 h x)
        else if k =? HVIRTUAL then                                     (* :155-165 *)
          match vt_union t with
          | VirtualType nfields fields => hash_fields isrec rec nfields fields (write_usize h nfields)
          | _ => rret h
          end
        else if k =? HENUM then                                        (* :166-187 *)
          match vt_union t with
          | EnumType name nconstructs constructs _ =>
              let h := hasher_write h name in
              rfor nconstructs (fun i h =>
                con <~ need PUnwrap (znth constructs i) ;; _ <~ clone (construct_values con) ;;
                let h := write_usize h (ec_nparams con) in
                let h := hasher_write h (ec_name con) in
                rfor (ec_nparams con) (fun k h =>
                  p <~ need PUnwrap (znth (ec_params con) k) ;; _ <~ clone (values p) ;;
                  if isrec then rret h else x <~ rec p ;; rret (write_u32 h x)) h) h
          | _ => rret h
          end
        else if k =? HABSTRACT then                                    (* :188-190 *)
          n <~ need PUnwrap (vt_abs_name t) ;; rret (hasher_write h n)
        else rret h) ;;                                                (* :191 *)
  rret (hasher_finalize h).
Definition vt_hash_rec : vtype -> R Z := hash_body true (fun _ => free (Panic PFuel)).
Definition vt_hash (isrec : bool) : vtype -> R Z := if isrec then vt_hash_rec else hash_body false vt_hash_rec.

(** code_hash.rs:167-227: looking a type up compares, and copies nothing *)
Definition write_type (types : list vtype) (hs : list Z) (t : vtype) (h : hasher) : R hasher := free (HashModel.write_type types hs t h).
(** code_hash.rs:160-232 [hash_type_rec] *)
Definition hash_type_rec (ch : code_hash) (pos : Z) : R Z :=
  let types := c_types (ch_code ch) in
  let wt := write_type types (ch_type_hashes ch) in
  t <~ need PUnwrap (znth types pos) ;;
  let k := vt_kind t in
  let h := hasher_new in
  h <~ (if (k =? HFUN) || (k =? HMETHOD) then                          (* :164-177; clones :167, 173 *)
          match vt_union t with
          | FuncType args nargs r =>
              h <~ rfor nargs (fun i h => a <~ need PUnwrap (znth args i) ;; _ <~ clone (values a) ;; wt a h) h ;;
              _ <~ clone (values r) ;; wt r h
          | _ => rret h
          end
        else if (k =? HOBJ) || (k =? HSTRUCT) then                     (* :178-198; clone :193 *)
          match vt_union t with
          | ObjType _ _ fields nfields _ _ _ _ _ _ =>
              rfor nfields (fun i h => f <~ need PUnwrap (znth fields i) ;; _ <~ clone (values (fd_t f)) ;; wt (fd_t f) h) h
          | _ => rret h
          end
        else if (k =? HREF) || (k =? HNULL) then                       (* :199-208; by reference *)
          p <~ need PUnwrap (vt_tparam t) ;; wt p h
        else if k =? HENUM then                                        (* :209-227; clone :218 *)
          match vt_union t with
          | EnumType _ nconstructs constructs _ =>
              rfor nconstructs (fun i h =>
                con <~ need PUnwrap (znth constructs i) ;; _ <~ clone (construct_values con) ;;
                rfor (ec_nparams con) (fun k h => p <~ need PUnwrap (znth (ec_params con) k) ;; wt p h) h) h
          | _ => rret h
          end
        else rret h) ;;                                                (* :228 *)
  rret (hasher_finalize h).
(** code_hash.rs:453-458 [code_hash_type]: takes its argument by value; nothing is cloned inside *)
Definition code_hash_type (ch : code_hash) (t : vtype) : R Z := free (HashModel.code_hash_type ch t).

(** :34-38 and :40-44: each turn clones the whole table and then the entry *)
Definition alloc_indexes (c : code) (l : list Z) : R (list Z) :=
  l <~ rfor (c_nfunctions c) (fun i l =>
         _ <~ clone (total fun_values (c_functions c)) ;;
         f <~ need PIndex (znth (c_functions c) i) ;; _ <~ clone (fun_values f) ;;
         need PIndex (zset l (hf_findex f) (as_i32 i))) l ;;
  rfor (c_nnatives c) (fun i l =>
    _ <~ clone (total native_values (c_natives c)) ;;
    n <~ need PIndex (znth (c_natives c) i) ;; _ <~ clone (native_values n) ;;
    need PIndex (zset l (n_findex n) (as_i32 (i + c_nfunctions c)))) l.
(** :46-49: the whole type table, and the entry *)
Definition alloc_types1 (c : code) (l : list Z) : R (list Z) :=
  rfor (c_ntypes c) (fun i l =>
    _ <~ clone (total values (c_types c)) ;;
    t <~ need PIndex (znth (c_types c) i) ;; _ <~ clone (values t) ;;
    x <~ vt_hash false t ;; need PIndex (zset l i x)) l.
(** :51-56 *)
Definition alloc_types2 (ch : code_hash) (c : code) : R (list Z) :=
  rfor (c_ntypes c) (fun i l =>
    a <~ need PIndex (znth (ch_type_hashes ch) i) ;;
    b <~ hash_type_rec ch i ;;
    need PInsert (zinsert l i (Z.lxor a b))) (zrepeat 0 (c_ntypes c)).
(** :58-65: the whole table of globals; the entry only if it is abstract *)
Definition alloc_globals1 (ch : code_hash) (c : code) (l : list Z) : R (list Z) :=
  rfor (c_nglobals c) (fun i l =>
    _ <~ clone (total values (c_globals c)) ;;
    l <~ need PIndex (zset l i (as_i32 (Z.lor i 2147483648))) ;;
    t <~ need PIndex (znth (c_globals c) i) ;;
    if vt_kind t =? HABSTRACT then _ <~ clone (values t) ;; x <~ code_hash_type ch t ;; need PIndex (zset l i (as_i32 x)) else rret l) l.
(** :67-103: the whole type table, the entry, and the entry once more if its signature is needed *)
Definition alloc_globals2 (ch : code_hash) (c : code) (l : list Z) : R (list Z) :=
  rfor (c_ntypes c) (fun i l =>
    _ <~ clone (total values (c_types c)) ;;
    t <~ need PIndex (znth (c_types c) i) ;; _ <~ clone (values t) ;;
    let k := vt_kind t in
    let slot gs := _ <~ clone (values t) ;; x <~ code_hash_type ch t ;; g <~ need PIndex (znth gs 0) ;;
                   need PIndex (zset l (as_usize (g - 1)) (as_i32 x)) in
    if (k =? HOBJ) || (k =? HSTRUCT) then
      match vt_union t with ObjType _ _ _ _ _ _ _ _ gs _ => slot gs | _ => rret l end
    else if k =? HENUM then
      match vt_union t with EnumType _ _ _ gs => slot gs | _ => rret l end
    else rret l) l.
(** :154-156 *)
Definition alloc_finish (ch : code_hash) (c : code) (l : list Z) : R (list Z) :=
  rfor (c_nglobals c) (fun i l =>
    t <~ need PIndex (znth (c_globals c) i) ;; _ <~ clone (values t) ;;
    x <~ code_hash_type ch t ;;
    g <~ need PIndex (znth l i) ;;
    need PIndex (zset l i (Z.lxor g (as_i32 x)))) l.
(** code_hash.rs:22-159 [alloc]; the code itself is cloned at :26.  The constants (:104-134, which own no types) and the boot code
    (:136-152, by reference) copy no types. *)
Definition alloc (c : code) : R code_hash :=
  _ <~ clone (code_values c) ;;
  let ch := alloc_start c in
  idx <~ alloc_indexes c (ch_functions_indexes ch) ;;
  let ch := set_functions_indexes idx ch in
  hs <~ alloc_types1 c (ch_type_hashes ch) ;;
  let ch := set_type_hashes hs ch in
  hs2 <~ alloc_types2 ch c ;;
  let ch := set_type_hashes hs2 ch in
  l <~ alloc_globals1 ch c (ch_globals_signs ch) ;;
  l <~ alloc_globals2 ch c l ;;
  l <~ free (HashModel.alloc_constants c l) ;;
  l <~ free (HashModel.alloc_boot c idx l) ;;
  l <~ alloc_finish ch c l ;;
  rret (set_globals_signs l ch).

(** code_hash.rs:460-477 [finalize]; the functions that hash a function or a native take a copy of it (:465, 469, 475) and copy no types
    themselves (:234-452). *)
Definition finalize (ch : code_hash) : R code_hash :=
  let c := ch_code ch in
  signs <~ rfor (c_nfunctions c) (fun i l =>
             f <~ need PIndex (znth (c_functions c) i) ;; _ <~ clone (fun_values f) ;; x <~ free (HashModel.hash_fun_sign ch f) ;; need PIndex (zset l i x))
           (zrepeat 0 (c_nfunctions c + c_nnatives c)) ;;
  signs <~ rfor (c_nnatives c) (fun i l =>
             n <~ need PIndex (znth (c_natives c) i) ;; _ <~ clone (native_values n) ;; x <~ free (HashModel.hash_native ch n) ;; need PIndex (zset l i x)) signs ;;
  let ch := set_functions_signs signs ch in
  hs <~ rfor (c_nfunctions c) (fun i l =>
          f <~ need PIndex (znth (c_functions c) i) ;; _ <~ clone (fun_values f) ;;
          x <~ free (HashModel.hash_fun (set_functions_hashes l ch) f) ;; need PIndex (zset l i x))
        (zrepeat 0 (c_nfunctions c)) ;;
  rret (set_functions_hashes hs ch).
