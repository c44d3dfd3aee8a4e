(** crates/brass/src/code_hash.rs once more, with its cost: how many times two [ValueType]s are compared
    with [==] (the derived [PartialEq] of types.rs:59-60, 95-96, which compares what the types own in turn).
    No proofs here.

    The functions after "The functions" have the same text as those of HashModel.v (this file is generated from it
    by /verif/gen_hashcost.py) in a monad that counts; functions that compare no types are taken over as
    they are ([free]).  HashCostProofs.v proves that the outcomes are those of HashModel.v. *)
From Verif Require Import Prelude StdModel BrassTypes DecoderModel.
From Verif Require HashModel.
Notation code_hash := HashModel.code_hash. Notation ch_code := HashModel.ch_code. Notation ch_type_hashes := HashModel.ch_type_hashes.
Notation ch_globals_signs := HashModel.ch_globals_signs. Notation ch_functions_signs := HashModel.ch_functions_signs.
Notation ch_functions_hashes := HashModel.ch_functions_hashes. Notation ch_functions_indexes := HashModel.ch_functions_indexes.
Notation set_type_hashes := HashModel.set_type_hashes. Notation set_globals_signs := HashModel.set_globals_signs.
Notation set_functions_signs := HashModel.set_functions_signs. Notation set_functions_hashes := HashModel.set_functions_hashes.
Notation set_functions_indexes := HashModel.set_functions_indexes.
Notation as_i32 := HashModel.as_i32. Notation as_usize := HashModel.as_usize. Notation f64_as_i32 := HashModel.f64_as_i32.
Notation str_eqb := HashModel.str_eqb. Notation list_eqb := HashModel.list_eqb. Notation option_eqb := HashModel.option_eqb.
Notation proto_eqb := HashModel.proto_eqb. Notation unit_eqb := HashModel.unit_eqb. Notation alloc_start := HashModel.alloc_start.

(** * Plumbing: an outcome and the number of comparisons made on the way *)
Definition R (A : Type) := (res derr A * Z)%type.
Definition free {A} (m : HashModel.R A) : R A := (m, 0).
Definition rret {A} (a : A) : R A := free (Ok a).
Definition rbind {A B} (m : R A) (k : A -> R B) : R B :=
  match m with
  | (Ok a, n) => let (r, n') := k a in (r, n + n')
  | (Err e, n) => (Err e, n)
  | (Panic p, n) => (Panic p, n)
  end.
Notation "x <~ m ;; k" := (rbind m (fun x => k)) (at level 61, m at next level, right associativity).
Definition need {A} (p : panic) (o : option A) : R A := free (HashModel.need p o).
Fixpoint rloop {A} (n : nat) (i : Z) (body : Z -> A -> R A) (acc : A) : R A :=
  match n with
  | O => rret acc
  | S n' => acc' <~ body i acc ;; rloop n' (i + 1) body acc'
  end.
Definition rfor {A} (n : Z) (body : Z -> A -> R A) (acc : A) : R A := rloop (Z.to_nat n) 0 body acc.
Definition try_usize (x : Z) : R Z := free (HashModel.try_usize x).

(** * Structural equality, counting *)
(** [a && b] and comparisons of other things than types *)
Definition andc (x y : bool * Z) : bool * Z := if fst x then (fst y, snd x + snd y) else (false, snd x).
Definition pure (b : bool) : bool * Z := (b, 0).
Infix "&&&" := andc (at level 40, left associativity).
(** [Vec] compares the lengths first, then the entries in order up to the first difference *)
Definition list_eqc {A} (eqc : A -> A -> bool * Z) : list A -> list A -> bool * Z :=
  let fix go (a b : list A) : bool * Z :=
    match a, b with
    | x :: a', y :: b' => eqc x y &&& go a' b'
    | _, _ => pure true
    end in
  fun a b => if zlen a =? zlen b then go a b else pure false.
Definition option_eqc {A} (eqc : A -> A -> bool * Z) (a b : option A) : bool * Z :=
  match a, b with Some x, Some y => eqc x y | None, None => pure true | _, _ => pure false end.
Definition field_eqc {T} (eqc : T -> T -> bool * Z) (a b : obj_field T) : bool * Z :=
  match a, b with mkField n h t, mkField n' h' t' => pure (str_eqb n n') &&& pure (h =? h') &&& eqc t t' end.
Definition construct_eqc {T} (eqc : T -> T -> bool * Z) (a b : enum_construct T) : bool * Z :=
  match a, b with mkCon n np ps sz hp os, mkCon n' np' ps' sz' hp' os' =>
    pure (str_eqb n n') &&& pure (np =? np') &&& list_eqc eqc ps ps' &&& pure (sz =? sz') &&& pure (Bool.eqb hp hp') &&& pure (list_eqb Z.eqb os os') end.
Definition vtu_eqc {T} (eqc : T -> T -> bool * Z) (a b : vtu T) : bool * Z :=
  match a, b with
  | FuncType xs n r, FuncType xs' n' r' => list_eqc eqc xs xs' &&& pure (n =? n') &&& eqc r r'
  | ObjType n s fs nf np nb ps bs gs rt, ObjType n' s' fs' nf' np' nb' ps' bs' gs' rt' =>
      pure (str_eqb n n') &&& eqc s s' &&& list_eqc (field_eqc eqc) fs fs' &&& pure (nf =? nf') &&& pure (np =? np') &&& pure (nb =? nb')
      &&& pure (list_eqb proto_eqb ps ps') &&& pure (list_eqb Z.eqb bs bs') &&& pure (list_eqb Z.eqb gs gs') &&& pure (option_eqb unit_eqb rt rt')
  | VirtualType n fs, VirtualType n' fs' => pure (n =? n') &&& list_eqc (field_eqc eqc) fs fs'
  | EnumType n nc cs gs, EnumType n' nc' cs' gs' =>
      pure (str_eqb n n') &&& pure (nc =? nc') &&& list_eqc (construct_eqc eqc) cs cs' &&& pure (list_eqb Z.eqb gs gs')
  | URef t, URef t' => eqc t t'
  | UAbstract s, UAbstract s' => pure (str_eqb s s')
  | UNull, UNull => pure true
  | UVoid, UVoid => pure true
  | _, _ => pure false
  end.
(** one comparison, and those of the parts *)
Fixpoint vt_eqc (a b : vtype) {struct a} : bool * Z :=
  match a, b with
  | VT u n p k, VT u' n' p' k' =>
      (true, 1) &&& vtu_eqc vt_eqc u u' &&& pure (option_eqb str_eqb n n') &&& option_eqc vt_eqc p p' &&& pure (k =? k')
  end.
(** [types.iter().position(|v| *v == t)]: up to the first that is equal *)
Fixpoint position (ts : list vtype) (t : vtype) : R (option Z) :=
  match ts with
  | [] => rret None
  | x :: r => let (b, n) := vt_eqc x t in if b then (Ok (Some 0), n) else let (o, n') := position r t in
              (match o with Ok o => Ok (option_map (Z.add 1) o) | e => e end, n + n')
  end.

(** * The functions *)
(** ** No comparison of types *)
(** types.rs:105-195 *)
Definition vt_hash : bool -> vtype -> R Z := fun b t => free (HashModel.vt_hash b t).
(** code_hash.rs:34-44 *)
Definition alloc_indexes : code -> list Z -> R (list Z) := fun c l => free (HashModel.alloc_indexes c l).
(** code_hash.rs:46-49 *)
Definition alloc_types1 : code -> list Z -> R (list Z) := fun c l => free (HashModel.alloc_types1 c l).
(** code_hash.rs:104-134 *)
Definition alloc_constants : code -> list Z -> R (list Z) := fun c l => free (HashModel.alloc_constants c l).
(** code_hash.rs:136-152 *)
Definition alloc_boot : code -> list Z -> list Z -> R (list Z) := fun c fidx l => free (HashModel.alloc_boot c fidx l).
(** code_hash.rs:288-290 *)
Definition hfun : code_hash -> hasher -> Z -> R hasher := fun ch h i => free (HashModel.hfun ch h i).
(** code_hash.rs:305-449, one operand *)
Definition write_p : option Z -> hasher -> R hasher := fun o h => free (HashModel.write_p o h).
(** code_hash.rs:305-449, one of [extra] *)
Definition write_extra : opcode -> Z -> hasher -> R hasher := fun o i h => free (HashModel.write_extra o i h).
(** code_hash.rs:305-449, several of [extra] *)
Definition write_extras : opcode -> Z -> hasher -> R hasher := fun o n h => free (HashModel.write_extras o n h).
(** code_hash.rs:336-382, the callee *)
Definition write_call : code_hash -> opcode -> hasher -> R hasher := fun ch o h => free (HashModel.write_call ch o h).

(** ** With comparisons *)
(** [self.type_hashes[self.code.types.iter().position(|v| *v == t).unwrap()]], the pattern of
    code_hash.rs:168-170, 174-175, 194-195, 201-207, 222-223, 238-239, 245-246, 296-302, 328-334, 455-456.
    (In hash_fun and the OType case the right operand of == is an index expression evaluated inside the
    closure; only the kind of panic could differ, when the type table is empty.) *)
Definition hash_at (types : list vtype) (hs : list Z) (t : vtype) : R Z :=
  o <~ position types t ;; i <~ need PUnwrap o ;; need PIndex (znth hs i).

Definition write_type (types : list vtype) (hs : list Z) (t : vtype) (h : hasher) : R hasher :=
  x <~ hash_at types hs t ;; rret (write_u32 h x).

(** code_hash.rs:160-232 [hash_type_rec] *)
Definition hash_type_rec (ch : code_hash) (pos : Z) : R Z :=
  let types := c_types (ch_code ch) in
  let wt := write_type types (ch_type_hashes ch) in
  t <~ need PUnwrap (znth types pos) ;;
  let k := vt_kind t in
  let h := hasher_new in
  h <~ (if (k =? HFUN) || (k =? HMETHOD) then                          (* :164-177 *)
          match vt_union t with
          | FuncType args nargs r =>
              h <~ rfor nargs (fun i h => a <~ need PUnwrap (znth args i) ;; wt a h) h ;; wt r h
          | _ => rret h
          end
        else if (k =? HOBJ) || (k =? HSTRUCT) then                     (* :178-198 *)
          match vt_union t with
          | ObjType _ _ fields nfields _ _ _ _ _ _ =>
              rfor nfields (fun i h => f <~ need PUnwrap (znth fields i) ;; wt (fd_t f) h) h
          | _ => rret h
          end
        else if (k =? HREF) || (k =? HNULL) then                       (* :199-208 *)
          p <~ need PUnwrap (vt_tparam t) ;; wt p h
        else if k =? HENUM then                                        (* :209-227 *)
          match vt_union t with
          | EnumType _ nconstructs constructs _ =>
              rfor nconstructs (fun i h =>
                con <~ need PUnwrap (znth constructs i) ;;
                rfor (ec_nparams con) (fun k h => p <~ need PUnwrap (znth (ec_params con) k) ;; wt p h) h) h
          | _ => rret h
          end
        else rret h) ;;                                                (* :228 *)
  rret (hasher_finalize h).

(** code_hash.rs:453-458 [code_hash_type] *)
Definition code_hash_type (ch : code_hash) (t : vtype) : R Z :=
  h <~ write_type (c_types (ch_code ch)) (ch_type_hashes ch) t hasher_new ;; rret (hasher_finalize h).

(** :51-56: the second buffer starts with [ntypes] zeros, which [insert] pushes to the back *)
Definition alloc_types2 (ch : code_hash) (c : code) : R (list Z) :=
  rfor (c_ntypes c) (fun i l =>
    a <~ need PIndex (znth (ch_type_hashes ch) i) ;;
    b <~ hash_type_rec ch i ;;
    need PInsert (zinsert l i (Z.lxor a b))) (zrepeat 0 (c_ntypes c)).

(** :58-65; [as i32] of a [u32] or [usize] *)
Definition alloc_globals1 (ch : code_hash) (c : code) (l : list Z) : R (list Z) :=
  rfor (c_nglobals c) (fun i l =>
    l <~ need PIndex (zset l i (as_i32 (Z.lor i 2147483648))) ;;
    t <~ need PIndex (znth (c_globals c) i) ;;
    if vt_kind t =? HABSTRACT then x <~ code_hash_type ch t ;; need PIndex (zset l i (as_i32 x)) else rret l) l.

(** :67-103 *)
Definition alloc_globals2 (ch : code_hash) (c : code) (l : list Z) : R (list Z) :=
  rfor (c_ntypes c) (fun i l =>
    t <~ need PIndex (znth (c_types c) i) ;;
    let k := vt_kind t in
    let slot gs := x <~ code_hash_type ch t ;; g <~ need PIndex (znth gs 0) ;;
                   need PIndex (zset l (as_usize (g - 1)) (as_i32 x)) in
    if (k =? HOBJ) || (k =? HSTRUCT) then
      match vt_union t with ObjType _ _ _ _ _ _ _ _ gs _ => slot gs | _ => rret l end
    else if k =? HENUM then
      match vt_union t with EnumType _ _ _ gs => slot gs | _ => rret l end
    else rret l) l.

(** :154-156; xor of two [i32] *)
Definition alloc_finish (ch : code_hash) (c : code) (l : list Z) : R (list Z) :=
  rfor (c_nglobals c) (fun i l =>
    t <~ need PIndex (znth (c_globals c) i) ;;
    x <~ code_hash_type ch t ;;
    g <~ need PIndex (znth l i) ;;
    need PIndex (zset l i (Z.lxor g (as_i32 x)))) l.

Definition alloc (c : code) : R code_hash :=
  let ch := alloc_start c in
  idx <~ alloc_indexes c (ch_functions_indexes ch) ;;
  let ch := set_functions_indexes idx ch in
  hs <~ alloc_types1 c (ch_type_hashes ch) ;;
  let ch := set_type_hashes hs ch in
  hs2 <~ alloc_types2 ch c ;;
  let ch := set_type_hashes hs2 ch in
  l <~ alloc_globals1 ch c (ch_globals_signs ch) ;;
  l <~ alloc_globals2 ch c l ;;
  l <~ alloc_constants c l ;;
  l <~ alloc_boot c idx l ;;
  l <~ alloc_finish ch c l ;;
  rret (set_globals_signs l ch).

(** code_hash.rs:234-241 [hash_native] *)
Definition hash_native (ch : code_hash) (n : native) : R Z :=
  let h := hasher_write hasher_new (n_lib n) in
  let h := hasher_write h (n_name n) in
  h <~ write_type (c_types (ch_code ch)) (ch_type_hashes ch) (n_t n) h ;; rret (hasher_finalize h).

(** code_hash.rs:243-286 [hash_fun_sign] *)
Definition hash_fun_sign (ch : code_hash) (f : hl_function) : R Z :=
  h <~ write_type (c_types (ch_code ch)) (ch_type_hashes ch) (hf_t f) hasher_new ;;
  h <~ (match hf_obj f with
        | Some (ObjType name _ _ _ _ _ _ _ _ _) =>
            let h := hasher_write h name in
            fld <~ need PUnwrap (hf_field f) ;; rret (hasher_write h (ff_name fld))
        | _ => rret h
        end) ;;
  fld <~ need PUnwrap (hf_field f) ;;
  h <~ (match ff_rf fld with
        | Some rf =>
            let h := match hf_obj rf with Some (ObjType name _ _ _ _ _ _ _ _ _) => hasher_write h name | _ => h end in
            rfld <~ need PUnwrap (hf_field rf) ;;
            let h := hasher_write h (ff_name rfld) in
            rret (write_u32 h (hf_rf f))
        | None => rret h
        end) ;;
  rret (hasher_finalize h).

(** code_hash.rs:305-449, one instruction *)
Definition hash_op (ch : code_hash) (o : opcode) (h : hasher) : R hasher :=
  let c := ch_code ch in
  let h := write_u8 h (o_op o) in
  let op := o_op o in
  if op =? OInt then                                                   (* :309-313 *)
    h <~ write_p (o_p1 o) h ;; p <~ need PUnwrap (o_p2 o) ;; i <~ try_usize p ;;
    x <~ need PUnwrap (znth (c_ints c) i) ;; rret (write_i32 h x)
  else if op =? OFloat then                                            (* :314-319 *)
    h <~ write_p (o_p1 o) h ;; p <~ need PUnwrap (o_p2 o) ;; i <~ try_usize p ;;
    x <~ need PUnwrap (znth (c_floats c) (2 * i)) ;; let h := write_i32 h (f64_as_i32 x) in
    y <~ need PUnwrap (znth (c_floats c) (2 * i + 1)) ;; rret (write_i32 h (f64_as_i32 y))
  else if op =? OString then                                           (* :320-324 *)
    h <~ write_p (o_p1 o) h ;; p <~ need PUnwrap (o_p2 o) ;; i <~ try_usize p ;;
    s <~ need PUnwrap (znth (c_strings c) i) ;; rret (hasher_write h s)
  else if op =? OType then                                             (* :325-335 *)
    h <~ write_p (o_p1 o) h ;; p <~ need PUnwrap (o_p2 o) ;; i <~ try_usize p ;;
    t <~ need PIndex (znth (c_types c) i) ;; write_type (c_types c) (ch_type_hashes ch) t h
  else if op =? OCall0 then                                            (* :336-339 *)
    h <~ write_p (o_p1 o) h ;; write_call ch o h
  else if op =? OCall1 then                                            (* :340-344 *)
    h <~ write_p (o_p1 o) h ;; h <~ write_call ch o h ;; write_p (o_p3 o) h
  else if op =? OCall2 then                                            (* :345-350 *)
    h <~ write_p (o_p1 o) h ;; h <~ write_call ch o h ;; h <~ write_p (o_p3 o) h ;; write_extras o 1 h
  else if op =? OCall3 then                                            (* :351-357 *)
    h <~ write_p (o_p1 o) h ;; h <~ write_call ch o h ;; h <~ write_p (o_p3 o) h ;; write_extras o 2 h
  else if op =? OCall4 then                                            (* :358-365 *)
    h <~ write_p (o_p1 o) h ;; h <~ write_call ch o h ;; h <~ write_p (o_p3 o) h ;; write_extras o 3 h
  else if op =? OCallN then                                            (* :366-373 *)
    h <~ write_p (o_p1 o) h ;; h <~ write_call ch o h ;; h <~ write_p (o_p3 o) h ;;
    n <~ need PUnwrap (o_p3 o) ;; write_extras o n h
  else if op =? OStaticClosure then                                    (* :374-377 *)
    h <~ write_p (o_p1 o) h ;; write_call ch o h
  else if op =? OInstanceClosure then                                  (* :378-382 *)
    h <~ write_p (o_p1 o) h ;; h <~ write_call ch o h ;; write_p (o_p3 o) h
  else if op =? ODynGet then                                           (* :383-387 *)
    h <~ write_p (o_p1 o) h ;; h <~ write_p (o_p2 o) h ;; p <~ need PUnwrap (o_p3 o) ;;
    s <~ need PIndex (znth (c_strings c) (as_usize p)) ;; rret (hasher_write h s)
  else if op =? ODynSet then                                           (* :388-392 *)
    h <~ write_p (o_p1 o) h ;; p <~ need PUnwrap (o_p2 o) ;;
    s <~ need PIndex (znth (c_strings c) (as_usize p)) ;; write_p (o_p3 o) (hasher_write h s)
  else
    nargs <~ need PIndex (znth OP_NARGS op) ;;                         (* :393 *)
    if nargs =? 0 then rret h
    else if nargs =? 1 then write_p (o_p1 o) h
    else if nargs =? 2 then h <~ write_p (o_p1 o) h ;; write_p (o_p2 o) h
    else if nargs =? 3 then h <~ write_p (o_p1 o) h ;; h <~ write_p (o_p2 o) h ;; write_p (o_p3 o) h
    else if nargs =? 4 then                                            (* :407-412 *)
      h <~ write_p (o_p1 o) h ;; h <~ write_p (o_p2 o) h ;; h <~ write_p (o_p3 o) h ;; write_extras o 1 h
    else if nargs =? -1 then                                           (* :413-438 *)
      if (op =? OCallN) || (op =? OCallClosure) || (op =? OCallMethod) || (op =? OCallThis) || (op =? OMakeEnum) then
        h <~ write_p (o_p1 o) h ;; h <~ write_p (o_p2 o) h ;; h <~ write_p (o_p3 o) h ;;
        n <~ need PUnwrap (o_p3 o) ;; write_extras o n h
      else if op =? OSwitch then
        h <~ write_p (o_p1 o) h ;; h <~ write_p (o_p2 o) h ;;
        n <~ need PUnwrap (o_p2 o) ;; h <~ write_extras o n h ;; write_p (o_p3 o) h
      else rret h
    else                                                               (* :439-447 *)
      h <~ write_p (o_p1 o) h ;; h <~ write_p (o_p2 o) h ;; h <~ write_p (o_p3 o) h ;; write_extras o (nargs - 3) h.

(** code_hash.rs:292-452 [hash_fun] *)
Definition hash_fun (ch : code_hash) (f : hl_function) : R Z :=
  h <~ rfor (hf_nregs f) (fun i h =>
         t <~ need PIndex (znth (hf_regs f) i) ;; write_type (c_types (ch_code ch)) (ch_type_hashes ch) t h) hasher_new ;;
  h <~ rfor (hf_nops f) (fun k h => o <~ need PIndex (znth (hf_ops f) k) ;; hash_op ch o h) h ;;
  rret (hasher_finalize h).

(** code_hash.rs:460-477 [finalize] *)
Definition finalize (ch : code_hash) : R code_hash :=
  let c := ch_code ch in
  signs <~ rfor (c_nfunctions c) (fun i l =>
             f <~ need PIndex (znth (c_functions c) i) ;; x <~ hash_fun_sign ch f ;; need PIndex (zset l i x))
           (zrepeat 0 (c_nfunctions c + c_nnatives c)) ;;
  signs <~ rfor (c_nnatives c) (fun i l =>                             (* :467-470: index i, not nfunctions + i *)
             n <~ need PIndex (znth (c_natives c) i) ;; x <~ hash_native ch n ;; need PIndex (zset l i x)) signs ;;
  let ch := set_functions_signs signs ch in
  hs <~ rfor (c_nfunctions c) (fun i l =>
          f <~ need PIndex (znth (c_functions c) i) ;;
          x <~ hash_fun (set_functions_hashes l ch) f ;; need PIndex (zset l i x))
        (zrepeat 0 (c_nfunctions c)) ;;
  rret (set_functions_hashes hs ch).

