(** Files that are spelled right but refer to strings or types that do not exist.  Used by C83.

    The types, globals and natives of a file are cut into marked pieces: [Name], an index into the string
    table; [Ref], an index into the type table; [Plain], anything else.  The relations [mark_*] are
    [spell_type], [ix] and [spell_native] of GrammarSpec.v with the pieces shown (C83_marks: same bytes). *)
From Verif Require Import Prelude StdModel BrassTypes FormatSpec ErrSpec GrammarSpec.

Inductive mark := Plain | Name | Ref.
Definition marked : Type := list (mark * list Z).
Definition text_of (l : marked) : list Z := flat_map snd l.

Inductive manym {A} (P : marked -> A -> Prop) : marked -> list A -> Prop :=
| manym_nil : manym P [] []
| manym_cons l ls x xs : P l x -> manym P ls xs -> manym P (l ++ ls) (x :: xs).
Definition bothm {A B} (P : marked -> A -> Prop) (Q : marked -> B -> Prop) (l : marked) (p : A * B) : Prop :=
  exists l1 l2, l = l1 ++ l2 /\ P l1 (fst p) /\ Q l2 (snd p).
Definition one (g : mark) (l : marked) (v : Z) : Prop := exists b, l = [(g, b)] /\ ix b v.
Definition count (l : marked) (v : Z) : Prop := exists b, l = [(Plain, b)] /\ uix b v.
Definition super_mark (l : marked) (sup : option Z) : Prop := exists b, l = [(Plain, b)] /\ super_ix b sup.
Definition kind (k : Z) : marked := [(Plain, [k])].

Definition mark_type (l : marked) (t : atype) : Prop :=
  match t with
  | APrim k => l = kind k /\ In k prim_kinds
  | AFun m args r =>
      exists a b, l = kind (if m then HMETHOD else HFUN) ++ kind (zlen args) ++ a ++ b /\ zlen args < 256 /\
        manym (one Ref) a args /\ one Ref b r
  | AObj st name sup g fs ps ds =>
      exists l1 l2 l3 l4 l5 l6 l7 l8 l9,
        l = kind (if st then HSTRUCT else HOBJ) ++ l1 ++ l2 ++ l3 ++ l4 ++ l5 ++ l6 ++ l7 ++ l8 ++ l9 /\
        one Name l1 name /\ super_mark l2 sup /\ count l3 g /\ count l4 (zlen fs) /\ count l5 (zlen ps) /\ count l6 (zlen ds) /\
        manym (bothm (one Name) (one Ref)) l7 fs /\ manym (bothm (bothm (one Name) count) (one Plain)) l8 ps /\
        manym (bothm count count) l9 ds
  | AVirtual fs => exists l1 l2, l = kind HVIRTUAL ++ l1 ++ l2 /\ count l1 (zlen fs) /\ manym (bothm (one Name) (one Ref)) l2 fs
  | AAbstract n => exists l1, l = kind HABSTRACT ++ l1 /\ one Name l1 n
  | AEnum n g cs =>
      exists l1 l2 l3 l4, l = kind HENUM ++ l1 ++ l2 ++ l3 ++ l4 /\ one Name l1 n /\ count l2 g /\ count l3 (zlen cs) /\
        manym (bothm (one Name) (fun l ts => exists l1 l2, l = l1 ++ l2 /\ count l1 (zlen ts) /\ manym (one Ref) l2 ts)) l4 cs
  | AParam k t => exists l1, l = kind k ++ l1 /\ In k param_kinds /\ one Ref l1 t
  end.
Definition mark_native : marked -> Z * Z * Z * Z -> Prop := bothm (bothm (bothm (one Name) (one Name)) (one Ref)) count.

(** The references of pieces starting at byte [p] that do not exist, with the byte after them: [ns] strings and [nt] types are announced. *)
Definition fault (ns nt : Z) (g : mark) (v : Z) : option err_kind :=
  match g with
  | Plain => None
  | Name => if (0 <=? v) && (v <? ns) then None else Some InvalidStringIndex
  | Ref => if (0 <=? v) && (v <? nt) then None else Some InvalidTypeIndex
  end.
Fixpoint faults (ns nt p : Z) (l : marked) : list derr :=
  match l with
  | [] => []
  | (g, b) :: r =>
      let p' := p + zlen b in
      match index_value b with
      | Some v => match fault ns nt g v with Some k => [{| e_kind := k; e_pos := p' |}] | None => [] end
      | None => []
      end ++ faults ns nt p' r
  end.
Definition last_of (l : list derr) : option derr := last (map Some l) None.

(** The super type of entry [i] is, if any, among the [nt + i] entries of the type table at that time. *)
Fixpoint supers_exist (nt i : Z) (ats : list atype) : Prop :=
  match ats with
  | [] => True
  | a :: r => match a with AObj _ _ (Some k) _ _ _ _ => k < nt + i | _ => True end /\ supers_exist nt (i + 1) r
  end.

(** A spelled file up to its types: header, numbers, strings, bytes, debug files. *)
Definition spell_head (bs : list Z) (m : rmod) (ss fs : list str) : Prop :=
  exists h s1 s2 s3, bs = h ++ flat_map (enc_le 4) (rm_ints m) ++ flat_map (enc_le 8) (rm_floats m) ++ s1 ++ s2 ++ s3 /\
    spell_header h m /\ Forall i32_range (rm_ints m) /\ Forall (fun x => 0 <= x < 2 ^ 64) (rm_floats m) /\
    spell_strings s1 (rm_strings m) /\ spell_bytes s2 m /\ spell_debugfiles s3 m /\
    2 <= rm_version m <= 5 /\ strings_of (rm_strings m) ss /\ strings_of (rm_debugfiles m) fs.
(** A function up to its instructions: type, number, numbers of registers and instructions, registers. *)
Definition mark_fun (l : marked) (f : rfun) : Prop :=
  exists l1 l2 l3 l4 l5, l = l1 ++ l2 ++ l3 ++ l4 ++ l5 /\ one Ref l1 (rf_type f) /\ count l2 (rf_findex f) /\
    count l3 (zlen (rf_regs f)) /\ count l4 (zlen (rf_ops f)) /\ manym (one Ref) l5 (rf_regs f).
