(** What "nested" means for types: vocabulary of C89. *)
From Verif Require Import Prelude BrassTypes.

(** [owns t s]: [s] is stored directly in [t] (types.rs:61-102, 211-234: [Vec<ValueType>], [Box<ValueType>], [ObjField.t],
    [EnumConstruct.params]). *)
Inductive owns : vtype -> vtype -> Prop :=
| owns_param u n q k : owns (VT u n (Some q) k) q
| owns_arg args m r n p k a : In a args -> owns (VT (FuncType args m r) n p k) a
| owns_ret args m r n p k : owns (VT (FuncType args m r) n p k) r
| owns_super x s fs nf np nb ps bs gs rt n p k : owns (VT (ObjType x s fs nf np nb ps bs gs rt) n p k) s
| owns_field x s fs nf np nb ps bs gs rt n p k f : In f fs -> owns (VT (ObjType x s fs nf np nb ps bs gs rt) n p k) (fd_t f)
| owns_virtual nf fs n p k f : In f fs -> owns (VT (VirtualType nf fs) n p k) (fd_t f)
| owns_construct x nc cs gs n p k c a : In c cs -> In a (ec_params c) -> owns (VT (EnumType x nc cs gs) n p k) a
| owns_ref t n p k : owns (VT (URef t) n p k) t.
(** a chain of [n] types starting with [t], each owned by the one before *)
Inductive nested : Z -> vtype -> Prop :=
| nested_one t : nested 1 t
| nested_more t s n : owns t s -> nested n s -> nested (n + 1) t.
(** the longest such chain has [n] types *)
Definition deepest (n : Z) (t : vtype) : Prop := nested n t /\ forall m, nested m t -> m <= n.
(** every type stored in a module *)
Definition stored_types (c : code) : list vtype :=
  c_types c ++ c_globals c ++ map n_t (c_natives c) ++ flat_map (fun f => hf_t f :: hf_regs f) (c_functions c).
