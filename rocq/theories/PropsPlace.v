(** Theorem C77: exact placement over whole histories.  Model: ImmixModel.v.  Vocabulary: ImmixSpec.v. *)
From Coq Require Import Lia ZifyBool Permutation.
From Verif Require Import Prelude ImmixModel ImmixSpec.
From Verif Require Import ImmixBlockProofs ImmixHeapProofs ImmixHistoryProofs PropsImmix.
Ltac Zify.zify_post_hook ::= Z.div_mod_to_equations.

(** * A reference allocator that knows no addresses *)
(** Blocks are named by the number of the system allocator call that granted them.  The state is the number of calls
    made, and the two blocks in use with their first free offsets. *)
Record slots := { s_calls : nat; s_head : option (nat * Z); s_over : option (nat * Z) }.
Definition fits (sl : option (nat * Z)) (sz : Z) : bool := match sl with Some (_, c) => c + sz <=? 32768 | None => false end.
(** A request goes to the main block unless it takes more than 128 bytes and does not fit there; if it does not fit in the block it
    goes to, that block is replaced by a new one, whose first 16 bytes are kept free. *)
Definition to_main (st : slots) (sz : Z) : bool :=
  match s_head st with None => true | Some _ => (sz <=? 128) || fits (s_head st) sz end.
Definition slot (st : slots) (main : bool) : option (nat * Z) := if main then s_head st else s_over st.
Definition with_slot (st : slots) (main : bool) (n : nat) (x : nat * Z) : slots :=
  if main then {| s_calls := n; s_head := Some x; s_over := s_over st |} else {| s_calls := n; s_head := s_head st; s_over := Some x |}.
Definition ref_place (avail : nat -> bool) (st : slots) (sz : Z) : option (nat * Z) * slots :=
  let main := to_main st sz in
  match slot st main with
  | Some (b, c) =>
      if c + sz <=? 32768 then (Some (b, c), with_slot st main (s_calls st) (b, c + sz))
      else if avail (s_calls st) then (Some (s_calls st, 16), with_slot st main (S (s_calls st)) (s_calls st, 16 + sz))
      else (None, {| s_calls := S (s_calls st); s_head := s_head st; s_over := s_over st |})
  | None =>
      if avail (s_calls st) then (Some (s_calls st, 16), with_slot st main (S (s_calls st)) (s_calls st, 16 + sz))
      else (None, {| s_calls := S (s_calls st); s_head := s_head st; s_over := s_over st |})
  end.
(** Answers: refused, no memory, or storage at an offset of a block; [RStore] for a client store. *)
Inductive answer := RBad | RFull | RAt (block : nat) (offset : Z) | RStore.
Definition ref_step (avail : nat -> bool) (hs : Z) (st : slots) (o : op) : answer * slots :=
  match payload_of o with
  | None => (RStore, st)
  | Some n =>
      let sz := storage_size hs n in
      if (0 <? sz) && (sz <=? 32752) then
        match ref_place avail st sz with
        | (Some (b, off), st') => (RAt b off, st')
        | (None, st') => (RFull, st')
        end
      else (RBad, st)
  end.
Fixpoint ref_run (avail : nat -> bool) (hs : Z) (st : slots) (ops : list op) : list answer :=
  match ops with [] => [] | o :: r => let (a, st') := ref_step avail hs st o in a :: ref_run avail hs st' r end.
Definition slots0 : slots := {| s_calls := 0; s_head := None; s_over := None |}.

(** * The two worlds *)
Definition block_layout : layout := {| l_size := 32768; l_align := 32768 |}.
(** Which calls succeed. *)
Definition avail_of (E : env) (i : nat) : bool := match sys E i block_layout with Some _ => true | None => false end.
(** What the client sees for an answer: objects start after their header. *)
Definition seen (E : env) (hs : Z) (o : op) (a : answer) (r : res alloc_error Z) : Prop :=
  match a with
  | RBad => r = Err BadRequest
  | RFull => r = Err OOM
  | RAt b off => exists p, sys E b block_layout = Some p /\ r = Ok (p + off + hs)
  | RStore => exists p off bytes, o = OpWrite p off bytes /\ r = Ok p
  end.
(** Values that exist (as in [op_legal]); stores may go anywhere. *)
Definition sized (o : op) : Prop :=
  match o with OpAlloc ob => zlen (ob_bytes ob) < 2 ^ 62 | OpAllocArray n => 0 <= n < 2 ^ 32 | OpWrite _ _ _ => True end.

Definition holds (E : env) (sl : option (nat * Z)) (b : option bump_block) : Prop :=
  match sl, b with
  | None, None => True
  | Some (i, c), Some b => sys E i L = Some (base_of b) /\ bb_cursor b = c
  | _, _ => False
  end.
Definition sim (E : env) (st : slots) (s : hstate) : Prop :=
  good E s /\ w_calls (hs_world s) = s_calls st /\ holds E (s_head st) (head (hs_blocks s)) /\ holds E (s_over st) (overflow (hs_blocks s)).

Lemma outcome_good E s size r s' : 0 < size -> size <= 32752 -> size mod 8 = 0 -> good E s -> outcome E s size r s' -> good E s'.
Proof.
  intros H0 H1 H8 G O. unfold good in *. destruct O as [b others bl' P P' Hr _|p bl' Hs P _|Hs]; cbn [hs_blocks hs_world mkhs].
  - rewrite P'. rewrite P in G. apply Forall_cons_iff in G as [Gb G]. constructor; [|exact G].
    destruct Gb as [B1 B2 B3 B4 B5]. unfold room in Hr. split; cbn [bump bb_set bb_limit bb_cursor bb_block bb_meta_addr]; auto; lia.
  - rewrite P. cbn [tick_new w_calls]. constructor.
    + split; cbn [fresh bb_limit bb_cursor bb_block bb_meta_addr blk_size]; try lia. exists (w_calls (hs_world s)). split; [lia|]. split; [exact Hs|reflexivity].
    + eapply Forall_impl; [|exact G]. intros b Hb. eapply bok_mono; [|exact Hb]. lia.
  - cbn [tick w_calls]. eapply Forall_impl; [|exact G]. intros b Hb. eapply bok_mono; [|exact Hb]. lia.
Qed.

Lemma ref_place_ok E st s size : sim E st s -> 0 < size <= 32752 -> size mod 8 = 0 ->
  sim E (snd (ref_place (avail_of E) st size)) (snd (place E s size)) /\
  match fst (ref_place (avail_of E) st size) with
  | Some (b, off) => exists p, sys E b L = Some p /\ fst (place E s size) = Ok (p + off)
  | None => fst (place E s size) = Err OOM
  end.
Proof.
  intros (G & C & Hh & Ho) Hs H8.
  pose proof (outcome_good E s size _ _ ltac:(lia) ltac:(lia) H8 G (place_outcome E s size ltac:(lia))) as G'.
  enough (K : (w_calls (hs_world (snd (place E s size))) = s_calls (snd (ref_place (avail_of E) st size)) /\
     holds E (s_head (snd (ref_place (avail_of E) st size))) (head (hs_blocks (snd (place E s size)))) /\
     holds E (s_over (snd (ref_place (avail_of E) st size))) (overflow (hs_blocks (snd (place E s size))))) /\
    match fst (ref_place (avail_of E) st size) with
    | Some (b, off) => exists p, sys E b L = Some p /\ fst (place E s size) = Ok (p + off)
    | None => fst (place E s size) = Err OOM
    end).
  { destruct K as [(K1 & K2 & K3) K4]. split; [split; auto|exact K4]. }
  clear G G'. destruct s as [[hd ov re] w]. destruct st as [n sh so]. cbn [s_calls s_head s_over hs_blocks hs_world head overflow] in *. subst n.
  unfold ref_place, place, to_main, slot, with_slot, avail_of, fits, block_layout. fold L. cbn [s_calls s_head s_over hs_blocks hs_world head overflow].
  destruct hd as [hd|], sh as [[i c]|]; cbn [holds] in Hh; try contradiction.
  - destruct Hh as [Hh1 <-]. unfold room.
    destruct (Z.leb_spec size (32768 - bb_cursor hd)) as [F|F].
    + assert (F' : (bb_cursor hd + size <=? 32768) = true) by lia. rewrite F', orb_true_r. cbv zeta iota beta. rewrite F'.
      cbn [fst snd hs_blocks hs_world mkhs set_head head overflow holds s_head s_over s_calls bump bb_set bb_cursor base_of bb_block].
      split; [repeat split; auto|]. exists (base_of hd). auto.
    + assert (F' : (bb_cursor hd + size <=? 32768) = false) by lia. rewrite F', orb_false_r.
      destruct (Z.leb_spec size 128) as [S|S]; cbv zeta iota beta.
      * rewrite F'. destruct (sys E (w_calls w) L) as [p|] eqn:Es; cbn; rewrite ?Es; repeat split; auto. exists p. auto.
      * destruct ov as [ov|], so as [[j d]|]; cbn [holds] in Ho; try contradiction.
        { destruct Ho as [Ho1 <-]. destruct (Z.leb_spec size (32768 - bb_cursor ov)) as [F2|F2].
          - replace (bb_cursor ov + size <=? 32768) with true by lia.
            cbn [fst snd hs_blocks hs_world mkhs set_overflow head overflow holds s_head s_over s_calls bump bb_set bb_cursor base_of bb_block].
            split; [repeat split; auto|]. exists (base_of ov). auto.
          - replace (bb_cursor ov + size <=? 32768) with false by lia.
            destruct (sys E (w_calls w) L) as [p|] eqn:Es; cbn; rewrite ?Es; repeat split; auto. exists p. auto. }
        { destruct (sys E (w_calls w) L) as [p|] eqn:Es; cbn; rewrite ?Es; repeat split; auto. exists p. auto. }
  - destruct (sys E (w_calls w) L) as [p|] eqn:Es; cbn; rewrite ?Es; repeat split; auto. exists p. auto.
Qed.
Lemma sim_write E st s a bytes : sim E st s -> sim E st (w_write s a bytes).
Proof. intros (G & C & H1 & H2). split; [exact G|]. repeat split; auto. Qed.
Lemma ref_step_ok E H st s o : hdr_ok H -> sized o -> sim E st s ->
  seen E (h_size H) o (fst (ref_step (avail_of E) (h_size H) st o)) (fst (exec E H s o)) /\
  sim E (snd (ref_step (avail_of E) (h_size H) st o)) (snd (exec E H s o)).
Proof.
  intros HH Hs S.
  assert (Req : forall n hdr data, sim E st s -> let x := (let sz := storage_size (h_size H) n in if (0 <? sz) && (sz <=? 32752) then
      match ref_place (avail_of E) st sz with (Some (b, off), st') => (RAt b off, st') | (None, st') => (RFull, st') end else (RBad, st)) in
    seen E (h_size H) o (fst x) (fst (request E H s n hdr data)) /\ sim E (snd x) (snd (request E H s n hdr data))).
  { intros n hdr data S0. cbv zeta. unfold request. set (sz := storage_size (h_size H) n). unfold class_ok.

    destruct ((0 <? sz) && (sz <=? 32752)) eqn:Ec.
    - assert (H8 : sz mod 8 = 0) by (subst sz; unfold storage_size; lia). destruct (ref_place_ok E st s sz S0 ltac:(lia) H8) as [K1 K2].
      destruct (ref_place (avail_of E) st sz) as [[[b off]|] st'], (place E s sz) as [r s1]; cbn [fst snd] in *.
      + destruct K2 as (p & Hp & ->). cbn [fst snd seen]. split; [exists p; auto|]. now apply sim_write, sim_write.
      + subst r. cbn [fst snd seen]. auto.
    - cbn [fst snd seen]. auto. }
  destruct o as [ob|n|p off bytes]; cbn [exec ref_step payload_of] in *.
  - rewrite request_alloc by (auto; apply S). now apply Req.
  - rewrite request_array by (auto; apply S). now apply Req.
  - cbn [fst snd seen]. split; [eauto 10|]. now apply sim_write.
Qed.

(** * C77 *)
(** Whatever the system allocator returns and whatever the client stores, the answers of the heap to a history of
    requests are those of the reference allocator, an offset in the [i]-th granted block standing for its address. *)
Theorem C77_exact E H m ops : hdr_ok H -> Forall sized ops ->
  Forall2 (fun oa r => seen E (h_size H) (fst oa) (snd oa) r)
    (combine ops (ref_run (avail_of E) (h_size H) slots0 ops)) (fst (run E H (state0 m) ops)).
Proof.
  intros HH F. assert (S : sim E slots0 (state0 m)) by (split; [constructor|repeat split]).
  revert S. generalize slots0, (state0 m). induction F as [|o ops Ho _ IH]; intros st s S; cbn [ref_run run combine]; [constructor|].
  destruct (ref_step_ok E H st s o HH Ho S) as [K1 K2].
  destruct (ref_step (avail_of E) (h_size H) st o) as [a st'], (exec E H s o) as [r s1]. cbn [fst snd] in K1, K2.
  specialize (IH st' s1 K2). destruct (run E H s1 ops) as [rs s2]. cbn [fst combine] in *. constructor; auto.
Qed.
(** So two heaps under the same requests, whose system allocators fail at the same calls, and whose headers have the same
    size, make the same decisions and put every object at the same offset of the same block, whatever addresses the blocks have, and
    whatever the objects, headers, stores and initial memory contain. *)
Definition same_request (o o' : op) : Prop := payload_of o = payload_of o'.
Definition same_answer (E E' : env) (r r' : res alloc_error Z) : Prop :=
  match r, r' with
  | Ok a, Ok a' => exists i p p', sys E i block_layout = Some p /\ sys E' i block_layout = Some p' /\ a - p = a' - p'
  | Err e, Err e' => e = e'
  | _, _ => False
  end.
Lemma ref_run_same avail avail' hs ops ops' : (forall i, avail i = avail' i) -> Forall2 same_request ops ops' ->
  forall st, ref_run avail hs st ops = ref_run avail' hs st ops'.
Proof.
  intros A F. induction F as [|o o' ops ops' Ho F IH]; intros st; cbn [ref_run]; [reflexivity|].
  assert (E : ref_step avail hs st o = ref_step avail' hs st o').
  { unfold ref_step. rewrite Ho. destruct (payload_of o') as [n|]; [|reflexivity]. cbv zeta. unfold ref_place. now rewrite !A. }
  rewrite E. destruct (ref_step avail' hs st o') as [a st']. now rewrite IH.
Qed.
Theorem C77_address_independent E E' H H' m m' ops ops' : hdr_ok H -> hdr_ok H' -> h_size H = h_size H' ->
  (forall i, sys E i block_layout = None <-> sys E' i block_layout = None) ->
  Forall sized ops -> Forall sized ops' -> Forall2 same_request ops ops' ->
  Forall2 (fun o rr => payload_of o <> None -> same_answer E E' (fst rr) (snd rr))
    ops (combine (fst (run E H (state0 m) ops)) (fst (run E' H' (state0 m') ops'))).
Proof.
  intros HH HH' Hs A F F' R. pose proof (C77_exact E H m ops HH F) as K. pose proof (C77_exact E' H' m' ops' HH' F') as K'.
  rewrite <- Hs in K'. rewrite <- (ref_run_same (avail_of E) (avail_of E') (h_size H) ops ops') in K'; [|intros i; unfold avail_of; specialize (A i);
     destruct (sys E i block_layout), (sys E' i block_layout); auto; exfalso; [assert (X : Some z = None) by tauto|assert (X : Some z = None) by tauto]; discriminate|exact R].
  revert K K'. generalize (fst (run E H (state0 m) ops)), (fst (run E' H' (state0 m') ops')).
  assert (L : length (ref_run (avail_of E) (h_size H) slots0 ops) = length ops).
  { generalize slots0. clear. induction ops as [|o ops IH]; intros st; cbn [ref_run length]; [reflexivity|].
    destruct (ref_step (avail_of E) (h_size H) st o). cbn [length]. now rewrite IH. }
  revert L. generalize (ref_run (avail_of E) (h_size H) slots0 ops). clear F F' HH HH'.
  induction R as [|o o' ops ops' Ho R IH]; intros [|a as_] L rs rs' K K'; cbn [length combine] in *; try discriminate; inversion K; inversion K'; subst; cbn [combine]; constructor.
  - cbn [fst snd] in *. intros P. destruct a; cbn [seen] in *.
    + subst. reflexivity.
    + subst. reflexivity.
    + match goal with X : exists p, _ /\ _ |- _ => destruct X as (q & Hq & ->) end.
      match goal with X : exists p, _ /\ _ |- _ => destruct X as (q' & Hq' & ->) end. exists block, q', q. repeat split; auto. lia.
    + match goal with X : exists p, _ |- _ => destruct X as (q & off & bs & -> & _) end.
      match goal with X : exists p, _ |- _ => destruct X as (q' & off' & bs' & -> & _) end. destruct (P eq_refl).
  - apply (IH as_); auto.
Qed.

(** Small, medium to the main block, medium to the overflow block, too large, small to the main block, and an exhausted
    system allocator. *)
(** Small, medium to the main block, medium to the overflow block, a store, too large, small to a new main block; the same requests
    over blocks at other addresses. *)
Definition ex_history : list op :=
  [OpAlloc ex_obj; OpAllocArray 32700; OpAllocArray 300; OpWrite 32792 1 [9]; OpAllocArray 32745; OpAllocArray 20].
Definition env_high : env := {| sys := fun i l => option_map (fun p => 2 ^ 40 - 2 * p) (sys env_ex i l); boxaddr := boxaddr env_ex |}.
Example C77_ex : Forall sized ex_history /\ hdr_ok ex_h /\ Forall2 same_request ex_history ex_history /\
  (forall i, sys env_ex i block_layout = None <-> sys env_high i block_layout = None) /\
  ref_run (avail_of env_ex) 8 slots0 ex_history = [RAt 0 16; RAt 0 32; RAt 1 16; RStore; RBad; RAt 2 16] /\
  fst (run env_ex ex_h (state0 ex_m) ex_history) = [Ok 32792; Ok 32808; Ok 65560; Ok 32792; Err BadRequest; Ok 98328] /\
  fst (run env_high ex_h (state0 ex_m) ex_history) =
    [Ok (2 ^ 40 - 65536 + 24); Ok (2 ^ 40 - 65536 + 40); Ok (2 ^ 40 - 131072 + 24); Ok 32792; Err BadRequest; Ok (2 ^ 40 - 196608 + 24)].
Proof.
  split; [repeat constructor; cbn; lia|]. split; [apply hdr_ex_ok; lia|]. split; [repeat constructor|].
  split; [intros i; unfold env_high; cbn [sys]; destruct (sys env_ex i block_layout); cbn; split; congruence|].
  split; [vm_compute; reflexivity|]. split; vm_compute; reflexivity.
Qed.
