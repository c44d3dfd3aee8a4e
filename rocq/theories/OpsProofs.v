(** Instructions and debug information. *)
From Verif Require Import Prelude StdModel BrassTypes DecoderModel CodeModel FormatSpec CodeGenericProofs
  Utf8Proofs FormatProofs StringsProofs.
From Coq Require Import Lia.

(** The specification's operand counts are the reader's table. *)
Lemma arity_table op n : arity op = Some (Some n) -> 0 <= op < 99 /\ znth OP_NARGS op = Some n /\ 0 <= n <= 6.
Proof.
  intros H. assert (R : 0 <= op < 99).
  { pose proof (znth_some_range _ _ _ H). exact H0. }
  split; [exact R|].
  assert (C : (match arity op with
               | Some (Some n) => match znth OP_NARGS op with
                                  | Some m => (m =? n) && (0 <=? n) && (n <=? 6) | None => false end
               | _ => true end) = true).
  { apply (byte_case (fun op => match arity op with
               | Some (Some n) => match znth OP_NARGS op with
                                  | Some m => (m =? n) && (0 <=? n) && (n <=? 6) | None => false end
               | _ => true end)); [vm_compute; reflexivity|lia]. }
  rewrite H in C. destruct (znth OP_NARGS op) as [m|]; [|discriminate].
  apply andb_true_iff in C. destruct C as [C C3]. apply andb_true_iff in C. destruct C as [C1 C2].
  apply Z.eqb_eq in C1. apply Z.leb_le in C2, C3. subst. split; [reflexivity|lia].
Qed.

Lemma eats_read_extra c (m : M Z) (P : Z -> Prop) xs n :
  (forall x, P x -> eats c m (enc_index x) x c) -> n = zlen xs -> Forall P xs ->
  eats c (read_extra m n) (flat_map enc_index xs) (xs ++ zrepeat 0 n) c.
Proof.
  intros Hm -> F. unfold read_extra.
  change (zrepeat 0 (zlen xs)) with ([] ++ zrepeat 0 (zlen xs)) at 1.
  apply (eats_for_range enc_index (fun p => p ++ zrepeat 0 (zlen xs)) (fun _ => c)); [reflexivity|].
  intros p x q E. rewrite E in F. apply Forall_app in F. destruct F as [_ F].
  apply Forall_cons_iff in F. destruct F as [Hx _].
  eapply eats_bind_last. { apply eats_unwrap, Hm. exact Hx. }
  apply eats_expect. rewrite <- app_assoc. now apply zinsert_mid.
Qed.

Lemma eats_bind_app2 {A B} c (m : M A) b1 a c1 (k : A -> M B) b2 b c2 bs :
  bs = b1 ++ b2 -> eats c m b1 a c1 -> eats c1 (k a) b2 b c2 -> eats c (bind m k) bs b c2.
Proof. intros ->. apply eats_bind. Qed.

Lemma eats_read_opcode c i : wf_aop i -> eats c read_opcode (enc_aop i) (read_op i) c.
Proof.
  intros W. unfold read_opcode. destruct i as [op args|op p1 p2 xs|r offs e]; cbn [wf_aop enc_aop] in *.
  - destruct W as [Wa F]. destruct (arity_table _ _ Wa) as (R & T & Rn). clear Wa.
    change (op :: ?b) with ([op] ++ b). eapply eats_bind; [apply eats_unwrap, eats_u8|].
    destruct (Z.leb_spec 99 op); [lia|].
    eapply eats_bind_nil; [apply eats_expect; exact T|]. clear T.
    destruct args as [|a1 [|a2 [|a3 [|a4 [|a5 [|a6 [|a7 args]]]]]]].
    8: { exfalso. rewrite !zlen_cons in Rn. pose proof (zlen_nonneg args). lia. }
    all: repeat match goal with H : Forall _ (_ :: _) |- _ => apply Forall_cons_iff in H; destruct H as [? H] end.
    all: cbn [zlen length Z.of_nat Pos.of_succ_nat Pos.succ Z.eqb Pos.eqb flat_map read_op padded Z.ltb Z.compare Pos.compare Pos.compare_cont view_op o_op o_p1 o_p2 o_p3 o_extra nth_error skipn].
    + apply eats_ret.
    + eapply eats_bind; [apply eats_unwrap, eats_INDEX; auto|]. apply eats_ret.
    + eapply eats_bind; [apply eats_unwrap, eats_INDEX; auto|].
      eapply eats_bind; [apply eats_unwrap, eats_INDEX; auto|]. apply eats_ret.
    + do 3 (eapply eats_bind; [apply eats_unwrap, eats_INDEX; auto|]). apply eats_ret.
    + do 4 (eapply eats_bind; [apply eats_unwrap, eats_INDEX; auto|]). apply eats_ret.
    + do 3 (eapply eats_bind; [apply eats_unwrap, eats_INDEX; auto|]).
      eapply eats_bind_nil; [apply eats_ret|].
      change (enc_index a4 ++ enc_index a5 ++ []) with (flat_map enc_index [a4; a5]).
      eapply eats_bind_last.
      { eapply (eats_read_extra c INDEX small [a4; a5]); [apply eats_INDEX|reflexivity|auto]. }
      apply eats_ret.
    + do 3 (eapply eats_bind; [apply eats_unwrap, eats_INDEX; auto|]).
      eapply eats_bind_nil; [apply eats_ret|].
      change (enc_index a4 ++ enc_index a5 ++ enc_index a6 ++ []) with (flat_map enc_index [a4; a5; a6]).
      eapply eats_bind_last.
      { eapply (eats_read_extra c INDEX small [a4; a5; a6]); [apply eats_INDEX|reflexivity|auto]. }
      apply eats_ret.
  - destruct W as (Wo & W1 & W2 & Wn & F).
    change (op :: ?b) with ([op] ++ b). eapply eats_bind; [apply eats_unwrap, eats_u8|].
    assert (Q : eats c
      (q1 <- unwrap INDEX;; q2 <- unwrap INDEX;; q3 <- unwrap decode_u8;; extra <- read_extra INDEX q3;;
       ret (mkop op (Some q1) (Some q2) (Some q3) extra))
      (enc_index p1 ++ enc_index p2 ++ zlen xs :: flat_map enc_index xs) (read_op (ICall op p1 p2 xs)) c).
    { do 2 (eapply eats_bind; [apply eats_unwrap, eats_INDEX; auto|]).
      change (zlen xs :: ?b) with ([zlen xs] ++ b). eapply eats_bind; [apply eats_unwrap, eats_u8|].
      eapply eats_bind_last.
      { eapply (eats_read_extra c INDEX small xs); [apply eats_INDEX|reflexivity|auto]. }
      apply eats_ret. }
    cbn [variadic_calls In] in Wo.
    repeat (destruct Wo as [<-|Wo]; [exact Q|]). contradiction.
  - destruct W as (W1 & W2 & F & W3).
    change (70 :: ?b) with ([70] ++ b). eapply eats_bind; [apply eats_unwrap, eats_u8|].
    change (99 <=? 70) with false. cbv iota.
    eapply eats_bind_nil; [apply eats_expect; vm_compute; reflexivity|].
    change (eats c
      (q1 <- unwrap UINDEX;; q2 <- unwrap UINDEX;; extra <- read_extra UINDEX q2;; q3 <- unwrap UINDEX;;
       ret (mkop 70 (Some q1) (Some q2) (Some q3) extra))
      (enc_index r ++ enc_index (zlen offs) ++ flat_map enc_index offs ++ enc_index e) (read_op (ISwitch r offs e)) c).
    do 2 (eapply eats_bind; [apply eats_unwrap, eats_UINDEX; auto|]).
    eapply eats_bind.
    { eapply (eats_read_extra c UINDEX usmall offs); [apply eats_UINDEX|reflexivity|auto]. }
    eapply eats_bind_last; [apply eats_unwrap, eats_UINDEX; auto|]. apply eats_ret.
Qed.

(** * Debug records *)
Lemma land1 x : 0 <= x -> Z.land x 1 = x mod 2.
Proof. intros. change 1 with (2 ^ 1 - 1). now rewrite land_mod. Qed.

Lemma lor1 x : 0 <= x < 256 -> Z.lor x 1 = 2 * (x / 2) + 1.
Proof.
  intros. apply Z.eqb_eq. apply (byte_case (fun x => Z.lor x 1 =? 2 * (x / 2) + 1)); [vm_compute; reflexivity|auto].
Qed.
Lemma land_lor_odd b : 0 <= b < 256 -> (Z.land b 1 =? 0) = (b mod 2 =? 0).
Proof. intros. now rewrite land1 by lia. Qed.
Lemma land2_mod4 b : 0 <= b < 256 -> b mod 4 = 2 -> (Z.land b 1 =? 0) = true /\ (Z.land b 2 =? 0) = false.
Proof.
  intros H M.
  assert (C : (if b mod 4 =? 2 then (Z.land b 1 =? 0) && negb (Z.land b 2 =? 0) else true) = true)
    by (apply (byte_case (fun b => if b mod 4 =? 2 then (Z.land b 1 =? 0) && negb (Z.land b 2 =? 0) else true)); [vm_compute; reflexivity|auto]).
  rewrite M in C. cbn [Z.eqb Pos.eqb] in C. apply andb_true_iff in C. destruct C as [C1 C2].
  split; [auto|]. now apply negb_true_iff in C2.
Qed.
Lemma land4_mod8 b : 0 <= b < 256 -> b mod 8 = 4 ->
  (Z.land b 1 =? 0) = true /\ (Z.land b 2 =? 0) = true /\ (Z.land b 4 =? 0) = false.
Proof.
  intros H M.
  assert (C : (if b mod 8 =? 4 then (Z.land b 1 =? 0) && (Z.land b 2 =? 0) && negb (Z.land b 4 =? 0) else true) = true)
    by (apply (byte_case (fun b => if b mod 8 =? 4 then (Z.land b 1 =? 0) && (Z.land b 2 =? 0) && negb (Z.land b 4 =? 0) else true)); [vm_compute; reflexivity|auto]).
  rewrite M in C. cbn [Z.eqb Pos.eqb] in C. apply andb_true_iff in C. destruct C as [C C2].
  apply andb_true_iff in C. destruct C. split; [auto|]. split; [auto|]. now apply negb_true_iff in C2.
Qed.
Lemma land0_mod8 b : 0 <= b < 256 -> b mod 8 = 0 ->
  (Z.land b 1 =? 0) = true /\ (Z.land b 2 =? 0) = true /\ (Z.land b 4 =? 0) = true.
Proof.
  intros H M.
  assert (C : (if b mod 8 =? 0 then (Z.land b 1 =? 0) && (Z.land b 2 =? 0) && (Z.land b 4 =? 0) else true) = true)
    by (apply (byte_case (fun b => if b mod 8 =? 0 then (Z.land b 1 =? 0) && (Z.land b 2 =? 0) && (Z.land b 4 =? 0) else true)); [vm_compute; reflexivity|auto]).
  rewrite M in C. cbn [Z.eqb Pos.eqb] in C. apply andb_true_iff in C. destruct C as [C C2].
  apply andb_true_iff in C. destruct C. auto.
Qed.

(** What one record does to (instruction, file, line, table): [None] past a full table. *)
Lemma pairs_len l : zlen (pairs l) = 2 * zlen l.
Proof. unfold pairs. induction l; [reflexivity|]. cbn [flat_map]. rewrite zlen_app, !zlen_cons. change (zlen []) with 0. lia. Qed.
Lemma pairs_app a b : pairs (a ++ b) = pairs a ++ pairs b.
Proof. apply flat_map_app. Qed.

Definition dtable (done : list (Z * Z)) (nops : Z) : list Z :=
  pairs done ++ zrepeat 0 (2 * (nops - zlen done)).
Lemma zrepeat_succ {A} (x : A) n : 0 <= n -> zrepeat x (n + 1) = x :: zrepeat x n.
Proof. intros. unfold zrepeat. replace (Z.to_nat (n + 1)) with (S (Z.to_nat n)) by lia. reflexivity. Qed.

Lemma eats_debug_store c done nops f l : zlen done < nops ->
  eats c (debug_store (dtable done nops) (zlen done) f l) [] (dtable (done ++ [(f, l)]) nops) c.
Proof.
  intros H. unfold debug_store, dtable.
  replace (2 * (nops - zlen done)) with (2 * (nops - (zlen done + 1)) + 1 + 1) by lia.
  rewrite !zrepeat_succ by lia.
  eapply eats_bind_nil. { apply eats_expect, zset_mid. now rewrite pairs_len. }
  rewrite zlen_app. change (zlen [(f, l)]) with 1.
  rewrite pairs_app. change (pairs [(f, l)]) with [f; l].
  replace ((pairs done ++ [f; l]) ++ zrepeat 0 (2 * (nops - (zlen done + 1))))
    with ((pairs done ++ [f]) ++ l :: zrepeat 0 (2 * (nops - (zlen done + 1)))) by now rewrite <- !app_assoc.
  replace (pairs done ++ f :: 0 :: zrepeat 0 (2 * (nops - (zlen done + 1))))
    with ((pairs done ++ [f]) ++ 0 :: zrepeat 0 (2 * (nops - (zlen done + 1)))) by now rewrite <- !app_assoc.
  apply eats_expect, zset_mid. rewrite zlen_app, pairs_len. reflexivity.
Qed.

Lemma eats_i32_add c x y : x + y <= I32_MAX -> eats c (i32_add x y) [] (x + y) c.
Proof. intros. unfold i32_add. destruct (Z.ltb_spec I32_MAX (x + y)); [lia|]. apply eats_ret. Qed.

Lemma b3_line l : 0 <= l < 256 ->
  Z.lor (Z.lor (Z.shiftr (l * 8 mod 256) 3) (Z.shiftl (l / 32 mod 256) 5 mod 256)) (l / 8192) = l.
Proof.
  intros H. apply Z.eqb_eq.
  apply (byte_case (fun l => Z.lor (Z.lor (Z.shiftr (l * 8 mod 256) 3) (Z.shiftl (l / 32 mod 256) 5 mod 256)) (l / 8192) =? l));
    [vm_compute; reflexivity|auto].
Qed.

Section Debug.
Variables (c : code) (nops nfiles : Z).
Hypothesis Hf : c_ndebugfiles c = nfiles.
Hypothesis Hn : nfiles <= I32_MAX.

(** The reader on a stream of records without effective repeats. *)
Lemma eats_debug_loop : forall rs fuel done f l,
  Forall (wf_drec nfiles) rs -> Forall no_repeat rs -> ends_stored rs ->
  zlen done + zlen (lines rs f l) = nops ->
  0 <= l -> l + 31 * zlen rs <= I32_MAX /\ 255 + 31 * zlen rs <= I32_MAX -> (length rs < fuel)%nat ->
  eats c (debug_loop fuel nops (zlen done) f l (dtable done nops)) (flat_map enc_drec rs)
    (pairs (done ++ lines rs f l)) c.
Proof.
  induction rs as [|r rs IH]; intros fuel done f l W N E Hlen Hl Hb Hfu.
  - cbn [lines flat_map] in *. change (zlen []) with 0 in Hlen.
    destruct fuel as [|fuel]; [cbn in Hfu; lia|]. cbn [debug_loop].
    destruct (Z.ltb_spec (zlen done) nops); [lia|].
    replace (dtable done nops) with (pairs (done ++ [])); [apply eats_ret|].
    rewrite app_nil_r. unfold dtable. replace (nops - zlen done) with 0 by lia.
    change (2 * 0) with 0. cbn [zrepeat Z.to_nat repeat]. unfold zrepeat. cbn. now rewrite app_nil_r.
  - apply Forall_cons_iff in W. destruct W as [Wr W]. apply Forall_cons_iff in N. destruct N as [Nr N].
    rewrite zlen_cons in Hb. pose proof (zlen_nonneg rs) as Lr.
    assert (E' : ends_stored rs).
    { destruct E as [E|(r0 & q & E & Q)]; [discriminate|]. destruct r0 as [|x r0]; inversion E; subst.
      - now left.
      - right. eauto. }
    (* something is still to be stored *)
    assert (Pos : forall rs f l, rs <> [] -> ends_stored rs -> 1 <= zlen (lines rs f l)).
    { clear. induction rs as [|r rs IH]; intros f l Ne E; [congruence|].
      destruct (stores r) eqn:Sr.
      - destruct r; try discriminate; cbn [lines]; rewrite zlen_cons;
          match goal with |- context [zlen ?x] => pose proof (zlen_nonneg x) end; lia.
      - destruct E as [E|(r0 & q & E & Q)]; [discriminate|].
        destruct r0 as [|x r0]; inversion E; subst; [congruence|].
        assert (Ne' : r0 ++ [q] <> []) by (destruct r0; discriminate).
        assert (E2 : ends_stored (r0 ++ [q])) by (right; eauto).
        destruct x; try discriminate; cbn [lines].
        + now apply IH.
        + rewrite zlen_app. pose proof (zlen_nonneg (repeat (f, l) (Z.to_nat count))).
          pose proof (IH f (l + delta) Ne' E2). lia. }
    assert (Lt : zlen done < nops).
    { pose proof (Pos (r :: rs) f l ltac:(discriminate) E). lia. }
    destruct fuel as [|fuel]; [lia|]. cbn [length] in Hfu. cbn [debug_loop flat_map].
    destruct (Z.ltb_spec (zlen done) nops); [|lia].
    destruct r as [fi|d n|d|ln]; cbn [enc_drec wf_drec no_repeat lines] in *.
    + (* file switch *)
      change [Z.lor (fi / 128) 1; fi mod 256] with ([Z.lor (fi / 128) 1] ++ [fi mod 256]). rewrite <- app_assoc.
      eapply eats_bind; [apply eats_unwrap, eats_u8|].
      assert (0 <= fi / 128 < 256) by (split; [apply Z.div_pos|apply Z.div_lt_upper_bound]; lia).
      assert (B : Z.lor (fi / 128) 1 = 2 * (fi / 256) + 1).
      { rewrite lor1 by lia. rewrite Z.div_div by lia. reflexivity. }
      rewrite B.
      assert (0 <= fi / 256 < 128) by (split; [apply Z.div_pos|apply Z.div_lt_upper_bound]; lia).
      rewrite land_lor_odd by lia.
      replace ((2 * (fi / 256) + 1) mod 2) with 1 by (apply Z.mod_unique with (fi / 256); lia).
      change (1 =? 0) with false. cbn [negb].
      eapply eats_bind; [apply eats_unwrap, eats_u8|]. cbv zeta.
      rewrite Z.shiftr_div_pow2 by lia. change (2 ^ 1) with 2.
      replace ((2 * (fi / 256) + 1) / 2) with (fi / 256) by (apply Z.div_unique with 1; lia).
      rewrite Z.lor_comm, lor_shift by (apply Z.mod_pos_bound; lia).
      replace (fi mod 256 + 256 * (fi / 256)) with fi by (pose proof (Z.div_mod fi 256); lia).
      eapply eats_bind_nil; [apply eats_get_code|].
      eapply eats_bind_nil; [apply eats_to_i32; lia|]. rewrite Hf.
      apply eats_get_pos. intros p. destruct (Z.leb_spec nfiles fi); [lia|].
      eapply eats_bind_nil; [apply eats_ret|]. apply IH; auto; lia.
    + (* empty repeat: a line delta *)
      subst n. change (repeat (f, l) (Z.to_nat 0) ++ lines rs f (l + d)) with (lines rs f (l + d)) in *.
      eapply eats_bind; [apply eats_unwrap, eats_u8|].
      destruct (land2_mod4 (d * 64 + 0 * 4 + 2)) as [L1 L2]; [lia|symmetry; apply Z.mod_unique with (d * 16); lia|].
      rewrite L1, L2. cbn [negb]. apply eats_get_pos. intros p. cbv zeta.
      rewrite !Z.shiftr_div_pow2 by lia. change (2 ^ 6) with 64. change (2 ^ 2) with 4.
      replace ((d * 64 + 0 * 4 + 2) / 64) with d by (apply Z.div_unique with 2; lia).
      replace ((d * 64 + 0 * 4 + 2) / 4) with (d * 16) by (apply Z.div_unique with 2; lia).
      change 15 with (2 ^ 4 - 1). rewrite land_mod by lia. change (2 ^ 4) with 16.
      rewrite Z.mod_mul by lia.
      destruct (Z.ltb_spec nops (zlen done + 0)); [lia|].
      eapply eats_bind_nil; [apply eats_ret|].
      eapply eats_bind_nil; [apply eats_i32_add; lia|]. apply IH; auto; try lia.
    + (* small delta *)
      eapply eats_bind; [apply eats_unwrap, eats_u8|].
      destruct (land4_mod8 (d * 8 + 4)) as (L1 & L2 & L3); [lia|symmetry; apply Z.mod_unique with d; lia|].
      rewrite L1, L2, L3. cbn [negb].
      rewrite !Z.shiftr_div_pow2 by lia. change (2 ^ 3) with 8.
      replace ((d * 8 + 4) / 8) with d by (apply Z.div_unique with 4; lia).
      eapply eats_bind_nil; [apply eats_i32_add; lia|].
      eapply eats_bind_nil; [apply eats_debug_store; lia|].
      replace (zlen done + 1) with (zlen (done ++ [(f, l + d)])) by (rewrite zlen_app; reflexivity).
      replace (done ++ (f, l + d) :: lines rs f (l + d)) with ((done ++ [(f, l + d)]) ++ lines rs f (l + d))
        by now rewrite <- app_assoc.
      apply IH; auto; try lia.
      rewrite zlen_cons in Hlen. rewrite zlen_app. change (zlen [(f, l + d)]) with 1. lia.
    + (* absolute line *)
      change [ln * 8 mod 256; ln / 32 mod 256; ln / 8192]
        with ([ln * 8 mod 256] ++ [ln / 32 mod 256] ++ [ln / 8192]). rewrite <- !app_assoc.
      eapply eats_bind; [apply eats_unwrap, eats_u8|].
      pose proof (Z.mod_pos_bound (ln * 8) 256 ltac:(lia)).
      destruct (land0_mod8 (ln * 8 mod 256)) as (L1 & L2 & L3); [lia| |].
      { change 256 with (32 * 8). rewrite Z.mul_mod_distr_r by lia. apply Z.mod_mul. lia. }
      rewrite L1, L2, L3. cbn [negb].
      eapply eats_bind; [apply eats_unwrap, eats_u8|].
      eapply eats_bind; [apply eats_unwrap, eats_u8|]. cbv zeta.
      rewrite b3_line by lia.
      eapply eats_bind_nil; [apply eats_debug_store; lia|].
      replace (zlen done + 1) with (zlen (done ++ [(f, ln)])) by (rewrite zlen_app; reflexivity).
      replace (done ++ (f, ln) :: lines rs f ln) with ((done ++ [(f, ln)]) ++ lines rs f ln)
        by now rewrite <- app_assoc.
      apply IH; auto; try lia.
      * rewrite zlen_cons in Hlen. rewrite zlen_app. change (zlen [(f, ln)]) with 1. lia.
Qed.
End Debug.

Lemma enc_drec_len rs : (length rs <= length (flat_map enc_drec rs))%nat.
Proof.
  induction rs as [|r rs IH]; [auto|]. cbn [length flat_map]. rewrite app_length.
  destruct r; cbn [enc_drec length]; lia.
Qed.

Lemma eats_debug_infos c rs nops :
  c_ndebugfiles c <= I32_MAX ->
  Forall (wf_drec (c_ndebugfiles c)) rs -> Forall no_repeat rs -> ends_stored rs ->
  zlen rs < 2 ^ 24 -> zlen (lines rs (-1) 0) = nops ->
  eats c (debug_infos nops) (flat_map enc_drec rs) (pairs (lines rs (-1) 0)) c.
Proof.
  intros H W N E L Hn p rest. unfold debug_infos.
  pose proof (zlen_nonneg rs).
  assert (D : zrepeat 0 (2 * nops) = dtable [] nops).
  { unfold dtable. change (zlen []) with 0. rewrite Z.sub_0_r. reflexivity. }
  rewrite D. change 0 with (zlen (@nil (Z * Z))) at 1.
  apply (eats_debug_loop c nops (c_ndebugfiles c) eq_refl H); auto; try lia.
  - unfold I32_MAX. change (2 ^ 24) with 16777216 in L. lia.
  - cbn [mk d_buf]. rewrite app_length. pose proof (enc_drec_len rs). lia.
Qed.
