(** The denotations of instructions, debug information, functions and string tables. *)
From Verif Require Import Prelude StdModel BrassTypes DecoderModel CodeModel FormatSpec ReaderSpec ErrSpec GrammarSpec.
From Verif Require Import CodeGenericProofs FormatProofs Utf8Proofs StringsProofs ReaderPost ReaderTables ErrProofs GrammarDen GrammarTypes.
From Coq Require Import Lia ZifyBool.
Ltac Zify.zify_post_hook ::= Z.div_mod_to_equations.

Lemma den_small I A (m : M A) (G G' : rel A) : den I m G -> (forall c bs a c', bytes bs -> zlen bs < 2 ^ 63 -> (G c bs a c' <-> G' c bs a c')) -> den I m G'.
Proof.
  intros [K T F] E. assert (L : forall s bs rest, clean s -> d_buf s = bs ++ rest -> zlen bs < 2 ^ 63).
  { intros s bs rest (_ & L & _) B. rewrite B, zlen_app in L. pose proof (zlen_nonneg rest). lia. }
  split; auto.
  - intros s a s' C Ic R N. destruct (T s a s' C Ic R N) as (bs & B & H). exists bs. split; [auto|]. apply E; eauto. apply (clean_app _ _ _ C B).
  - intros s bs rest a c' C Ic B H. apply F; auto. apply E; eauto. apply (clean_app _ _ _ C B).
Qed.
(** reading [n] elements without touching the module *)
Lemma den_fillr (I : code -> Prop) A (m : M A) P n l0 : den I m (gread P) ->
  den I (for_range n (fun i l => x <- m ;; vec_insert l i x) l0) (gread (fun bs l => exists xs, l = xs ++ l0 /\ zlen xs = Z.max 0 n /\ many P bs xs)).
Proof.
  intros D. rewrite for_range_max. eapply den_iff; [apply den_fill; [lia|exact D|apply pres_gread]|].
  intros c bs l c' _. unfold gread. split.
  - intros (xs & -> & L & T). apply thread_many in T as (M & ->). eauto 10.
  - intros ((xs & -> & L & M) & ->). exists xs. split; [auto|]. split; [auto|]. apply thread_many. auto.
Qed.

(** * Instructions *)
Definition opP (bs : list Z) (o : opcode) : Prop := exists i, spell_op bs i /\ o = read_op i.
Definition op_of (i : aop) : Z := match i with IFixed op _ => op | ICall op _ _ _ => op | ISwitch _ _ _ => 70 end.
Definition opR (n : Z) (bs : list Z) (o : opcode) : Prop := exists i, op_of i = n /\ spell_op (n :: bs) i /\ o = read_op i.
Lemma calls_variadic op : In op variadic_calls -> arity op = Some None.
Proof. intros [<-|[<-|[<-|[<-|[<-|[]]]]]]; vm_compute; reflexivity. Qed.
Lemma arity70 : arity 70 = Some None. Proof. vm_compute. reflexivity. Qed.
Lemma arity_range op a : arity op = Some a -> 0 <= op < 99.
Proof. intros H. unfold arity in H. apply znth_some_range in H. exact H. Qed.
Lemma opR_fixed n a bs o : arity n = Some (Some a) -> (opR n bs o <-> exists args, zlen args = a /\ many ix bs args /\ o = read_op (IFixed n args)).
Proof.
  intros H. unfold opR. split.
  - intros ([op args|op p1 p2 xs|r offs e] & E & Sp & ->); cbn [op_of] in E; subst.
    + destruct Sp as (b & E & Ha & M). injection E as <-. exists args. split; [congruence|]. auto.
    + exfalso. destruct Sp as (? & ? & ? & _ & Hc & _). apply calls_variadic in Hc. congruence.
    + rewrite arity70 in H. discriminate.
  - intros (args & <- & M & ->). exists (IFixed n args). split; [reflexivity|]. split; [exists bs; auto|]. reflexivity.
Qed.
Lemma many_nil_inv A (P : list Z -> A -> Prop) bs : many P bs [] <-> bs = [].
Proof. split; [intros H; now inversion H|intros ->; constructor]. Qed.
Lemma many_cons_inv A (P : list Z -> A -> Prop) bs x xs : many P bs (x :: xs) <-> exists b1 b2, bs = b1 ++ b2 /\ P b1 x /\ many P b2 xs.
Proof. split; [intros H; inversion H; subst; eauto 10|intros (b1 & b2 & -> & H1 & H2); now constructor]. Qed.
Lemma zlen_inv {A} (l : list A) n : zlen l = Z.of_nat (S n) -> exists x r, l = x :: r /\ zlen r = Z.of_nat n.
Proof. destruct l as [|x r]; [discriminate|]. rewrite zlen_cons. intros H. exists x, r. split; [auto|]. lia. Qed.
Ltac dens2 := repeat (cbv beta; lazymatch goal with
  | |- den _ (unwrap_mapped _) _ => apply den_unwrap_mapped
  | |- den _ INDEX _ => apply den_INDEX | |- den _ UINDEX _ => apply den_UINDEX | |- den _ (unwrap _) _ => apply den_unwrap
  | |- den _ decode_u8 _ => apply den_u8 | |- den _ (read_extra _ _) _ => unfold read_extra; apply den_fillr
  | |- den _ (ret _) _ => apply den_ret | |- den _ (bind _ _) _ => eapply den_seq
  | |- still (gread _) => apply still_gread | |- forall _, den _ _ _ => intros ? end).
Lemma den_read_opcode I : den I read_opcode (gread opP).
Proof.
  unfold read_opcode. eapply den_iff.
  { apply den_seq with (K := fun n => if n <? 0 then gnone else gread (opR n)); [dens2|apply still_gread|]. intros n.
    destruct (Z.leb_spec 99 n) as [Hb|Hb].
    - destruct (Z.ltb_spec n 0); [lia|]. apply den_none_iff.
      + apply den_get_pos. intros p. apply den_bind_none; [apply den_record|intros; apply keep_ret|]. intros s a s' R. inversion R; subst. discriminate.
      + intros c bs o c' (([op args|op p1 p2 xs|r offs e] & E & Sp & ->) & ->); cbn [op_of] in E; subst; [| |lia].
        * destruct Sp as (b & _ & Ha & _). apply arity_range in Ha. lia.
        * destruct Sp as (? & ? & ? & _ & Hc & _). apply calls_variadic, arity_range in Hc. lia.
    - destruct (Z.ltb_spec n 0) as [Hn|Hn].
      { assert (Z : znth OP_NARGS n = None). { destruct (znth OP_NARGS n) eqn:Z; [|auto]. apply znth_some_range in Z. lia. }
        rewrite Z. eapply den_eq; [intros s; reflexivity|]. apply (den_crash I opcode PUnwrap). }
      destruct (nargs_cases n ltac:(lia)) as (a & Ha & Ra & Va). rewrite Ha. destruct (arity_nargs n a ltac:(lia) Ha) as (Ar & _ & Vc).
      eapply den_eq; [intros s; reflexivity|]. cbn [expect]. change (den I (bind (ret a) ?k) ?G) with (den I (k a) G). cbv beta.
      assert (C : a = -1 \/ a = 0 \/ a = 1 \/ a = 2 \/ a = 3 \/ a = 4 \/ a = 5 \/ a = 6) by lia.
      destruct C as [->|C].
      + change (-1 =? -1) with true in Ar. cbv iota in Ar. change (-1 =? 0) with false. change (-1 =? 1) with false. change (-1 =? 2) with false. change (-1 =? 3) with false. change (-1 =? 4) with false. change (-1 =? -1) with true. cbv iota.
        destruct (Vc eq_refl) as [->|Hc].
        * change ((70 =? OCallN) || (70 =? OCallClosure) || (70 =? OCallMethod) || (70 =? OCallThis) || (70 =? OMakeEnum)) with false. change (70 =? OSwitch) with true. cbv iota.
          eapply den_iff; [dens2|]. intros c bs o c' _. split.
          -- intros (b1 & b2 & p1 & c1 & -> & (V1 & ->) & (b3 & b4 & p2 & c2 & -> & ((V2 & P2) & ->) & (b5 & b6 & l & c3 & -> & ((xs & -> & L & M) & ->) & (b7 & b8 & p3 & c4 & -> & (V3 & ->) & (-> & -> & ->))))).
             rewrite Z.max_r in L by lia. subst p2. rewrite app_nil_r. split; [|reflexivity]. exists (ISwitch p1 xs p3). split; [reflexivity|]. split; [exists b1, b3, b5, b7; repeat split; auto; try apply V1; try apply V3|]. reflexivity.
          -- intros (([op args|op p1 p2 xs|r offs e] & E & Sp & ->) & ->); cbn [op_of] in E; subst.
             ++ exfalso. destruct Sp as (b & _ & Q & _). rewrite arity70 in Q. discriminate.
             ++ exfalso. destruct Sp as (? & ? & ? & _ & Hc & _). cbv in Hc. intuition discriminate.
             ++ destruct Sp as (b1 & b2 & b3 & b4 & E' & V1 & V2 & M & V4). injection E' as ->. pose proof (zlen_nonneg offs).
                eapply gb_cons; [split; [exact V1|reflexivity]|]. eapply gb_cons; [split; [exact V2|reflexivity]|]. eapply gb_cons; [split; [exists offs; rewrite Z.max_r by lia; split; [reflexivity|split; [reflexivity|exact M]]|reflexivity]|].
                eapply gb_last; [split; [exact V4|reflexivity]|]. apply gret_i.
        * assert (Hc' : (n =? OCallN) || (n =? OCallClosure) || (n =? OCallMethod) || (n =? OCallThis) || (n =? OMakeEnum) = true).
          { cbv in Hc. destruct Hc as [<-|[<-|[<-|[<-|[<-|[]]]]]]; reflexivity. }
          rewrite Hc'. eapply den_iff; [dens2|]. intros c bs o c' _. split.
          -- intros (b1 & b2 & p1 & c1 & -> & (V1 & ->) & (b3 & b4 & p2 & c2 & -> & (V2 & ->) & (b5 & b6 & k & c3 & -> & ((-> & Rk) & ->) & (b7 & b8 & l & c4 & -> & ((xs & -> & L & M) & ->) & (-> & -> & ->))))).
             rewrite Z.max_r in L by lia. subst k. rewrite app_nil_r. split; [|reflexivity]. exists (ICall n p1 p2 xs). split; [reflexivity|]. split; [exists b1, b3, b7; repeat split; auto; lia|]. reflexivity.
          -- intros (([op args|op p1 p2 xs|r offs e] & E & Sp & ->) & ->); cbn [op_of] in E; subst.
             ++ exfalso. destruct Sp as (b & _ & Q & _). rewrite Ar in Q. discriminate.
             ++ destruct Sp as (b1 & b2 & b3 & E & _ & V1 & V2 & L & M). injection E as ->. pose proof (zlen_nonneg xs).
                eapply gb_cons; [split; [exact V1|reflexivity]|]. eapply gb_cons; [split; [exact V2|reflexivity]|]. change (zlen xs :: b3) with ([zlen xs] ++ b3).
                eapply gb_cons; [split; [split; [reflexivity|lia]|reflexivity]|]. eapply gb_last; [split; [exists xs; rewrite Z.max_r by lia; split; [reflexivity|split; [reflexivity|exact M]]|reflexivity]|]. apply gret_i.
             ++ exfalso. cbv in Hc. intuition discriminate.
      + assert (Ar' : arity n = Some (Some a)). { rewrite Ar. destruct (Z.eqb_spec a (-1)); [lia|reflexivity]. }
        assert (EQ : forall bs o, opR n bs o <-> exists args, zlen args = a /\ many ix bs args /\ o = read_op (IFixed n args)) by (intros; now apply opR_fixed).
        clear Ar Ar' Ra Va Vc Ha Hb Hn. destruct C as [->|[->|[->|[->|[->|C]]]]].
        * cbn -[read_op]. eapply den_iff; [dens2|]. intros c bs o c' _. unfold gread. rewrite EQ. split.
          -- intros (-> & -> & ->). split; [|auto]. exists []. split; [auto|]. split; [constructor|reflexivity].
          -- intros ((args & L & M & ->) & ->). destruct args; [|discriminate]. inversion M; subst. repeat split.
        * cbn -[read_op]. eapply den_iff; [dens2|]. intros c bs o c' _. unfold gread at 2. rewrite EQ. split.
          -- intros (b1 & b2 & p1 & c1 & -> & (V1 & ->) & (-> & -> & ->)). split; [|auto]. exists [p1]. split; [auto|]. split; [repeat constructor; auto|reflexivity].
          -- intros ((args & L & M & ->) & ->). apply (zlen_inv _ 0) in L as (p1 & r1 & -> & L). destruct r1; [|rewrite zlen_cons in L; pose proof (zlen_nonneg r1); lia].
             apply many_cons_inv in M as (b1 & b2 & -> & V1 & M). apply many_nil_inv in M. subst b2. eapply gb_cons; [split; [exact V1|reflexivity]|]. apply gret_i.
        * cbn -[read_op]. eapply den_iff; [dens2|]. intros c bs o c' _. unfold gread at 3. rewrite EQ. split.
          -- intros (b1 & b2 & p1 & c1 & -> & (V1 & ->) & (b3 & b4 & p2 & c2 & -> & (V2 & ->) & (-> & -> & ->))). split; [|auto]. exists [p1; p2]. split; [auto|]. split; [repeat constructor; auto|reflexivity].
          -- intros ((args & L & M & ->) & ->). apply (zlen_inv _ 1) in L as (p1 & r1 & -> & L). apply (zlen_inv _ 0) in L as (p2 & r2 & -> & L). destruct r2; [|rewrite zlen_cons in L; pose proof (zlen_nonneg r2); lia].
             apply many_cons_inv in M as (b1 & b2 & -> & V1 & M). apply many_cons_inv in M as (b3 & b4 & -> & V2 & M). apply many_nil_inv in M. subst b4.
             eapply gb_cons; [split; [exact V1|reflexivity]|]. eapply gb_cons; [split; [exact V2|reflexivity]|]. apply gret_i.
        * cbn -[read_op]. eapply den_iff; [dens2|]. intros c bs o c' _. unfold gread at 4. rewrite EQ. split.
          -- intros (b1 & b2 & p1 & c1 & -> & (V1 & ->) & (b3 & b4 & p2 & c2 & -> & (V2 & ->) & (b5 & b6 & p3 & c3 & -> & (V3 & ->) & (-> & -> & ->)))). split; [|auto]. exists [p1; p2; p3]. split; [auto|]. split; [repeat constructor; auto|reflexivity].
          -- intros ((args & L & M & ->) & ->). apply (zlen_inv _ 2) in L as (p1 & r1 & -> & L). apply (zlen_inv _ 1) in L as (p2 & r2 & -> & L). apply (zlen_inv _ 0) in L as (p3 & r3 & -> & L). destruct r3; [|rewrite zlen_cons in L; pose proof (zlen_nonneg r3); lia].
             apply many_cons_inv in M as (b1 & b2 & -> & V1 & M). apply many_cons_inv in M as (b3 & b4 & -> & V2 & M). apply many_cons_inv in M as (b5 & b6 & -> & V3 & M). apply many_nil_inv in M. subst b6.
             eapply gb_cons; [split; [exact V1|reflexivity]|]. eapply gb_cons; [split; [exact V2|reflexivity]|]. eapply gb_cons; [split; [exact V3|reflexivity]|]. apply gret_i.
        * cbn -[read_op]. eapply den_iff; [dens2|]. intros c bs o c' _. unfold gread at 5. rewrite EQ. split.
          -- intros (b1 & b2 & p1 & c1 & -> & (V1 & ->) & (b3 & b4 & p2 & c2 & -> & (V2 & ->) & (b5 & b6 & p3 & c3 & -> & (V3 & ->) & (b7 & b8 & p4 & c4 & -> & (V4 & ->) & (-> & -> & ->))))). split; [|auto]. exists [p1; p2; p3; p4]. split; [auto|]. split; [repeat constructor; auto|reflexivity].
          -- intros ((args & L & M & ->) & ->). apply (zlen_inv _ 3) in L as (p1 & r1 & -> & L). apply (zlen_inv _ 2) in L as (p2 & r2 & -> & L). apply (zlen_inv _ 1) in L as (p3 & r3 & -> & L). apply (zlen_inv _ 0) in L as (p4 & r4 & -> & L). destruct r4; [|rewrite zlen_cons in L; pose proof (zlen_nonneg r4); lia].
             apply many_cons_inv in M as (b1 & b2 & -> & V1 & M). apply many_cons_inv in M as (b3 & b4 & -> & V2 & M). apply many_cons_inv in M as (b5 & b6 & -> & V3 & M). apply many_cons_inv in M as (b7 & b8 & -> & V4 & M). apply many_nil_inv in M. subst b8.
             eapply gb_cons; [split; [exact V1|reflexivity]|]. eapply gb_cons; [split; [exact V2|reflexivity]|]. eapply gb_cons; [split; [exact V3|reflexivity]|]. eapply gb_cons; [split; [exact V4|reflexivity]|]. apply gret_i.
        * assert (A1 : forall k, 0 <= k <= 4 -> (a =? k) = false) by (intros; apply Z.eqb_neq; lia). rewrite !A1 by lia. replace (a =? -1) with false by (symmetry; apply Z.eqb_neq; lia). cbv zeta.
          replace (a - 3 <? 0) with false by (symmetry; apply Z.ltb_ge; lia).
          eapply den_iff; [dens2; intros ? ? ? ? (_ & _ & ->); reflexivity|]. intros c bs o c' _. unfold gread at 5. rewrite EQ. split.
          -- intros (b1 & b2 & p1 & c1 & -> & (V1 & ->) & (b3 & b4 & p2 & c2 & -> & (V2 & ->) & (b5 & b6 & p3 & c3 & -> & (V3 & ->) & (b7 & b8 & u & c4 & -> & (-> & -> & ->) & (b9 & b10 & l & c5 & -> & ((xs & -> & L & M) & ->) & (-> & -> & ->)))))).
             rewrite Z.max_r in L by lia. split; [|auto]. exists (p1 :: p2 :: p3 :: xs). split; [rewrite !zlen_cons; lia|]. rewrite app_nil_r. split; [repeat (constructor; [assumption|]); exact M|].
             unfold read_op, padded. rewrite !zlen_cons. replace (4 <? 1 + (1 + (1 + zlen xs))) with true by lia. cbn. rewrite L. reflexivity.
          -- intros ((args & L & M & ->) & ->). assert (L' : zlen args = Z.of_nat (S (S (S (Z.to_nat (a - 3)))))) by lia.
             apply zlen_inv in L' as (p1 & r1 & -> & L'). apply zlen_inv in L' as (p2 & r2 & -> & L'). apply zlen_inv in L' as (p3 & xs & -> & L').
             apply many_cons_inv in M as (b1 & b2 & -> & V1 & M). apply many_cons_inv in M as (b3 & b4 & -> & V2 & M). apply many_cons_inv in M as (b5 & b6 & -> & V3 & M).
             eapply gb_cons; [split; [exact V1|reflexivity]|]. eapply gb_cons; [split; [exact V2|reflexivity]|]. eapply gb_cons; [split; [exact V3|reflexivity]|].
             eapply gb_nil; [apply gret_i|]. eapply gb_last; [split; [exists xs; split; [reflexivity|split; [lia|exact M]]|reflexivity]|].
             unfold read_op, padded. rewrite !zlen_cons. replace (4 <? 1 + (1 + (1 + zlen xs))) with true by lia. cbn. replace (a - 3) with (zlen xs) by lia. apply gret_i. }
  intros c bs o c' _. split.
  - intros (b1 & b2 & n & c1 & -> & ((-> & Rn) & ->) & H). destruct (Z.ltb_spec n 0); [lia|]. destruct H as ((i & _ & Sp & ->) & ->). split; [|auto]. exists i. auto.
  - intros ((i & Sp & ->) & ->). assert (E : exists bs', bs = op_of i :: bs' /\ 0 <= op_of i < 256).
    { destruct i; cbn in Sp.
      - destruct Sp as (b & -> & Ha & _). apply arity_range in Ha. exists b. split; [reflexivity|]. cbn. lia.
      - destruct Sp as (? & ? & ? & -> & Hc & _). apply calls_variadic, arity_range in Hc. eexists. split; [reflexivity|]. cbn. lia.
      - destruct Sp as (? & ? & ? & ? & -> & _). eexists. split; [reflexivity|]. cbn. lia. }
    destruct E as (bs' & -> & R). change (op_of i :: bs') with ([op_of i] ++ bs'). eapply gb_cons; [split; [split; [reflexivity|lia]|reflexivity]|].
    destruct (Z.ltb_spec (op_of i) 0); [lia|]. split; [|reflexivity]. exists i. auto.
Qed.

(** * Debug information *)
Definition debugR (nf nops i file line : Z) (bs : list Z) (l : list (Z * Z)) (fuel : nat) : Prop :=
  exists rs, (length rs < fuel)%nat /\ many spell_rrec bs rs /\ run_debug nf nops i file line rs = Some l.
Lemma byte_split c : 0 <= c < 256 -> (Z.land c 1 =? 0) = (c mod 2 =? 0) /\ (Z.land c 2 =? 0) = (c / 2 mod 2 =? 0) /\ (Z.land c 4 =? 0) = (c / 4 mod 2 =? 0) /\
  Z.shiftr c 1 = c / 2 /\ Z.shiftr c 6 = c / 64 /\ Z.land (Z.shiftr c 2) 15 = c / 4 mod 16 /\ Z.shiftr c 3 = c / 8.
Proof.
  intros H.
  assert (E : forallb (fun c => Bool.eqb (Z.land c 1 =? 0) (c mod 2 =? 0) && Bool.eqb (Z.land c 2 =? 0) (c / 2 mod 2 =? 0) && Bool.eqb (Z.land c 4 =? 0) (c / 4 mod 2 =? 0) && (Z.land (Z.shiftr c 2) 15 =? c / 4 mod 16)) all_bytes = true) by (vm_compute; reflexivity).
  pose proof (byte_case _ E c H) as C. cbv beta in C. apply andb_prop in C as [C C4]. apply andb_prop in C as [C C3]. apply andb_prop in C as [C1 C2].
  apply eqb_prop in C1, C2, C3. apply Z.eqb_eq in C4. rewrite !shr_byte by lia. repeat split; auto. rewrite <- shr_byte by lia. exact C4.
Qed.
Definition gstore (d : list Z) (i f l : Z) : rel (list Z) := fun c bs d' c' => bs = [] /\ c' = c /\ exists d1, zset d (2 * i) f = Some d1 /\ zset d1 (2 * i + 1) l = Some d'.
Lemma den_debug_store I d i f l : den I (debug_store d i f l) (gstore d i f l).
Proof.
  unfold debug_store. eapply den_iff; [apply den_seq; [apply den_expect|intros c bs a c' (_ & _ & ->); reflexivity|intros d1; apply den_expect]|].
  intros c bs d' c' _. unfold gstore. split.
  - intros (b1 & b2 & d1 & c1 & -> & (-> & Z1 & ->) & (-> & Z2 & ->)). eauto.
  - intros (-> & -> & d1 & Z1 & Z2). eapply gb_nil; [split; [reflexivity|split; [exact Z1|reflexivity]]|]. auto.
Qed.
Definition gadd (x y : Z) : rel Z := fun c bs a c' => bs = [] /\ a = x + y /\ c' = c /\ x + y < 2 ^ 31.
Lemma den_i32_add I x y : den I (i32_add x y) (gadd x y).
Proof.
  unfold i32_add, I32_MAX. destruct (Z.ltb_spec 2147483647 (x + y)).
  - apply den_none_iff; [apply den_crash|]. intros c bs a c' (_ & _ & _ & L). change (2 ^ 31) with 2147483648 in L. lia.
  - eapply den_iff; [apply den_ret|]. intros c bs a c' _. unfold gret, gadd. change (2 ^ 31) with 2147483648. intuition.
Qed.
Lemma store_at (done : list Z) i nops f l : zlen done = 2 * i -> 0 <= i < nops ->
  forall c bs d' c', gstore (done ++ zrepeat 0 (2 * (nops - i))) i f l c bs d' c' <-> bs = [] /\ c' = c /\ d' = (done ++ [f; l]) ++ zrepeat 0 (2 * (nops - (i + 1))).
Proof.
  intros Hd Hi c bs d' c'. unfold gstore.
  assert (Zs : forall (p : list Z) x r y, zset (p ++ x :: r) (zlen p) y = Some (p ++ y :: r)).
  { clear. induction p as [|q p IH]; intros x r y; [reflexivity|]. rewrite zlen_cons. cbn [app zset]. pose proof (zlen_nonneg p). destruct (Z.eqb_spec (1 + zlen p) 0); [lia|].
    replace (1 + zlen p - 1) with (zlen p) by lia. now rewrite IH. }
  assert (R : zrepeat 0 (2 * (nops - i)) = 0 :: 0 :: zrepeat 0 (2 * (nops - (i + 1)))).
  { unfold zrepeat. replace (Z.to_nat (2 * (nops - i))) with (S (S (Z.to_nat (2 * (nops - (i + 1)))))) by lia. reflexivity. }
  assert (S2 : exists d1, zset (done ++ zrepeat 0 (2 * (nops - i))) (2 * i) f = Some d1 /\ zset d1 (2 * i + 1) l = Some ((done ++ [f; l]) ++ zrepeat 0 (2 * (nops - (i + 1))))).
  { rewrite R, <- Hd, Zs. eexists. split; [reflexivity|]. replace (zlen done + 1) with (zlen (done ++ [f])) by (rewrite zlen_app; reflexivity).
    rewrite (app_assoc done [f] (0 :: _)) || replace (done ++ f :: 0 :: zrepeat 0 (2 * (nops - (i + 1)))) with ((done ++ [f]) ++ 0 :: zrepeat 0 (2 * (nops - (i + 1)))) by (rewrite <- app_assoc; reflexivity).
    rewrite Zs. rewrite <- !app_assoc. reflexivity. }
  destruct S2 as (d1 & Z1 & Z2). split.
  - intros (-> & -> & d2 & Y1 & Y2). split; [auto|]. split; [auto|]. congruence.
  - intros (-> & -> & ->). eauto.
Qed.
Lemma den_pure (J : code -> Prop) (P : Prop) A (m : M A) G : keep m -> (P -> den J m G) -> den (fun c => J c /\ P) m G.
Proof.
  intros K D. split; [exact K| |].
  - intros s a s' C (Jc & p) R N. exact (den_to (D p) s a s' C Jc R N).
  - intros s bs rest a c' C (Jc & p) B H. exact (den_from (D p) s bs rest a c' C Jc B H).
Qed.
Lemma keep_record e : keep (record_error e). Proof. intros s r s' R E. inversion R; subst. discriminate. Qed.
Lemma keep_get_pos : keep get_pos. Proof. intros s r s' R E. inversion R; subst. auto. Qed.
Lemma keep_get_code : keep get_code. Proof. intros s r s' R E. inversion R; subst. auto. Qed.
Lemma keep_crash A p : keep (@crash A p). Proof. intros s r s' R E. inversion R; subst. auto. Qed.
Ltac keeps := repeat (cbv beta zeta; lazymatch goal with
  | |- keep (bind _ _) => apply keep_bind | |- forall _, keep _ => intros ? | |- keep (unwrap _) => apply keep_unwrap | |- keep decode_u8 => apply keep_u8
  | |- keep (ret _) => apply keep_ret | |- keep (record_error _) => apply keep_record | |- keep get_pos => apply keep_get_pos | |- keep get_code => apply keep_get_code
  | |- keep (crash _) => apply keep_crash | |- keep (expect _ _) => apply keep_expect | |- keep (to_i32 _) => unfold to_i32 | |- keep (i32_add _ _) => unfold i32_add
  | |- keep (debug_store _ _ _ _) => unfold debug_store | |- keep (if ?b then _ else _) => destruct b end).
Lemma keep_debug_loop fuel : forall nops i f l d, keep (debug_loop fuel nops i f l d).
Proof. induction fuel as [|fuel IH]; intros nops i f l d; cbn [debug_loop]; keeps; apply IH. Qed.
Lemma den_debug_loop nf nops fuel : nf <= I32_MAX -> forall i file line done, zlen done = 2 * i -> 0 <= i <= nops ->
  den (fun c => c_ndebugfiles c = nf) (debug_loop fuel nops i file line (done ++ zrepeat 0 (2 * (nops - i))))
    (gread (fun bs d => exists l, debugR nf nops i file line bs l fuel /\ d = done ++ pairs l)).
Proof.
  intros Hnf. induction fuel as [|fuel IH]; intros i file line done Hd Hi; cbn [debug_loop].
  { apply den_none_iff; [apply den_crash|]. intros c bs d c' ((l & (rs & L & _) & _) & _). lia. }
  destruct (Z.ltb_spec i nops) as [Hlt|Hge].
  2:{ assert (i = nops) as -> by lia. rewrite Z.sub_diag. change (zrepeat 0 (2 * 0)) with (@nil Z). eapply den_iff; [apply den_ret|]. intros c bs d c' _. unfold gret, gread, debugR. rewrite app_nil_r. split.
    - intros (-> & -> & ->). split; [|auto]. exists []. split; [|cbn; now rewrite app_nil_r]. exists []. split; [cbn; lia|]. split; [constructor|]. cbn. destruct (Z.ltb_spec nops nops); [lia|reflexivity].
    - intros ((l & (rs & L & M & E) & ->) & ->). destruct rs as [|r rs].
      + cbn in E. destruct (nops <? nops); [discriminate|]. injection E as <-. inversion M; subst. cbn. rewrite app_nil_r. auto.
      + exfalso. cbn in E. destruct (Z.ltb_spec nops nops); [lia|]. discriminate. }
  set (d0 := done ++ zrepeat 0 (2 * (nops - i))).
  set (J := fun c => c_ndebugfiles c = nf).
  (* what one record and the rest denote *)
  set (Gfile := fun cb => gbind (gread byte) (fun b c bs d c' => c' = c /\ 256 * (cb / 2) + b < nf /\ exists l, debugR nf nops i (256 * (cb / 2) + b) line bs l fuel /\ d = done ++ pairs l)).
  set (Grep := fun cb c bs d (c' : code) => c' = c /\ i + cb / 4 mod 16 <= nops /\ line + cb / 64 < 2 ^ 31 /\ exists l, debugR nf nops i file (line + cb / 64) bs l fuel /\ d = done ++ pairs l).
  set (Gdelta := fun cb c bs d (c' : code) => c' = c /\ line + cb / 8 < 2 ^ 31 /\ exists l, debugR nf nops (i + 1) file (line + cb / 8) bs l fuel /\ d = (done ++ [file; line + cb / 8]) ++ pairs l).
  set (Gabs := fun cb => gbind (gread byte) (fun b2 => gbind (gread byte) (fun b3 c bs d c' => c' = c /\
      let ln := abs_line (cb / 8) b2 b3 in exists l, debugR nf nops (i + 1) file ln bs l fuel /\ d = (done ++ [file; ln]) ++ pairs l))).
  assert (Zd : forall x y, zlen (done ++ [x; y]) = 2 * (i + 1)) by (intros x y; rewrite zlen_app, Hd; change (zlen [x; y]) with 2; lia).
  eapply den_iff.
  { apply den_bind with (J := fun cb c => J c /\ 0 <= cb < 256) (G := gread byte)
      (K := fun cb => if negb (Z.land cb 1 =? 0) then Gfile cb else if negb (Z.land cb 2 =? 0) then Grep cb else if negb (Z.land cb 4 =? 0) then Gdelta cb else Gabs cb).
    - dens2.
    - intros c bs a c' H ((_ & R) & ->). split; auto.
    - intros cb. apply den_pure; [keeps; apply keep_debug_loop|]. intros Rc. destruct (byte_split cb Rc) as (_ & _ & _ & S1 & S6 & S15 & S3). rewrite S1, S6, S15, S3.
      destruct (negb (Z.land cb 1 =? 0)); [|destruct (negb (Z.land cb 2 =? 0)); [|destruct (negb (Z.land cb 4 =? 0))]].
      + (* file *) unfold Gfile. apply den_bind with (J := fun b c => J c /\ 0 <= b < 256); [dens2|intros c bs a c' H ((_ & R) & ->); split; auto|].
        intros b. apply den_pure; [keeps; apply keep_debug_loop|]. intros Rb. cbv zeta.
        rewrite (Z.lor_comm (Z.shiftl (cb / 2) 8) b), lor_shift, Z.add_comm by lia. set (f := 256 * (cb / 2) + b).
        eapply den_iff; [apply den_get_code; intros c0; eapply den_seq; [apply den_to_i32|intros c bs a c' (_ & _ & -> & _); reflexivity|]; intros n; apply den_get_pos; intros p;
          apply den_bind with (J := fun _ c => (J c /\ c = c0)) (G := fun c bs (_ : unit) c' => bs = [] /\ c' = c /\ f < n)|].
        * destruct (Z.leb_spec n f).
          -- apply den_none_iff; [apply den_record|]. intros c bs a c' (_ & _ & L). lia.
          -- eapply den_iff; [apply den_ret|]. intros c bs [] c' _. unfold gret. intuition.
        * intros c bs a c' H (_ & -> & _). exact H.
        * intros u. eapply den_weaken; [apply (IH i f line done Hd Hi)|]. intros c (H & _). exact H.
        * intros c bs d c' Jc. split.
          -- intros (b1 & b2 & n & c1 & -> & (-> & -> & -> & _) & (b3 & b4 & u & c2 & -> & (-> & -> & L) & (l & ->))). unfold J in Jc. rewrite Jc in L. auto.
          -- intros (-> & L & l). eapply gb_nil; [split; [reflexivity|split; [reflexivity|split; [reflexivity|unfold J in Jc; lia]]]|]. apply gb_nil with (a := tt) (c1 := c); [unfold J in Jc; rewrite Jc; auto|]. split; auto.
      + (* repeat *) unfold Grep. apply den_get_pos. intros p. eapply den_iff.
        * apply den_bind with (J := fun _ => J) (G := fun c bs (_ : unit) c' => bs = [] /\ c' = c /\ i + cb / 4 mod 16 <= nops).
          -- destruct (Z.ltb_spec nops (i + cb / 4 mod 16)).
             ++ apply den_none_iff; [apply den_record|]. intros c bs a c' (_ & _ & L). lia.
             ++ eapply den_iff; [apply den_ret|]. intros c bs [] c' _. unfold gret. intuition.
          -- intros c bs a c' H (_ & -> & _). exact H.
          -- intros u. eapply den_seq; [apply den_i32_add|intros c bs a c' (_ & _ & -> & _); reflexivity|]. intros ln. apply (IH i file ln done Hd Hi).
        * intros c bs d c' Jc. split.
          -- intros (b1 & b2 & u & c1 & -> & (-> & -> & L) & (b3 & b4 & ln & c2 & -> & (-> & -> & -> & L2) & (l & ->))). auto.
          -- intros (-> & L & L2 & l). apply gb_nil with (a := tt) (c1 := c); [auto|]. eapply gb_nil; [split; [reflexivity|split; [reflexivity|split; [reflexivity|exact L2]]]|]. split; auto.
      + (* delta *) unfold Gdelta. eapply den_iff.
        * eapply den_seq; [apply den_i32_add|intros c bs a c' (_ & _ & -> & _); reflexivity|]. intros ln.
          apply den_bind with (J := fun d' c => J c /\ d' = (done ++ [file; ln]) ++ zrepeat 0 (2 * (nops - (i + 1)))) (G := gstore d0 i file ln)
            (K := fun d' => gread (fun bs d => exists l, debugR nf nops (i + 1) file ln bs l fuel /\ d = (done ++ [file; ln]) ++ pairs l)); [apply den_debug_store| |].
          -- intros c bs a c' H St. apply store_at in St; [|auto|lia]. destruct St as (_ & -> & ->). auto.
          -- intros d'. apply den_pure; [apply keep_debug_loop|]. intros ->. apply IH; [apply Zd|lia].
        * intros c bs d c' Jc. split.
          -- intros (b1 & b2 & ln & c1 & -> & (-> & -> & -> & L) & (b3 & b4 & d' & c2 & -> & St & (l & ->))). apply store_at in St; [|auto|lia]. destruct St as (-> & -> & _). auto.
          -- intros (-> & L & l). eapply gb_nil; [split; [reflexivity|split; [reflexivity|split; [reflexivity|exact L]]]|].
             eapply gb_nil; [apply store_at; [auto|lia|]; split; [reflexivity|split; reflexivity]|]. split; auto.
      + (* absolute *) unfold Gabs. apply den_seq; [dens2|apply still_gread|]. intros b2. eapply den_iff.
        * apply den_seq with (K := fun b3 => gbind (gstore d0 i file (abs_line (cb / 8) b2 b3)) (fun d' => gread (fun bs d => exists l, debugR nf nops (i + 1) file (abs_line (cb / 8) b2 b3) bs l fuel /\ d = (done ++ [file; abs_line (cb / 8) b2 b3]) ++ pairs l))); [dens2|apply still_gread|]. intros b3. cbv zeta. unfold abs_line. rewrite (Z.mul_comm 32 b2). change 32 with (2 ^ 5). change (Z.shiftl b2 5) with (b2 * 2 ^ 5) || rewrite Z.shiftl_mul_pow2 by lia.
          set (ln := Z.lor (Z.lor (cb / 8) ((b2 * 2 ^ 5) mod 256)) b3).
          apply den_bind with (J := fun d' c => J c /\ d' = (done ++ [file; ln]) ++ zrepeat 0 (2 * (nops - (i + 1)))) (G := gstore d0 i file ln)
            (K := fun d' => gread (fun bs d => exists l, debugR nf nops (i + 1) file ln bs l fuel /\ d = (done ++ [file; ln]) ++ pairs l)); [apply den_debug_store| |].
          -- intros c bs a c' H St. apply store_at in St; [|auto|lia]. destruct St as (_ & -> & ->). auto.
          -- intros d'. apply den_pure; [apply keep_debug_loop|]. intros ->. apply IH; [apply Zd|lia].
        * intros c bs d c' Jc. unfold abs_line. split.
          -- intros (b1 & b4 & b3 & c1 & -> & (V & ->) & (b5 & b6 & d' & c2 & -> & St & (l & ->))). apply store_at in St; [|auto|lia]. destruct St as (-> & -> & _). eapply gb_cons; [split; [exact V|reflexivity]|]. auto.
          -- intros (b1 & b4 & b3 & c1 & -> & (V & ->) & (-> & l)). eapply gb_cons; [split; [exact V|reflexivity]|].
             eapply gb_nil; [apply store_at; [auto|lia|]; split; [reflexivity|split; reflexivity]|]. split; auto. }
  intros c bs d c' Jc. unfold debugR. split.
  - intros (b1 & b2 & cb & c1 & -> & ((-> & Rc) & ->) & H). destruct (byte_split cb Rc) as (S1 & S2 & S4 & _). rewrite S1, S2, S4 in H.
    destruct (Z.eqb_spec (cb mod 2) 0) as [E1|E1]; cbn [negb] in H; [destruct (Z.eqb_spec (cb / 2 mod 2) 0) as [E2|E2]; cbn [negb] in H; [destruct (Z.eqb_spec (cb / 4 mod 2) 0) as [E4|E4]; cbn [negb] in H|]|].
    + destruct H as (b3 & b4 & x2 & c2 & -> & ((-> & R2) & ->) & (b5 & b6 & x3 & c3 & -> & ((-> & R3) & ->) & (-> & l & (rs & L & M & E) & ->))).
      split; [|auto]. exists ((file, abs_line (cb / 8) x2 x3) :: l). split; [|cbn; rewrite <- app_assoc; reflexivity]. exists (RAbs (cb / 8) x2 x3 :: rs). split; [cbn; lia|]. split.
      * change ([cb] ++ [x2] ++ [x3] ++ b6) with ([cb; x2; x3] ++ b6). constructor; [|auto]. split; [f_equal; lia|lia].
      * cbn [run_debug]. destruct (Z.ltb_spec i nops); [|lia]. cbn [negb]. now rewrite E.
    + destruct H as (-> & L1 & l & (rs & L & M & E) & ->). split; [|auto]. exists ((file, line + cb / 8) :: l). split; [|cbn; rewrite <- app_assoc; reflexivity]. exists (RDelta (cb / 8) :: rs). split; [cbn; lia|]. split.
      * constructor; [|auto]. split; [f_equal; lia|lia].
      * cbn [run_debug]. destruct (Z.ltb_spec i nops); [|lia]. cbn [negb]. destruct (Z.ltb_spec (line + cb / 8) (2 ^ 31)); [|lia]. now rewrite E.
    + destruct H as (-> & L1 & L2 & l & (rs & L & M & E) & ->). split; [|auto]. exists l. split; [|reflexivity]. exists (RRepeat (cb / 64) (cb / 4 mod 16) :: rs). split; [cbn; lia|]. split.
      * constructor; [|auto]. split; [f_equal; lia|lia].
      * cbn [run_debug]. destruct (Z.ltb_spec i nops); [|lia]. cbn [negb]. destruct (Z.leb_spec (i + cb / 4 mod 16) nops); [|lia]. destruct (Z.ltb_spec (line + cb / 64) (2 ^ 31)); [|lia]. exact E.
    + destruct H as (b3 & b4 & x2 & c2 & -> & ((-> & R2) & ->) & (-> & L1 & l & (rs & L & M & E) & ->)). split; [|auto]. exists l. split; [|reflexivity]. exists (RFile (256 * (cb / 2) + x2) :: rs). split; [cbn; lia|]. split.
      * change ([cb] ++ [x2] ++ b4) with ([cb; x2] ++ b4). constructor; [|auto]. split; [f_equal; [lia|f_equal; lia]|lia].
      * cbn [run_debug]. destruct (Z.ltb_spec i nops); [|lia]. cbn [negb]. destruct (Z.ltb_spec (256 * (cb / 2) + x2) nf); [|lia]. exact E.
  - intros ((l & (rs & L & M & E) & ->) & ->). destruct rs as [|r rs]; cbn [run_debug] in E; destruct (Z.ltb_spec i nops); try lia; try discriminate. cbn [negb] in E.
    apply many_cons_inv in M as (b1 & b2 & -> & Sp & M). cbn [length] in L. destruct r as [f|dl n|dl|x1 x2 x3]; cbn [spell_rrec] in Sp; destruct Sp as (-> & Rr).
    + destruct (Z.ltb_spec f nf); [|discriminate]. change ([2 * (f / 256) + 1; f mod 256] ++ b2) with ([2 * (f / 256) + 1] ++ [f mod 256] ++ b2).
      assert (Rc : 0 <= 2 * (f / 256) + 1 < 256) by lia. eapply gb_cons; [split; [split; [reflexivity|exact Rc]|reflexivity]|].
      destruct (byte_split _ Rc) as (S1 & S2 & S4 & _). rewrite S1. destruct (Z.eqb_spec ((2 * (f / 256) + 1) mod 2) 0); [lia|]. cbn [negb].
      eapply gb_cons; [split; [split; [reflexivity|lia]|reflexivity]|]. replace (256 * ((2 * (f / 256) + 1) / 2) + f mod 256) with f by lia. split; [auto|]. split; [lia|]. exists l. split; [|auto]. exists rs. split; [lia|auto].
    + destruct (Z.leb_spec (i + n) nops); [|discriminate]. destruct (Z.ltb_spec (line + dl) (2 ^ 31)); [|discriminate]. cbn [andb] in E.
      assert (Rc : 0 <= 64 * dl + 4 * n + 2 < 256) by lia. eapply gb_cons; [split; [split; [reflexivity|exact Rc]|reflexivity]|].
      destruct (byte_split _ Rc) as (S1 & S2 & S4 & _). rewrite S1, S2. destruct (Z.eqb_spec ((64 * dl + 4 * n + 2) mod 2) 0); [|lia]. destruct (Z.eqb_spec ((64 * dl + 4 * n + 2) / 2 mod 2) 0); [lia|]. cbn [negb].
      unfold Grep. replace ((64 * dl + 4 * n + 2) / 64) with dl by lia. replace ((64 * dl + 4 * n + 2) / 4 mod 16) with n by lia. split; [auto|]. split; [lia|]. split; [auto|]. exists l. split; [|auto]. exists rs. split; [lia|auto].
    + destruct (Z.ltb_spec (line + dl) (2 ^ 31)); [|discriminate]. destruct (run_debug nf nops (i + 1) file (line + dl) rs) as [l0|] eqn:E0; [|discriminate]. cbn in E. injection E as <-.
      assert (Rc : 0 <= 8 * dl + 4 < 256) by lia. eapply gb_cons; [split; [split; [reflexivity|exact Rc]|reflexivity]|].
      destruct (byte_split _ Rc) as (S1 & S2 & S4 & _). rewrite S1, S2, S4. destruct (Z.eqb_spec ((8 * dl + 4) mod 2) 0); [|lia]. destruct (Z.eqb_spec ((8 * dl + 4) / 2 mod 2) 0); [|lia]. destruct (Z.eqb_spec ((8 * dl + 4) / 4 mod 2) 0); [lia|]. cbn [negb].
      unfold Gdelta. replace ((8 * dl + 4) / 8) with dl by lia. split; [auto|]. split; [auto|]. exists l0. split; [exists rs; split; [lia|auto]|]. cbn. rewrite <- app_assoc. reflexivity.
    + destruct (run_debug nf nops (i + 1) file (abs_line x1 x2 x3) rs) as [l0|] eqn:E0; [|discriminate]. cbn in E. injection E as <-.
      change ([8 * x1; x2; x3] ++ b2) with ([8 * x1] ++ [x2] ++ [x3] ++ b2). assert (Rc : 0 <= 8 * x1 < 256) by lia. eapply gb_cons; [split; [split; [reflexivity|exact Rc]|reflexivity]|].
      destruct (byte_split _ Rc) as (S1 & S2 & S4 & _). rewrite S1, S2, S4. destruct (Z.eqb_spec (8 * x1 mod 2) 0); [|lia]. destruct (Z.eqb_spec (8 * x1 / 2 mod 2) 0); [|lia]. destruct (Z.eqb_spec (8 * x1 / 4 mod 2) 0); [|lia]. cbn [negb].
      unfold Gabs. eapply gb_cons; [split; [split; [reflexivity|lia]|reflexivity]|]. eapply gb_cons; [split; [split; [reflexivity|lia]|reflexivity]|].
      replace (8 * x1 / 8) with x1 by lia. split; [auto|]. exists l0. split; [exists rs; split; [lia|auto]|]. cbn. rewrite <- app_assoc. reflexivity.
Qed.
Definition debugP (nf nops : Z) (bs : list Z) (d : list Z) : Prop := exists rs l, many spell_rrec bs rs /\ run_debug nf nops 0 (-1) 0 rs = Some l /\ d = pairs l.
Lemma spell_rrec_len bs r : spell_rrec bs r -> (1 <= length bs)%nat.
Proof. destruct r; intros (-> & _); cbn; lia. Qed.
Lemma den_debug_infos nf nops : nf <= I32_MAX -> 0 <= nops -> den (fun c => c_ndebugfiles c = nf) (debug_infos nops) (gread (debugP nf nops)).
Proof.
  intros Hnf Hn. pose proof (fun fuel => den_debug_loop nf nops fuel Hnf 0 (-1) 0 [] eq_refl ltac:(lia)) as D. cbn [app] in D. rewrite Z.sub_0_r in D.
  unfold debug_infos. split.
  - intros s r s' R E. exact (keep_debug_loop _ _ _ _ _ _ _ _ _ R E).
  - intros s a s' C J R N. destruct (den_to (D _) _ _ _ C J R N) as (bs & B & ((l & (rs & _ & M & E) & ->) & Ec)). exists bs. split; [auto|]. split; [|auto]. exists rs, l. auto.
  - intros s bs rest a c' C J B ((rs & l & M & E & ->) & ->). apply (den_from (D _) s bs rest (pairs l) (d_code s) C J B). split; [|reflexivity]. exists l. split; [|reflexivity]. exists rs. split; [|auto].
    rewrite B, app_length. assert (LL : (length rs <= length bs)%nat); [|lia]. clear - M. induction M as [|b bs r rs H M IH]; cbn; [lia|]. rewrite app_length. apply spell_rrec_len in H. lia.
Qed.
