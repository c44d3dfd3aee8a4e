(** The denotations of functions and of the phases of [Code::read]. *)
From Verif Require Import Prelude StdModel BrassTypes DecoderModel CodeModel FormatSpec ReaderSpec ErrSpec GrammarSpec.
From Verif Require Import CodeGenericProofs FormatProofs Utf8Proofs StringsProofs ReaderPost ReaderTables ErrProofs GrammarDen GrammarTypes GrammarFuns GrammarStrings.
From Coq Require Import Lia ZifyBool.
Ltac Zify.zify_post_hook ::= Z.div_mod_to_equations.

(** * Recorded errors stay *)
Lemma keep_unwrap_mapped A (m : M A) : keep m -> keep (unwrap_mapped m).
Proof. intros K s r s' R E. unfold unwrap_mapped in R. destruct (m s) as [[a|e|p] s1] eqn:M1; inversion R; subst; try exact (K _ _ _ M1 E). cbn. destruct (errs s1); discriminate. Qed.
Lemma keep_ok_mapped A (m : M A) : keep m -> keep (ok_mapped m).
Proof. intros K s r s' R E. unfold ok_mapped in R. destruct (m s) as [[a|e|p] s1] eqn:M1; inversion R; subst; try exact (K _ _ _ M1 E). cbn. destruct (errs s1); discriminate. Qed.
Lemma keep_ok A (m : M A) : keep m -> keep (ok m).
Proof. intros K s r s' R E. unfold ok in R. destruct (m s) as [[a|e|p] s1] eqn:M1; inversion R; subst; exact (K _ _ _ M1 E). Qed.
Lemma keep_check : keep check_error. Proof. exact (den_keep (den_check (fun _ => True))). Qed.
Lemma keep_put c : keep (put_code c). Proof. exact (den_keep (den_put_code (fun _ => True) c)). Qed.
Lemma keep_INDEX : keep INDEX. Proof. exact (den_keep (den_INDEX (fun _ => True))). Qed.
Lemma keep_UINDEX : keep UINDEX. Proof. exact (den_keep (den_UINDEX (fun _ => True))). Qed.
Lemma keep_get_type : keep get_type.
Proof. exact (den_keep (den_get_type [] 0 0 ltac:(cbn; lia) ltac:(unfold I32_MAX; lia))). Qed.
Lemma keep_read_type : keep read_type.
Proof. exact (den_keep (den_read_type [] 0 0 ltac:(cbn; lia) ltac:(unfold I32_MAX; lia) ltac:(unfold I32_MAX; lia))). Qed.
Lemma keep_read_opcode : keep read_opcode. Proof. exact (den_keep (den_read_opcode (fun _ => True))). Qed.
Lemma keep_debug_infos n : keep (debug_infos n). Proof. intros s r s' R E. exact (keep_debug_loop _ _ _ _ _ _ _ _ _ R E). Qed.
Lemma keep_range A n (body : Z -> A -> M A) a : (forall j x, keep (body j x)) -> keep (for_range n body a). Proof. intros. unfold for_range. now apply keep_loop. Qed.
Lemma keep_throw A e : keep (@throw A e). Proof. intros s r s' R E. inversion R; subst. auto. Qed.
Ltac keeps2 := repeat (cbv beta zeta; lazymatch goal with
  | |- keep (bind _ _) => apply keep_bind | |- forall _, _ => intros ? | |- keep (unwrap _) => apply keep_unwrap | |- keep (unwrap_mapped _) => apply keep_unwrap_mapped
  | |- keep (ok_mapped _) => apply keep_ok_mapped | |- keep (ok _) => apply keep_ok | |- keep decode_u8 => apply keep_u8 | |- keep check_error => apply keep_check
  | |- keep INDEX => apply keep_INDEX | |- keep UINDEX => apply keep_UINDEX | |- keep get_type => apply keep_get_type | |- keep read_type => apply keep_read_type
  | |- keep read_opcode => apply keep_read_opcode | |- keep (debug_infos _) => apply keep_debug_infos | |- keep (put_code _) => apply keep_put
  | |- keep (ret _) => apply keep_ret | |- keep (record_error _) => apply keep_record | |- keep get_pos => apply keep_get_pos | |- keep get_code => apply keep_get_code
  | |- keep (crash _) => apply keep_crash | |- keep (throw _) => apply keep_throw | |- keep (expect _ _) => apply keep_expect | |- keep (vec_insert _ _ _) => apply keep_expect
  | |- keep (to_i32 _) => unfold to_i32 | |- keep (i32_add _ _) => unfold i32_add | |- keep (for_range _ _ _) => apply keep_range
  | |- keep (if ?b then _ else _) => destruct b | |- keep (match ?o with Some _ => _ | None => _ end) => destruct o end).
Lemma keep_read_string : keep read_string. Proof. unfold read_string. keeps2. Qed.
Lemma keep_read_function : keep read_function. Proof. unfold read_function. keeps2. Qed.
Lemma keep_skip_assigns : keep skip_assigns. Proof. unfold skip_assigns. keeps2. Qed.
Lemma keep_function_entry i c : keep (read_function_entry i c). Proof. unfold read_function_entry. keeps2; first [apply keep_read_function|apply keep_skip_assigns]. Qed.

(** from what holds of the module at the start *)
Lemma den_at (I : code -> Prop) A (m : M A) (G : rel A) : keep m -> (forall c0, I c0 -> den (fun c => c = c0) m G) -> den I m G.
Proof.
  intros K D. split; [exact K| |].
  - intros s a s' C Ic R N. exact (den_to (D _ Ic) s a s' C eq_refl R N).
  - intros s bs rest a c' C Ic B H. exact (den_from (D _ Ic) s bs rest a c' C eq_refl B H).
Qed.
(** a loop whose accumulator satisfies [P] *)
Lemma den_loopP A (I : code -> Prop) (P : Z -> A -> Prop) (body : Z -> A -> M A) G :
  (forall j x, keep (body j x)) -> (forall j x, P j x -> den I (body j x) (G j x)) ->
  (forall j x c bs x' c', P j x -> I c -> G j x c bs x' c' -> P (j + 1) x' /\ I c') ->
  forall n i a, P i a -> den I (for_loop n i body a) (iter G n i a).
Proof.
  intros K D Pr n i a Pa. eapply den_weaken; [apply (den_for_loop A (fun j x c => I c /\ P j x))|]; [| |intros c Ic; split; auto].
  - intros j x. apply den_pure; auto.
  - intros j x c bs x' c' (Ic & Px) H. destruct (Pr _ _ _ _ _ _ Px Ic H). auto.
Qed.

(** * Functions *)
Section Funs.
Context (ts : list vtype) (nt ns : Z) (Hts : nt <= zlen ts) (Hnt : nt <= I32_MAX).
Notation base := (base ts nt ns).
Definition fun_body (f : rfun) (debug : list Z) : hl_function :=
  mkFun (ty ts (rf_type f)) (rf_findex f) (zlen (rf_regs f)) (zlen (rf_ops f)) 0 (map (ty ts) (rf_regs f)) (map read_op (rf_ops f)) debug None None.
Definition fun_head (bs : list Z) (f : rfun) : Prop := exists b1 b2 b3 b4 b5 b6, bs = b1 ++ b2 ++ b3 ++ b4 ++ b5 ++ b6 /\
  ix b1 (rf_type f) /\ uix b2 (rf_findex f) /\ uix b3 (zlen (rf_regs f)) /\ uix b4 (zlen (rf_ops f)) /\ many ix b5 (rf_regs f) /\ many spell_op b6 (rf_ops f).
Definition fun_refs (f : rfun) : Prop := 0 <= rf_type f < nt /\ Forall (fun k => 0 <= k < nt) (rf_regs f).
Lemma many_ref1 bs l : many (ref1 ts nt) bs l <-> exists ks, many ix bs ks /\ Forall (fun k => 0 <= k < nt) ks /\ l = map (ty ts) ks.
Proof. apply many_map. Qed.
Lemma many_opP bs l : many opP bs l <-> exists is, many spell_op bs is /\ l = map read_op is.
Proof.
  rewrite (many_iff _ opP (fun b y => exists x, spell_op b x /\ True /\ y = read_op x)).
  - rewrite many_map. split; [intros (xs & M & _ & E); eauto|intros (xs & M & E); exists xs; split; [auto|]; split; [|auto]; apply Forall_forall; auto].
  - intros b x. unfold opP. split; intros (i & H); exists i; intuition.
Qed.
Lemma den_read_function : den base read_function (gread (fun bs h => exists f, fun_head bs f /\ fun_refs f /\ h = fun_body f [] /\ rf_debug f = [] /\ rf_assigns f = [])).
Proof.
  unfold read_function. eapply den_iff.
  { eapply den_seq; [apply den_unwrap, den_get_type; auto|apply still_gread|]. intros t. eapply den_seq; [dens2|apply still_gread|]. intros fi. eapply den_seq; [dens2|apply still_gread|]. intros nr.
    eapply den_seq; [dens2|apply still_gread|]. intros no. eapply den_seq; [apply den_fillr; apply den_unwrap_mapped, den_get_type; auto|apply still_gread|]. intros regs.
    apply den_seq with (K := fun e => match e with None => gret (mkFun t fi nr no 0 regs [] [] None None) | Some _ => gbind (gread (fun bs l => exists xs, l = xs ++ [] /\ zlen xs = Z.max 0 no /\ many opP bs xs)) (fun ops => gret (mkFun t fi nr no 0 regs ops [] None None)) end);
      [apply den_ok_check|intros c bs a c' (_ & _ & ->); reflexivity|]. intros [u|]; [|apply den_ret].
    eapply den_seq; [apply den_fillr; apply den_unwrap, den_read_opcode|apply still_gread|]. intros ops. apply den_ret. }
  intros c bs h c' _. split.
  - intros (b1 & b2 & t & c1 & -> & ((k & V1 & R1 & ->) & ->) & (b3 & b4 & fi & c2 & -> & (V2 & ->) & (b5 & b6 & nr & c3 & -> & ((V3 & P3) & ->) & (b7 & b8 & no & c4 & -> & ((V4 & P4) & ->) &
      (b9 & b10 & regs & c5 & -> & ((xr & -> & L5 & M5) & ->) & (b11 & b12 & e & c6 & -> & (-> & -> & ->) & (b13 & b14 & ops & c7 & -> & ((xo & -> & L6 & M6) & ->) & (-> & -> & ->)))))))).
    rewrite !app_nil_r. cbn [app]. rewrite Z.max_r in L5, L6 by lia. apply many_ref1 in M5 as (ks & M5 & F5 & ->). apply many_opP in M6 as (is & M6 & ->).
    unfold zlen in L5, L6. rewrite map_length in L5, L6. fold (zlen ks) in L5. fold (zlen is) in L6. subst nr no. split; [|reflexivity].
    exists {| rf_type := k; rf_findex := fi; rf_regs := ks; rf_ops := is; rf_debug := []; rf_assigns := [] |}. split; [exists b1, b3, b5, b7, b9, b13; repeat split; auto; apply V2|]. split; [split; auto|]. auto.
  - intros ((f & (b1 & b2 & b3 & b4 & b5 & b6 & -> & V1 & V2 & V3 & V4 & M5 & M6) & (R1 & R2) & -> & _) & ->).
    eapply gb_cons; [split; [exists (rf_type f); eauto|reflexivity]|]. eapply gb_cons; [split; [exact V2|reflexivity]|]. eapply gb_cons; [split; [exact V3|reflexivity]|]. eapply gb_cons; [split; [exact V4|reflexivity]|].
    pose proof (zlen_nonneg (rf_regs f)). pose proof (zlen_nonneg (rf_ops f)).
    eapply gb_cons; [split; [exists (map (ty ts) (rf_regs f)); rewrite app_nil_r; split; [reflexivity|split; [unfold zlen; rewrite map_length, Z.max_r by lia; reflexivity|apply many_ref1; eauto]]|reflexivity]|].
    eapply gb_nil; [apply gret_i|]. eapply gb_last; [split; [exists (map read_op (rf_ops f)); rewrite app_nil_r; split; [reflexivity|split; [unfold zlen; rewrite map_length, Z.max_r by lia; reflexivity|apply many_opP; eauto]]|reflexivity]|].
    apply gret_i.
Qed.
End Funs.
Lemma iter_units A (P : list Z -> A -> Prop) k : forall u0 i c bs u c', iter (fun _ _ => gread (fun bs (_ : unit) => exists p, P bs p)) k i u0 c bs u c' <-> c' = c /\ exists l, length l = k /\ many P bs l.
Proof.
  induction k as [|k IH]; intros u0 i c bs u c'.
  - split; [intros H; inversion H; subst; split; [auto|]; exists []; split; [reflexivity|constructor]|]. intros (-> & l & L & M). destruct l; [|discriminate]. inversion M; subst. destruct u0, u. constructor.
  - split.
    + intros H. inversion H as [|n0 i0 a0 c0 b1 b2 a1 c1 a2 c2 ((p & Hp) & ->) H6]; subst. apply IH in H6 as (-> & l & L & M). split; [auto|]. exists (p :: l). split; [cbn; lia|]. now constructor.
    + intros (-> & l & L & M). destruct l as [|p r]; [discriminate|]. apply many_cons_inv in M as (b1 & b2 & -> & Hp & M). apply iter_S with (a1 := tt) (c1 := c); [split; [eauto|auto]|]. apply IH. cbn in L. split; [auto|]. exists r. split; [lia|auto].
Qed.
Lemma den_skip_assigns I : den I skip_assigns (gread (fun bs _ => exists b1 b2 l, bs = b1 ++ b2 /\ uix b1 (zlen l) /\ many (both uix ix) b2 l)).
Proof.
  unfold skip_assigns. eapply den_iff.
  { apply den_seq with (K := fun n => fun c bs (_ : unit) c' => c' = c /\ exists l : list (Z * Z), zlen l = Z.max 0 n /\ many (both uix ix) bs l); [dens2|apply still_gread|]. intros n.
    assert (D : den I (a <- ok UINDEX ;; b <- ok INDEX ;; ret tt) (gread (fun bs (_ : unit) => exists p, both uix ix bs p))).
    { eapply den_iff; [eapply den_seq; [apply den_ok; [apply UINDEX_noerr|apply den_UINDEX]|intros c bs a c' (x & _ & _ & ->); reflexivity|]; intros a; eapply den_seq; [apply den_ok; [|apply den_INDEX]|intros c bs b c' (x & _ & _ & ->); reflexivity|]; [|intros b; apply den_ret]|].
      - intros s e s' R. unfold INDEX, unwrap in R. destruct (read_index s) as [[?|?|?] ?]; discriminate.
      - intros c bs u c' _. split.
        + intros (b1 & b2 & o & c1 & -> & (x & -> & (V & ->)) & (b3 & b4 & o2 & c2 & -> & (y & -> & (V2 & ->)) & (-> & -> & ->))). split; [|auto]. exists (x, y), b1, b3. rewrite app_nil_r. auto.
        + intros (([x y] & b1 & b2 & -> & V1 & V2) & ->). eapply gb_cons; [exists x; split; [reflexivity|split; [exact V1|reflexivity]]|]. eapply gb_last; [exists y; split; [reflexivity|split; [exact V2|reflexivity]]|]. destruct u. apply gret_i. }
    rewrite for_range_max. unfold for_range. eapply den_iff; [apply (den_for_loop unit (fun _ _ => I) _ (fun _ _ => gread (fun bs (_ : unit) => exists p, both uix ix bs p)))|].
    - intros j []. exact D.
    - intros j x c bs x' c' Ic (_ & ->). exact Ic.
    - intros c bs u c' _. rewrite iter_units. split; intros (-> & l & L & M); (split; [auto|]); exists l; (split; [unfold zlen in *; lia|auto]). }
  intros c bs u c' _. split.
  - intros (b1 & b2 & n & c1 & -> & ((V & P) & ->) & (-> & l & L & M)). rewrite Z.max_r in L by lia. subst n. split; [|auto]. exists b1, b2, l. repeat split; auto.
  - intros ((b1 & b2 & l & -> & V & M) & ->). eapply gb_cons; [split; [exact V|reflexivity]|]. split; [auto|]. exists l. pose proof (zlen_nonneg l). rewrite Z.max_r by lia. auto.
Qed.
(** programs run from a known module *)
Lemma den_getc c A (k : code -> M A) G : (forall c0, keep (k c0)) -> den (fun d => d = c) (k c) G -> den (fun d => d = c) (bind get_code k) G.
Proof.
  intros K D. split.
  - intros s r s' R. apply (K (d_code s) s r s'). exact R.
  - intros s x s' C E R N. unfold bind, get_code in R. cbn in R. rewrite E in R. exact (den_to D s x s' C E R N).
  - intros s bs rest x c' C E B H. unfold bind, get_code. cbn. rewrite E. exact (den_from D s bs rest x c' C E B H).
Qed.
Lemma den_putc (I : code -> Prop) c A (m : M A) (G : rel A) : den (fun d => d = c) m G -> den I (put_code c ;;; m) (fun _ => G c).
Proof.
  intros D. eapply den_iff; [apply (den_bind I _ _ (fun _ d => d = c) _ (fun _ bs _ c' => bs = [] /\ c' = c) _ (fun _ => G)); [apply den_put_code|intros c0 bs a c' _ (_ & ->); reflexivity|intros u; exact D]|].
  intros c0 bs a c' _. split.
  - intros (b1 & b2 & u & c1 & -> & (-> & ->) & H). exact H.
  - intros H. apply gb_nil with (a := tt) (c1 := c); auto.
Qed.
Lemma den_some I A B p (o : option A) a (k : A -> M B) G : o = Some a -> den I (k a) G -> den I (bind (expect p o) k) G.
Proof. intros -> D. eapply den_eq; [|exact D]. intros s. reflexivity. Qed.
Lemma znth_last {A} (l : list A) x i : zlen l = i -> znth (l ++ [x]) i = Some x.
Proof. intros <-. rewrite znth_app_r by lia. now rewrite Z.sub_diag. Qed.

Lemma set_functions_twice x y c : set_functions x (set_functions y c) = set_functions x c. Proof. reflexivity. Qed.
Definition assignsP (v : Z) (bs : list Z) : Prop := if 3 <=? v then exists b1 b2 l, bs = b1 ++ b2 /\ uix b1 (zlen l) /\ many (both uix ix) b2 l else bs = [].
Lemma den_assigns I v : den I (if 3 <=? v then skip_assigns else ret tt) (gread (fun bs _ => assignsP v bs)).
Proof.
  unfold assignsP. destruct (3 <=? v); [apply den_skip_assigns|]. eapply den_iff; [apply den_ret|]. intros c bs [] c' _. unfold gret, gread. intuition.
Qed.
Definition gentry2 (nf : Z) (dbg : bool) (c : code) (h : hl_function) : rel code := fun _ bs c2 c' => c' = c2 /\
  if dbg then exists b1 b2 dg, bs = b1 ++ b2 /\ debugP nf (hf_nops h) b1 dg /\ assignsP (c_version c) b2 /\ c2 = set_functions (c_functions c ++ [hf_set_debug h dg]) c
  else bs = [] /\ c2 = set_functions (c_functions c ++ [h]) c.
Lemma den_function_entry ts nt ns nf I i c : nt <= zlen ts -> nt <= I32_MAX -> nf <= I32_MAX -> base ts nt ns c -> c_ndebugfiles c = nf -> zlen (c_functions c) = i ->
  let dbg := negb (c_hasdebug c =? 0) in
  den I (read_function_entry i c) (fun _ bs c2 c' => c' = c2 /\ exists f, spell_fun (c_version c) dbg bs f /\ legal_fun nt nf dbg f /\ c2 = set_functions (c_functions c ++ [mean_fun nf dbg ts f]) c).
Proof.
  intros Hts Hnt Hnf Bc Hf Hi dbg. unfold read_function_entry. eapply den_iff.
  { apply den_putc with (G := gbind (gread (fun bs h => exists f, fun_head bs f /\ fun_refs nt f /\ h = fun_body ts f [] /\ rf_debug f = [] /\ rf_assigns f = [])) (gentry2 nf dbg c)).
    apply den_bind with (J := fun h d => d = c /\ 0 <= hf_nops h).
    - apply den_unwrap_mapped. eapply den_weaken; [apply (den_read_function ts nt ns Hts Hnt)|]. intros d ->. exact Bc.
    - intros c0 bs h c1 -> ((f & _ & _ & -> & _) & ->). split; [reflexivity|]. cbn. apply zlen_nonneg.
    - intros h. apply den_pure; [keeps2; apply keep_skip_assigns|]. intros Hn. apply den_getc; [intros; keeps2; apply keep_skip_assigns|].
      set (c1 := set_functions (c_functions c ++ [h]) c).
      eapply den_iff; [apply den_putc with (G := gentry2 nf dbg c h)|]; [|intros c0 bs a c' _; reflexivity].
      apply den_getc; [intros; keeps2; apply keep_skip_assigns|]. change (c_hasdebug c1) with (c_hasdebug c). fold dbg. change (c_version c1) with (c_version c). unfold gentry2. destruct dbg.
      + eapply den_iff; [apply den_bind with (J := fun (_ : unit) d => True) (G := fun _ bs (_ : unit) c' => exists b1 b2 dg, bs = b1 ++ b2 /\ debugP nf (hf_nops h) b1 dg /\ assignsP (c_version c) b2 /\ c' = set_functions (c_functions c ++ [hf_set_debug h dg]) c);
          [|auto|intros u; apply den_get]|].
        * apply den_some with (a := h); [apply znth_last; exact Hi|].
          eapply den_iff; [apply den_bind with (J := fun o d => d = c1) (G := gsome (gread (debugP nf (hf_nops h))))
            (K := fun o c0 bs (u : unit) c' => match o with Some dg => assignsP (c_version c) bs /\ c' = set_functions (c_functions c ++ [hf_set_debug h dg]) c | None => gbind (gret tt) (fun _ => gread (fun bs _ => assignsP (c_version c) bs)) c0 bs u c' end)|].
          -- apply den_ok_mapped. eapply den_weaken; [apply den_debug_infos; auto|]. intros d ->. exact Hf.
          -- intros c0 bs o c' -> (a & -> & (_ & ->)). reflexivity.
          -- intros [dg|].
             ++ eapply den_iff; [apply den_bind with (J := fun (_ : unit) d => True) (G := fun _ bs (_ : unit) c' => bs = [] /\ c' = set_functions (c_functions c ++ [hf_set_debug h dg]) c);
                  [|auto|intros u; apply den_assigns]|].
                ** apply den_getc; [intros; keeps2|]. apply den_some with (a := h); [apply znth_last; exact Hi|].
                   apply den_some with (a := c_functions c ++ [hf_set_debug h dg]); [unfold c1; cbn [c_functions set_functions]; rewrite <- Hi; apply zset_last|].
                   eapply den_iff; [apply den_put_code|]. intros c0 bs u c' _. reflexivity.
                ** intros c0 bs u c' _. split.
                   --- intros (b1 & b2 & u1 & c2 & -> & (-> & ->) & (H & ->)). eauto.
                   --- intros (H & ->). apply gb_nil with (a := tt) (c1 := set_functions (c_functions c ++ [hf_set_debug h dg]) c); [auto|]. split; auto.
             ++ eapply den_seq; [apply den_ret|intros c0 bs u c' (_ & _ & ->); reflexivity|intros u; apply den_assigns].
          -- intros c0 bs u c' _. split.
             ++ intros (b1 & b2 & o & c2 & -> & (dg & -> & (H & ->)) & (H2 & ->)). exists b1, b2, dg. auto.
             ++ intros (b1 & b2 & dg & -> & H & H2 & ->). eapply gb_cons; [exists dg; split; [reflexivity|split; [exact H|reflexivity]]|]. split; auto.
        * intros c0 bs a c' _. split.
          -- intros (b1 & b2 & u1 & c2 & -> & (b3 & b4 & dg & -> & H & H2 & ->) & (-> & -> & ->)). rewrite app_nil_r. split; [auto|]. exists b3, b4, dg. auto.
          -- intros (-> & b1 & b2 & dg & -> & H & H2 & ->). apply gb_last with (a := tt) (c1 := set_functions (c_functions c ++ [hf_set_debug h dg]) c); [exists b1, b2, dg; auto|]. auto.
      + eapply den_iff; [apply den_bind with (J := fun (_ : unit) d => d = c1); [apply den_ret|intros c0 bs a c' -> (_ & _ & ->); reflexivity|intros u; apply den_get]|].
        intros c0 bs a c' ->. split.
        * intros (b1 & b2 & u1 & c2 & -> & (-> & -> & ->) & (-> & -> & ->)). auto.
        * intros (-> & -> & ->). eapply gb_nil; [apply gret_i|]. auto. }
  intros c0 bs c2 c' _. split.
  - intros (b1 & b2 & h & c1 & -> & ((f & (x1 & x2 & x3 & x4 & x5 & x6 & -> & V1 & V2 & V3 & V4 & M5 & M6) & (R1 & R2) & -> & _) & ->) & (-> & H)). split; [auto|]. unfold spell_fun, legal_fun, mean_fun. destruct dbg.
    + destruct H as (b3 & b4 & dg & -> & (rs & l & Mr & Rr & ->) & As & ->). unfold assignsP in As.
      assert (As' : exists asg, (if 3 <=? c_version c then exists d1 d2, b4 = d1 ++ d2 /\ uix d1 (zlen asg) /\ many (both uix ix) d2 asg else b4 = [] /\ asg = [])).
      { destruct (3 <=? c_version c); [destruct As as (d1 & d2 & asg & H); exists asg; eauto|exists []; auto]. }
      destruct As' as (asg & As'). cbn [hf_nops fun_body] in Rr.
      exists {| rf_type := rf_type f; rf_findex := rf_findex f; rf_regs := rf_regs f; rf_ops := rf_ops f; rf_debug := rs; rf_assigns := asg |}. cbn [rf_type rf_findex rf_regs rf_ops rf_debug rf_assigns].
      split; [exists x1, x2, x3, x4, x5, x6, (b3 ++ b4); rewrite <- !app_assoc; repeat split; auto; try apply V2; try apply V3; try apply V4; exists b3, b4; auto|]. rewrite Rr. split; [repeat split; auto; try lia; discriminate|]. reflexivity.
    + destruct H as (-> & ->). exists {| rf_type := rf_type f; rf_findex := rf_findex f; rf_regs := rf_regs f; rf_ops := rf_ops f; rf_debug := []; rf_assigns := [] |}. cbn [rf_type rf_findex rf_regs rf_ops rf_debug rf_assigns].
      split; [exists x1, x2, x3, x4, x5, x6, []; rewrite <- !app_assoc, app_nil_r; repeat split; auto; try apply V2; try apply V3; try apply V4|]. split; [repeat split; auto; try lia; discriminate|]. reflexivity.
  - intros (-> & f & (x1 & x2 & x3 & x4 & x5 & x6 & x7 & -> & V1 & V2 & V3 & V4 & M5 & M6 & H) & (R1 & R2 & R3) & ->).
    replace (x1 ++ x2 ++ x3 ++ x4 ++ x5 ++ x6 ++ x7) with ((x1 ++ x2 ++ x3 ++ x4 ++ x5 ++ x6) ++ x7) by (rewrite <- !app_assoc; reflexivity).
    eapply gb_cons; [split; [exists {| rf_type := rf_type f; rf_findex := rf_findex f; rf_regs := rf_regs f; rf_ops := rf_ops f; rf_debug := []; rf_assigns := [] |}; repeat split; [|cbn; lia|cbn; lia|exact R2]; exists x1, x2, x3, x4, x5, x6; auto 10|reflexivity]|].
    split; [reflexivity|]. unfold mean_fun, fun_body. cbn [hf_nops]. destruct dbg.
    + destruct H as (c1 & c2 & -> & Mr & As). specialize (R3 eq_refl). destruct (run_debug nf (zlen (rf_ops f)) 0 (-1) 0 (rf_debug f)) as [l|] eqn:E; [|contradiction].
      exists c1, c2, (pairs l). split; [auto|]. split; [exists (rf_debug f), l; auto|]. split; [|reflexivity]. unfold assignsP. destruct (3 <=? c_version c); [destruct As as (d1 & d2 & A); eauto|tauto].
    + destruct H as (-> & _ & _). auto.
Qed.
