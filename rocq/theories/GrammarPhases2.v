(** The denotations of the phases of [Code::read]. *)
From Verif Require Import Prelude StdModel BrassTypes DecoderModel CodeModel FormatSpec ReaderSpec ErrSpec GrammarSpec.
From Verif Require Import CodeGenericProofs FormatProofs Utf8Proofs StringsProofs ReaderPost ReaderTables ErrProofs GrammarDen GrammarTypes GrammarFuns GrammarStrings GrammarPhases.
From Coq Require Import Lia ZifyBool.
Ltac Zify.zify_post_hook ::= Z.div_mod_to_equations.

(** * Loops that extend the module and store it *)
Inductive seqs {F} (Q : list F -> list Z -> F -> Prop) : list F -> list Z -> list F -> Prop :=
| seqs_nil pre : seqs Q pre [] []
| seqs_cons pre b f bs fs : Q pre b f -> seqs Q (pre ++ [f]) bs fs -> seqs Q pre (b ++ bs) (f :: fs).
Lemma seqs_many F (Q : list Z -> F -> Prop) pre bs fs : seqs (fun _ => Q) pre bs fs <-> many Q bs fs.
Proof.
  split.
  - induction 1; constructor; auto.
  - intros M. revert pre. induction M; intros pre; constructor; auto.
Qed.
Definition gsync (R : Z -> code -> list Z -> code -> Prop) (j : Z) (x : code) : rel code := fun _ bs x2 d' => d' = x2 /\ R j x bs x2.
Lemma iter_sync F (R : Z -> code -> list Z -> code -> Prop) (mk : list F -> code) Q :
  (forall pre bs x2, R (zlen pre) (mk pre) bs x2 <-> exists f, Q pre bs f /\ x2 = mk (pre ++ [f])) ->
  forall n pre d bs x' d', iter (gsync R) n (zlen pre) (mk pre) d bs x' d' <->
    exists fs, length fs = n /\ seqs Q pre bs fs /\ x' = mk (pre ++ fs) /\ d' = match n with O => d | S _ => x' end.
Proof.
  intros E. induction n as [|n IH]; intros pre d bs x' d'.
  - split.
    + intros H. inversion H; subst. exists []. rewrite app_nil_r. repeat split. constructor.
    + intros (fs & L & S & -> & ->). destruct fs; [|discriminate]. inversion S; subst. rewrite app_nil_r. constructor.
  - split.
    + intros H. inversion H as [|n0 i0 a0 c0 b1 b2 a1 c1 a2 c2 (E1 & HR) H6]; subst. apply E in HR as (f & HQ & ->).
      replace (zlen pre + 1) with (zlen (pre ++ [f])) in H6 by (rewrite zlen_app; reflexivity). apply IH in H6 as (fs & L & S & -> & ->). exists (f :: fs). split; [cbn; lia|]. split; [now constructor|].
      rewrite <- app_assoc in *. cbn [app] in *. split; [reflexivity|]. destruct n; [|reflexivity]. destruct fs; [reflexivity|discriminate].
    + intros (fs & L & S & -> & ->). destruct fs as [|f fs]; [discriminate|]. inversion S; subst. apply iter_S with (a1 := mk (pre ++ [f])) (c1 := mk (pre ++ [f])); [split; [reflexivity|apply E; eauto]|].
      replace (zlen pre + 1) with (zlen (pre ++ [f])) by (rewrite zlen_app; reflexivity). apply IH. exists fs. rewrite <- app_assoc. split; [cbn in L; lia|]. split; [auto|]. split; [reflexivity|]. destruct n; [|reflexivity]. destruct fs; [reflexivity|discriminate].
Qed.
Lemma den_sync F (I : code -> Prop) (R : Z -> code -> list Z -> code -> Prop) (mk : list F -> code) Q body n :
  (forall j x, keep (body j x)) ->
  (forall pre, den I (body (zlen pre) (mk pre)) (gsync R (zlen pre) (mk pre))) -> (forall pre, I (mk pre)) ->
  (forall pre bs x2, R (zlen pre) (mk pre) bs x2 <-> exists f, Q pre bs f /\ x2 = mk (pre ++ [f])) ->
  den I (for_range n body (mk [])) (fun d bs x' d' => exists fs, zlen fs = Z.max 0 n /\ seqs Q [] bs fs /\ x' = mk fs /\ d' = if n <=? 0 then d else x').
Proof.
  intros K D Im E. rewrite for_range_max. unfold for_range. eapply den_iff.
  { apply (den_loopP code I (fun j x => exists pre, zlen pre = j /\ x = mk pre) body (gsync R)); auto.
    - intros j x (pre & <- & ->). apply D.
    - intros j x c bs x' c' (pre & <- & ->) _ (-> & HR). apply E in HR as (f & _ & ->). split; [exists (pre ++ [f]); split; [rewrite zlen_app; reflexivity|reflexivity]|apply Im].
    - exists []. auto. }
  intros d bs x' d' _. rewrite (iter_sync F R mk Q E (Z.to_nat (Z.max 0 n)) [] d bs x' d'). cbn [app]. split.
  - intros (fs & L & S & -> & ->). exists fs. split; [unfold zlen; lia|]. split; [auto|]. split; [auto|]. destruct (Z.leb_spec n 0); [replace (Z.to_nat (Z.max 0 n)) with O by lia; reflexivity|].
    destruct (Z.to_nat (Z.max 0 n)) eqn:Q0; [lia|reflexivity].
  - intros (fs & L & S & -> & ->). exists fs. split; [unfold zlen in L; lia|]. split; [auto|]. split; [auto|]. destruct (Z.leb_spec n 0); [replace (Z.to_nat (Z.max 0 n)) with O by lia; reflexivity|].
    destruct (Z.to_nat (Z.max 0 n)) eqn:Q0; [lia|reflexivity].
Qed.
Lemma den_check_after (I : code -> Prop) A (m : M A) G : den I m G -> den I (c <- m ;; check_error ;;; ret c) G.
Proof.
  intros D. eapply den_iff; [apply den_bind with (J := fun _ _ => True); [exact D|auto|]; intros x; eapply den_seq; [apply den_check|intros c bs a c' (_ & _ & ->); reflexivity|intros u; apply den_ret]|].
  intros c bs a c' _. split.
  - intros (b1 & b2 & x & c1 & -> & H & (b3 & b4 & u & c2 & -> & (-> & -> & ->) & (-> & -> & ->))). cbn. now rewrite app_nil_r.
  - intros H. eapply gb_last; [exact H|]. eapply gb_nil; [apply gret_i|]. apply gret_i.
Qed.
Lemma zinsert_here {A} (pre tl : list A) i x g : zlen pre = i -> (zinsert (pre ++ tl) i x = Some g <-> g = (pre ++ [x]) ++ tl).
Proof. intros <-. rewrite zinsert_app. rewrite <- app_assoc. cbn. split; congruence. Qed.

(** * Functions *)
Lemma den_read_functions ts nt ns c : nt <= zlen ts -> nt <= I32_MAX -> c_ndebugfiles c <= I32_MAX -> base ts nt ns c -> c_functions c = [] -> forall I : code -> Prop, (forall fs, I (set_functions fs c)) ->
  let dbg := negb (c_hasdebug c =? 0) in let nf := c_ndebugfiles c in
  den I (read_functions c) (fun d bs x' d' => exists fs, zlen fs = Z.max 0 (c_nfunctions c) /\ many (spell_fun (c_version c) dbg) bs fs /\ Forall (legal_fun nt nf dbg) fs /\
    x' = set_functions (map (mean_fun nf dbg ts) fs) c /\ d' = if c_nfunctions c <=? 0 then d else x').
Proof.
  intros Hts Hnt Hnf Bc Hfs I Im dbg nf. unfold read_functions. apply den_check_after.
  set (mk := fun fs : list rfun => set_functions (map (mean_fun nf dbg ts) fs) c).
  assert (M0 : c = mk []). { unfold mk. cbn. rewrite <- Hfs. now destruct c. } rewrite M0 at 2.
  eapply den_iff; [apply (den_sync rfun I (fun _ x bs x2 => exists f, (spell_fun (c_version c) dbg bs f /\ legal_fun nt nf dbg f) /\ x2 = set_functions (c_functions x ++ [mean_fun nf dbg ts f]) x) mk (fun _ bs f => spell_fun (c_version c) dbg bs f /\ legal_fun nt nf dbg f))|].
  - intros j x. apply keep_function_entry.
  - intros pre. eapply den_iff; [apply (den_function_entry ts nt ns nf I (zlen pre) (mk pre)); auto; unfold mk; cbn; unfold zlen; now rewrite map_length|].
    intros d bs x2 d' _. change (c_version (mk pre)) with (c_version c). change (c_hasdebug (mk pre)) with (c_hasdebug c). fold dbg. unfold gsync. split.
    + intros (-> & f & H1 & H2 & ->). eauto 6.
    + intros (-> & f & (H1 & H2) & ->). eauto 6.
  - intros pre. apply Im.
  - intros pre bs x2. unfold mk. cbn [c_functions set_functions]. split; intros (f & H & ->); exists f; (split; [auto|]); rewrite map_app; reflexivity.
  - intros d bs x' d' _. split.
    + intros (fs & L & S & -> & ->). apply seqs_many in S. exists fs. split; [auto|].
      assert (MF : many (spell_fun (c_version c) dbg) bs fs /\ Forall (legal_fun nt nf dbg) fs) by (clear - S; induction S as [|b bs f fs (H1 & H2) S (IH1 & IH2)]; split; constructor; auto).
      destruct MF. auto.
    + intros (fs & L & M & F & -> & ->). exists fs. split; [auto|]. split; [|auto]. apply seqs_many. clear - M F. induction M; [constructor|]. inversion F; subst. constructor; auto.
Qed.
Lemma many_forall A (P : list Z -> A -> Prop) (R : A -> Prop) bs xs : many (fun b x => P b x /\ R x) bs xs <-> many P bs xs /\ Forall R xs.
Proof.
  split.
  - induction 1 as [|b bs x xs (H1 & H2) S (IH1 & IH2)]; split; constructor; auto.
  - intros (M & F). induction M; [constructor|]. inversion F; subst. constructor; auto.
Qed.

(** * Globals *)
Lemma keep_globals_body (i : Z) c : keep (put_code c ;;; r <- ok_mapped get_type ;;
    (match r with Some t => dc <- get_code ;; gs <- vec_insert (c_globals dc) i t ;; put_code (set_globals gs dc) | None => ret tt end) ;;; get_code).
Proof. keeps2. Qed.
Lemma den_read_globals ts nt ns c : nt <= zlen ts -> nt <= I32_MAX -> base ts nt ns c -> forall I : code -> Prop, (forall gs, I (set_globals gs c)) ->
  den I (read_globals c) (fun d bs x' d' => exists ks, zlen ks = Z.max 0 (c_nglobals c) /\ many ix bs ks /\ Forall (fun k => 0 <= k < nt) ks /\
    x' = set_globals (map (ty ts) ks ++ zrepeat vt_default (c_nglobals c)) c /\ d' = if c_nglobals c <=? 0 then d else x').
Proof.
  intros Hts Hnt Bc I Im. unfold read_globals. apply den_check_after.
  set (mk := fun ks : list Z => set_globals (map (ty ts) ks ++ zrepeat vt_default (c_nglobals c)) c).
  eapply den_iff; [apply (den_sync Z I (fun j x bs x2 => exists k, (ix bs k /\ 0 <= k < nt) /\ exists g, zinsert (c_globals x) j (ty ts k) = Some g /\ x2 = set_globals g x) mk (fun _ bs k => ix bs k /\ 0 <= k < nt))|].
  - apply keep_globals_body.
  - intros pre. set (j := zlen pre). set (x := mk pre).
    eapply den_iff; [apply den_putc with (G := gbind (gsome (gread (ref1 ts nt))) (fun o d bs x2 d' => match o with Some t => bs = [] /\ d' = x2 /\ exists g, zinsert (c_globals x) j t = Some g /\ x2 = set_globals g x | None => bs = [] /\ x2 = d /\ d' = d end)) |].
    + apply den_bind with (J := fun _ d => d = x).
      * apply den_ok_mapped. eapply den_weaken; [apply (den_get_type ts nt ns Hts Hnt)|]. intros d ->. exact Bc.
      * intros d bs o d' -> (t & -> & (_ & ->)). reflexivity.
      * intros [t|].
        -- eapply den_iff; [apply den_bind with (J := fun _ _ => True) (G := fun _ bs (_ : unit) d' => bs = [] /\ exists g, zinsert (c_globals x) j t = Some g /\ d' = set_globals g x); [|auto|intros u; apply den_get]|].
           ++ apply den_getc; [intros; keeps2|]. eapply den_iff; [eapply den_seq; [apply den_expect|intros d bs a d' (_ & _ & ->); reflexivity|intros g; apply den_put_code]|].
              intros d bs u d' _. split.
              ** intros (b1 & b2 & g & c1 & -> & (-> & Z & ->) & (-> & ->)). eauto.
              ** intros (-> & g & Z & ->). eapply gb_nil; [split; [reflexivity|split; [exact Z|reflexivity]]|]. auto.
           ++ intros d bs x2 d' _. split.
              ** intros (b1 & b2 & u & c1 & -> & (-> & g & Z & ->) & (-> & -> & ->)). eauto 6.
              ** intros (-> & -> & g & Z & ->). apply gb_nil with (a := tt) (c1 := set_globals g x); eauto.
        -- eapply den_iff; [eapply den_seq; [apply den_ret|intros d bs a d' (_ & _ & ->); reflexivity|intros u; apply den_get]|].
           intros d bs x2 d' _. rewrite gbind_ret. reflexivity.
    + intros d bs x2 d' _. unfold gsync. split.
      * intros (b1 & b2 & o & c1 & -> & (t & -> & ((k & V & Rk & ->) & ->)) & (-> & -> & g & Z & ->)). rewrite app_nil_r. eauto 8.
      * intros (-> & k & (V & Rk) & g & Z & ->). eapply gb_last; [exists (ty ts k); split; [reflexivity|split; [exists k; auto|reflexivity]]|]. cbv beta iota. eauto 6.
  - intros pre. apply Im.
  - intros pre bs x2. unfold mk. cbn [c_globals set_globals]. split.
    + intros (k & H & g & Z & ->). exists k. split; [auto|]. apply zinsert_here in Z; [|unfold zlen; now rewrite map_length]. subst g. rewrite map_app. reflexivity.
    + intros (k & H & ->). exists k. split; [auto|]. eexists. split; [apply zinsert_here; [unfold zlen; now rewrite map_length|reflexivity]|]. rewrite map_app. reflexivity.
  - intros d bs x' d' _. split.
    + intros (fs & L & S & -> & ->). apply seqs_many, many_forall in S as (M & F). eauto 10.
    + intros (fs & L & M & F & -> & ->). exists fs. split; [auto|]. split; [|auto]. apply seqs_many, many_forall. auto.
Qed.

(** * Natives *)
Definition natR (ss : list str) (nt ns : Z) (n : Z * Z * Z * Z) : Prop := let '(lib, name, t, fi) := n in 0 <= lib < ns /\ lib < zlen ss /\ 0 <= name < ns /\ name < zlen ss /\ 0 <= t < nt.
Definition mean_nat (ss : list str) (ts : list vtype) (n : Z * Z * Z * Z) : native := let '(lib, name, t, fi) := n in {| n_lib := nm ss lib; n_name := nm ss name; n_t := ty ts t; n_findex := fi |}.
Definition based (ss : list str) ts nt ns (c : code) : Prop := base ts nt ns c /\ c_strings c = ss.
Lemma den_read_string ss ts nt ns : ns <= I32_MAX -> den (based ss ts nt ns) read_string (gread (fun bs x => exists n, ix bs n /\ 0 <= n < ns /\ n < zlen ss /\ x = nm ss n)).
Proof.
  intros Hns. unfold read_string. eapply den_iff.
  { apply den_seq with (K := fun i => gcode (fun c0 => gbind (gto (c_nstrings c0)) (fun n' c bs x c' => 0 <= i < n' /\ bs = [] /\ znth (c_strings c0) i = Some x /\ c' = c))); [dens2|apply still_gread|]. intros i. apply den_get_code. intros c0.
    apply den_seq; [apply den_to_i32|intros c bs a c' (_ & _ & -> & _); reflexivity|]. intros n'.
    destruct (Z.ltb_spec i 0), (Z.leb_spec n' i); cbn [orb];
      try (apply den_none_iff; [apply den_get_pos; intros p; apply den_bind_none; [apply den_record|intros; apply keep_ret|intros s a s' R; inversion R; subst; discriminate]|intros c bs a c' (R & _); lia]).
    eapply den_iff; [apply den_expect|]. intros c bs a c' _. intuition. }
  intros c bs x c' ((E1 & E2 & E3) & E4). split.
  - intros (b1 & b2 & i & c1 & -> & (V & ->) & (b3 & b4 & n' & c2 & -> & (-> & -> & -> & _) & (R & -> & Z & ->))). rewrite E3, E4 in *. rewrite app_nil_r. split; [|reflexivity]. exists i.
    pose proof (znth_some_range _ _ _ Z). split; [auto|]. split; [auto|]. split; [lia|]. rewrite (znth_nth _ _ ([] : str)) in Z by lia. unfold nm. congruence.
  - intros ((k & V & R & L & ->) & ->). eapply gb_last; [split; [exact V|reflexivity]|]. eapply gb_nil; [split; [reflexivity|split; [reflexivity|split; [reflexivity|lia]]]|].
    rewrite E3, E4. split; [lia|]. split; [auto|]. split; [|auto]. rewrite (znth_nth _ _ ([] : str)) by lia. reflexivity.
Qed.
Lemma keep_natives_body (i : Z) c : keep (lib <- unwrap_mapped read_string ;; name <- unwrap_mapped read_string ;; t <- unwrap_mapped get_type ;; findex <- unwrap_mapped UINDEX ;;
    let c := set_natives (c_natives c ++ [{| n_lib := lib; n_name := name; n_t := t; n_findex := findex |}]) c in put_code c ;;; ret c).
Proof. keeps2; apply keep_read_string. Qed.
(** reading a native with the module in the decoder *)
Lemma den_native ss ts nt ns x : nt <= zlen ts -> nt <= I32_MAX -> ns <= I32_MAX ->
  den (based ss ts nt ns) (lib <- unwrap_mapped read_string ;; name <- unwrap_mapped read_string ;; t <- unwrap_mapped get_type ;; findex <- unwrap_mapped UINDEX ;;
    let c := set_natives (c_natives x ++ [{| n_lib := lib; n_name := name; n_t := t; n_findex := findex |}]) x in put_code c ;;; ret c)
   (fun _ bs x2 d' => d' = x2 /\ exists n, (spell_native bs n /\ natR ss nt ns n) /\ x2 = set_natives (c_natives x ++ [mean_nat ss ts n]) x).
Proof.
  intros Hts Hnt Hns. eapply den_iff.
  { eapply den_seq; [apply den_unwrap_mapped, den_read_string; auto|apply still_gread|]. intros lib. eapply den_seq; [apply den_unwrap_mapped, den_read_string; auto|apply still_gread|]. intros name.
    eapply den_seq; [apply den_unwrap_mapped; eapply den_weaken; [apply (den_get_type ts nt ns Hts Hnt)|intros d (H & _); exact H]|apply still_gread|]. intros t.
    eapply den_seq; [dens2|apply still_gread|]. intros fi. cbv zeta. apply (den_bind _ _ _ (fun _ _ => True)); [apply den_put_code|auto|]. intros u. apply den_ret. }
  intros d bs x2 d' _. split.
  - intros (b1 & b2 & lib & c1 & -> & ((k1 & V1 & R1 & L1 & ->) & ->) & (b3 & b4 & name & c2 & -> & ((k2 & V2 & R2 & L2 & ->) & ->) & (b5 & b6 & t & c3 & -> & ((k3 & V3 & R3 & ->) & ->) & (b7 & b8 & fi & c4 & -> & (V4 & ->) & (b9 & b10 & u & c5 & -> & (-> & ->) & (-> & -> & ->)))))).
    split; [auto|]. exists (k1, k2, k3, fi). split; [|reflexivity]. split.
    + exists (b1 ++ b3 ++ b5), b7. rewrite !app_nil_r. split; [rewrite <- !app_assoc; reflexivity|]. split; [|exact V4]. exists (b1 ++ b3), b5. split; [rewrite <- !app_assoc; reflexivity|]. split; [|exact V3]. exists b1, b3. auto.
    + cbn. lia.
  - intros (-> & [[[k1 k2] k3] fi] & ((y1 & b4 & -> & (y2 & b3 & -> & (b1 & b2 & -> & V1 & V2) & V3) & V4) & (R1 & L1 & R2 & L2 & R3)) & ->). cbn [fst snd] in *. rewrite <- !app_assoc.
    eapply gb_cons; [split; [exists k1; auto|reflexivity]|]. eapply gb_cons; [split; [exists k2; auto|reflexivity]|]. eapply gb_cons; [split; [exists k3; auto|reflexivity]|]. eapply gb_last; [split; [exact V4|reflexivity]|].
    eapply gb_nil with (a := tt); [split; reflexivity|]. apply gret_i.
Qed.
(** the module in the decoder agrees with the local one, or neither has types *)
Definition synced (ss : list str) ts nt ns (d : code) : Prop := based ss ts nt ns d \/ (nt <= 0 /\ c_ntypes d = 0 /\ c_nstrings d <= I32_MAX).
Lemma den_read_natives ss ts nt ns c : nt <= zlen ts -> nt <= I32_MAX -> ns <= I32_MAX -> based ss ts nt ns c ->
  den (synced ss ts nt ns) (read_natives c) (fun d bs x' d' => exists l, zlen l = Z.max 0 (c_nnatives c) /\ many spell_native bs l /\ Forall (natR ss nt ns) l /\
    x' = set_natives (map (mean_nat ss ts) l) c /\ d' = if c_nnatives c <=? 0 then d else x').
Proof.
  intros Hts Hnt Hns Bc. unfold read_natives. apply den_check_after.
  set (mk := fun l => set_natives (map (mean_nat ss ts) l) c). change (set_natives [] c) with (mk []).
  eapply den_iff; [apply (den_sync _ (synced ss ts nt ns) (fun j x bs x2 => exists n, (spell_native bs n /\ natR ss nt ns n) /\ x2 = set_natives (c_natives x ++ [mean_nat ss ts n]) x) mk (fun _ bs n => spell_native bs n /\ natR ss nt ns n))|].
  - apply keep_natives_body.
  - intros pre. apply den_at; [apply keep_natives_body; exact 0|]. intros d0 [Bd|(N0 & N1 & Hs)].
    + eapply den_weaken; [apply (den_native ss ts nt ns (mk pre) Hts Hnt Hns)|]. intros d ->. exact Bd.
    + apply den_none_iff; [|intros d bs x2 d' (_ & [[[k1 k2] k3] fi] & (_ & R) & _); cbn in R; lia].
      eapply den_iff; [eapply den_weaken; [apply (den_native (c_strings d0) (c_types d0) 0 (c_nstrings d0) (mk pre)); [apply zlen_nonneg|unfold I32_MAX; lia|exact Hs]|]|].
      * intros d ->. split; [split; [reflexivity|split; [exact N1|reflexivity]]|reflexivity].
      * intros d bs x2 d' _. unfold gnone. split; [intros (_ & [[[k1 k2] k3] fi] & (_ & R) & _); cbn in R; lia|intros []].
  - intros pre. left. exact Bc.
  - intros pre bs x2. unfold mk. cbn [c_natives set_natives]. split; intros (n & H & ->); exists n; (split; [auto|]); rewrite map_app; reflexivity.
  - intros d bs x' d' _. split.
    + intros (fs & L & S & -> & ->). apply seqs_many, many_forall in S as (M & F). eauto 10.
    + intros (fs & L & M & F & -> & ->). exists fs. split; [auto|]. split; [|auto]. apply seqs_many, many_forall. auto.
Qed.
