(** The denotation of [Code::read]. *)
From Verif Require Import Prelude StdModel BrassTypes DecoderModel CodeModel FormatSpec ReaderSpec ErrSpec GrammarSpec.
From Verif Require Import CodeGenericProofs FormatProofs Utf8Proofs StringsProofs ReaderPost ReaderTables ErrProofs GrammarDen GrammarTypes GrammarFuns GrammarStrings GrammarPhases GrammarPhases2 GrammarNames.
From Coq Require Import Lia ZifyBool.
Ltac Zify.zify_post_hook ::= Z.div_mod_to_equations.

(** * Constants *)
Definition mean_const (k : Z * list Z) : constant := {| k_global := fst k; k_nfields := zlen (snd k); k_fields := snd k |}.
Lemma den_read_constants c : c_constants c = [] -> den (fun _ => True) (read_constants c) (fun d bs x' d' => exists l, zlen l = Z.max 0 (c_nconstants c) /\ many spell_constant bs l /\
    x' = set_constants (map mean_const l) c /\ d' = if c_nconstants c <=? 0 then d else x').
Proof.
  intros Hc. unfold read_constants.
  set (mk := fun l => set_constants (map mean_const l) c).
  assert (M0 : c = mk []). { unfold mk. cbn. rewrite <- Hc. now destruct c. } rewrite M0 at 2.
  eapply den_iff; [apply (den_sync _ (fun _ => True) (fun j x bs x2 => exists k, spell_constant bs k /\ exists g, zinsert (c_constants x) j (mean_const k) = Some g /\ x2 = set_constants g x) mk (fun _ bs k => spell_constant bs k))|]; auto.
  - intros j x. keeps2.
  - intros pre. set (j := zlen pre). set (x := mk pre). eapply den_iff.
    { eapply den_seq; [dens2|apply still_gread|]. intros gl. eapply den_seq; [dens2|apply still_gread|]. intros nfl.
      eapply den_seq; [apply den_fillr; dens2|apply still_gread|]. intros fl. eapply den_seq; [apply den_check|intros d bs a d' (_ & _ & ->); reflexivity|]. intros u.
      eapply den_seq; [apply den_expect|intros d bs a d' (_ & _ & ->); reflexivity|]. intros g. cbv zeta. apply (den_bind _ _ _ (fun _ _ => True)); [apply den_put_code|auto|]. intros u2. apply den_ret. }
    intros d bs x2 d' _. unfold gsync. split.
    + intros (b1 & b2 & gl & c1 & -> & (V1 & ->) & (b3 & b4 & nfl & c2 & -> & ((V2 & P2) & ->) & (b5 & b6 & fl & c3 & -> & ((xs & -> & L & M) & ->) & (b7 & b8 & u & c4 & -> & (-> & -> & ->) & (b9 & b10 & g & c5 & -> & (-> & Zi & ->) & (b11 & b12 & u2 & c6 & -> & (-> & ->) & (-> & -> & ->))))))).
      split; [auto|]. rewrite Z.max_r in L by lia. rewrite app_nil_r in Zi. subst nfl. exists (gl, xs). rewrite !app_nil_r. split; [exists b1, (b3 ++ b5); split; [auto|]; split; [exact V1|]; exists b3, b5; split; [reflexivity|]; split; [split; [exact V2|exact P2]|exact M]|]. eauto.
    + intros (-> & [gl xs] & (b1 & b2 & -> & V1 & (b3 & b4 & -> & V2 & M)) & g & Zi & ->). cbn [fst snd] in *. pose proof (zlen_nonneg xs).
      eapply gb_cons; [split; [exact V1|reflexivity]|]. eapply gb_cons; [split; [exact V2|reflexivity]|]. eapply gb_last; [split; [exists xs; rewrite app_nil_r, Z.max_r by lia; split; [reflexivity|split; [reflexivity|exact M]]|reflexivity]|].
      eapply gb_nil; [apply gret_i|]. eapply gb_nil; [split; [reflexivity|split; [exact Zi|reflexivity]]|]. eapply gb_nil with (a := tt); [split; reflexivity|]. apply gret_i.
  - intros pre bs x2. unfold mk. cbn [c_constants set_constants]. split.
    + intros (k & H & g & Zi & ->). exists k. split; [auto|]. rewrite <- (app_nil_r (map mean_const pre)) in Zi. apply zinsert_here in Zi; [|unfold zlen; now rewrite map_length]. subst g. rewrite map_app, app_nil_r. reflexivity.
    + intros (k & H & ->). exists k. split; [auto|]. eexists. rewrite <- (app_nil_r (map mean_const pre)). split; [apply zinsert_here; [unfold zlen; now rewrite map_length|reflexivity]|]. rewrite map_app, app_nil_r. reflexivity.
  - intros d bs x' d' _. split.
    + intros (fs & L & S & -> & ->). apply seqs_many in S. eauto 10.
    + intros (fs & L & M & -> & ->). exists fs. split; [auto|]. split; [|auto]. apply seqs_many. auto.
Qed.

(** * Header *)
Lemma den_read_magic I c : den I (read_magic c) (gread (fun bs x => exists v, bs = [72; 76; 66; v] /\ 2 <= v <= 5 /\ x = set_version v c)).
Proof.
  unfold read_magic. eapply den_iff.
  { apply den_seq with (K := fun h => gbind (if negb (h =? 72) then gret true else gbind (gread byte) (fun l => if negb (l =? 76) then gret true else gbind (gread byte) (fun b => gret (negb (b =? 66)))))
      (fun bad : bool => if bad then gnone else gbind (gread byte) (fun v => if (v <=? 1) || (5 <? v) then gnone else gret (set_version v c)))); [dens2|apply still_gread|]. intros h.
    apply den_seq.
    - destruct (negb (h =? 72)); [apply den_ret|]. apply den_seq; [dens2|apply still_gread|]. intros l. destruct (negb (l =? 76)); dens2.
    - intros d bs a d'. destruct (negb (h =? 72)); [intros (_ & _ & ->); reflexivity|]. intros (b1 & b2 & l & c1 & -> & (_ & ->) & H). destruct (negb (l =? 76)); [destruct H as (_ & _ & ->); reflexivity|].
      destruct H as (b3 & b4 & b & c2 & -> & (_ & ->) & (_ & _ & ->)). reflexivity.
    - intros [|]; [apply den_get_pos; intros p; apply den_throw|]. apply den_seq; [dens2|apply still_gread|]. intros v. destruct ((v <=? 1) || (5 <? v)); [apply den_get_pos; intros p; apply den_throw|apply den_ret]. }
  intros d bs x d' _. split.
  - intros (b1 & b2 & h & c1 & -> & ((-> & _) & ->) & (b3 & b4 & bad & c2 & -> & H & H2)). destruct bad; [destruct H2|].
    destruct (Z.eqb_spec h 72); cbn [negb] in H; [|destruct H as (_ & E & _); discriminate]. destruct H as (b5 & b6 & l & c3 & -> & ((-> & _) & ->) & H).
    destruct (Z.eqb_spec l 76); cbn [negb] in H; [|destruct H as (_ & E & _); discriminate]. destruct H as (b7 & b8 & b & c4 & -> & ((-> & _) & ->) & (-> & E & ->)).
    destruct (Z.eqb_spec b 66); cbn [negb] in E; [|discriminate]. destruct H2 as (b9 & b10 & v & c5 & -> & ((-> & Rv) & ->) & H2). destruct (Z.leb_spec v 1); cbn [orb] in H2; [destruct H2|]. destruct (Z.ltb_spec 5 v); [destruct H2|].
    destruct H2 as (-> & -> & ->). subst. split; [|reflexivity]. exists v. split; [reflexivity|]. split; [lia|reflexivity].
  - intros ((v & -> & Rv & ->) & ->). change [72; 76; 66; v] with ([72] ++ [76; 66] ++ [v]). eapply gb_cons; [split; [split; [reflexivity|lia]|reflexivity]|]. cbn [Z.eqb Pos.eqb negb].
    eapply gb_cons with (a := false); [change [76; 66] with ([76] ++ [66]); eapply gb_cons; [split; [split; [reflexivity|lia]|reflexivity]|]; cbn [Z.eqb Pos.eqb negb]; eapply gb_last; [split; [split; [reflexivity|lia]|reflexivity]|]; apply gret_i|].
    cbn [negb]. eapply gb_last; [split; [split; [reflexivity|lia]|reflexivity]|]. destruct (Z.leb_spec v 1); [lia|]. destruct (Z.ltb_spec 5 v); [lia|]. apply gret_i.
Qed.
Lemma den_read_count I set c : den I (read_count set c) (gread (fun bs x => exists n, uix bs n /\ x = set n c)).
Proof.
  unfold read_count. eapply den_iff.
  { apply den_seq with (K := fun r => match r with Some x => gret (set x c) | None => gret c end); [apply den_ok; [apply UINDEX_noerr|apply den_UINDEX]|intros d bs a d' (x & _ & _ & ->); reflexivity|]. intros [x|]; apply den_ret. }
  intros d bs x d' _. split.
  - intros (b1 & b2 & o & c1 & -> & (n & -> & (V & ->)) & (-> & -> & ->)). rewrite app_nil_r. split; [|auto]. eauto.
  - intros ((n & V & ->) & ->). eapply gb_last; [exists n; split; [reflexivity|split; [exact V|reflexivity]]|]. apply gret_i.
Qed.
Definition countsP (c : code) (bs : list Z) (x : code) : Prop :=
  exists flags ni nf ns nb nt ng nn nfn nk ep b0 b1 b2 b3 b4 b5 b6 b7 b8 b9 b10,
    bs = b0 ++ b1 ++ b2 ++ b3 ++ b4 ++ b5 ++ b6 ++ b7 ++ b8 ++ b9 ++ b10 /\
    uix b0 flags /\ uix b1 ni /\ uix b2 nf /\ uix b3 ns /\ (if 5 <=? c_version c then uix b4 nb else b4 = [] /\ nb = c_nbytes c) /\
    uix b5 nt /\ uix b6 ng /\ uix b7 nn /\ uix b8 nfn /\ (if 4 <=? c_version c then uix b9 nk else b9 = [] /\ nk = 0) /\ uix b10 ep /\
    x = set_hasdebug (Z.land flags 1) (set_entrypoint ep (set_nconstants nk (set_nfunctions nfn (set_nnatives nn (set_nglobals ng (set_ntypes nt (set_nbytes nb (set_nstrings ns (set_nfloats nf (set_nints ni c)))))))))).
Lemma set_nbytes_id c : set_nbytes (c_nbytes c) c = c. Proof. now destruct c. Qed.
Lemma den_opt_count I (b : bool) set c : den I (if b then read_count set c else ret c) (gread (fun bs x => if b then exists n, uix bs n /\ x = set n c else bs = [] /\ x = c)).
Proof.
  destruct b; [apply den_read_count|]. eapply den_iff; [apply den_ret|]. intros d bs x d' _. unfold gret, gread. intuition.
Qed.
Lemma den_read_counts I c : den I (read_counts c) (gread (countsP c)).
Proof.
  unfold read_counts. eapply den_iff.
  { eapply den_seq; [apply den_ok; [apply UINDEX_noerr|apply den_UINDEX]|intros d bs a d' (x & _ & _ & ->); reflexivity|]. intros r. cbv zeta.
    do 3 (eapply den_seq; [apply den_read_count|apply still_gread|]; intros ?c). eapply den_seq; [apply den_opt_count|apply still_gread|]; intros ?c.
    do 4 (eapply den_seq; [apply den_read_count|apply still_gread|]; intros ?c). eapply den_seq; [apply den_opt_count|apply still_gread|]; intros ?c.
    eapply den_seq; [apply den_read_count|apply still_gread|]; intros ?c. eapply den_seq; [apply den_check|intros d bs a d' (_ & _ & ->); reflexivity|]. intros u. apply den_ret. }
  intros d bs x d' _. unfold countsP. split.
  - intros (b0 & q0 & o & d0 & -> & (flags & -> & (V0 & ->)) & (b1 & q1 & c1 & d1 & -> & ((ni & V1 & ->) & ->) & (b2 & q2 & c2 & d2 & -> & ((nf & V2 & ->) & ->) & (b3 & q3 & c3 & d3 & -> & ((ns & V3 & ->) & ->) &
      (b4 & q4 & c4 & d4 & -> & (V4 & ->) & (b5 & q5 & c5 & d5 & -> & ((nt & V5 & ->) & ->) & (b6 & q6 & c6 & d6 & -> & ((ng & V6 & ->) & ->) & (b7 & q7 & c7 & d7 & -> & ((nn & V7 & ->) & ->) & (b8 & q8 & c8 & d8 & -> & ((nfn & V8 & ->) & ->) &
      (b9 & q9 & c9 & d9 & -> & (V9 & ->) & (b10 & q10 & c10 & d10 & -> & ((ep & V10 & ->) & ->) & (b11 & q11 & u & d11 & -> & (-> & -> & ->) & (-> & -> & ->))))))))))))).
    split; [|reflexivity]. cbn [c_version set_nstrings set_nfloats set_nints] in V4.
    assert (N4 : exists nb, (if 5 <=? c_version c then uix b4 nb else b4 = [] /\ nb = c_nbytes c) /\ c4 = set_nbytes nb (set_nstrings ns (set_nfloats nf (set_nints ni c)))).
    { destruct (5 <=? c_version c); [exact V4|]. destruct V4 as (-> & ->). exists (c_nbytes c). split; [auto|reflexivity]. }
    destruct N4 as (nb & N4 & ->). cbn [c_version set_nbytes set_nstrings set_nfloats set_nints set_ntypes set_nglobals set_nnatives set_nfunctions set_nconstants] in V9.
    assert (N9 : exists nk, (if 4 <=? c_version c then uix b9 nk else b9 = [] /\ nk = 0) /\ c9 = set_nconstants nk (set_nfunctions nfn (set_nnatives nn (set_nglobals ng (set_ntypes nt (set_nbytes nb (set_nstrings ns (set_nfloats nf (set_nints ni c))))))))).
    { destruct (4 <=? c_version c); [destruct V9 as (nk & V & ->); exists nk; auto|]. destruct V9 as (-> & ->). exists 0. auto. }
    destruct N9 as (nk & N9 & ->). exists flags, ni, nf, ns, nb, nt, ng, nn, nfn, nk, ep, b0, b1, b2, b3, b4, b5, b6, b7, b8, b9, b10. cbn [app]. rewrite !app_nil_r. repeat (split; [assumption || reflexivity|]). reflexivity.
  - intros ((flags & ni & nf & ns & nb & nt & ng & nn & nfn & nk & ep & b0 & b1 & b2 & b3 & b4 & b5 & b6 & b7 & b8 & b9 & b10 & -> & V0 & V1 & V2 & V3 & V4 & V5 & V6 & V7 & V8 & V9 & V10 & ->) & ->).
    eapply gb_cons; [exists flags; split; [reflexivity|split; [exact V0|reflexivity]]|].
    eapply gb_cons; [split; [exists ni; split; [exact V1|reflexivity]|reflexivity]|]. eapply gb_cons; [split; [exists nf; split; [exact V2|reflexivity]|reflexivity]|]. eapply gb_cons; [split; [exists ns; split; [exact V3|reflexivity]|reflexivity]|].
    eapply gb_cons with (a := set_nbytes nb (set_nstrings ns (set_nfloats nf (set_nints ni c)))) (c1 := d).
    { split; [|reflexivity]. cbn [c_version set_nstrings set_nfloats set_nints]. destruct (5 <=? c_version c); [eauto|]. destruct V4 as (-> & ->). auto. }
    eapply gb_cons; [split; [exists nt; split; [exact V5|reflexivity]|reflexivity]|]. eapply gb_cons; [split; [exists ng; split; [exact V6|reflexivity]|reflexivity]|]. eapply gb_cons; [split; [exists nn; split; [exact V7|reflexivity]|reflexivity]|]. eapply gb_cons; [split; [exists nfn; split; [exact V8|reflexivity]|reflexivity]|].
    eapply gb_cons with (a := set_nconstants nk (set_nfunctions nfn (set_nnatives nn (set_nglobals ng (set_ntypes nt (set_nbytes nb (set_nstrings ns (set_nfloats nf (set_nints ni c))))))))) (c1 := d).
    { split; [|reflexivity]. cbn [c_version set_nbytes set_nstrings set_nfloats set_nints set_ntypes set_nglobals set_nnatives set_nfunctions set_nconstants]. destruct (4 <=? c_version c); [eauto|]. destruct V9 as (-> & ->). auto. }
    eapply gb_last; [split; [exists ep; split; [exact V10|reflexivity]|reflexivity]|]. eapply gb_nil; [apply gret_i|]. apply gret_i.
Qed.

(** * Tables of numbers *)
Lemma den_read_table I (m : M Z) (P : list Z -> Z -> Prop) n l0 : den I m (gread P) -> den I (for_range n (fun i l => r <- ok_mapped m ;; match r with Some x => vec_insert l i x | None => ret l end) l0) (gread (fun bs l => exists xs, l = xs ++ l0 /\ zlen xs = Z.max 0 n /\ many P bs xs)).
Proof.
  intros D. rewrite for_range_max. unfold for_range.
  set (Gi := fun (j : Z) (l : list Z) => gbind (gread P) (fun x c bs l' c' => bs = [] /\ zinsert l j x = Some l' /\ c' = c)).
  eapply den_iff; [apply (den_for_loop (list Z) (fun _ _ => I) _ Gi)|].
  - intros j l. eapply den_iff.
    { apply den_seq with (K := fun r c bs l' c' => match r with Some x => bs = [] /\ zinsert l j x = Some l' /\ c' = c | None => gret l c bs l' c' end); [apply den_ok_mapped; exact D|intros c bs a c' (x & _ & _ & ->); reflexivity|].
      intros [x|]; [apply den_expect|apply den_ret]. }
    intros c bs l' c' _. unfold Gi. split.
    + intros (b1 & b2 & o & c1 & -> & (x & -> & H) & H2). exists b1, b2, x, c1. auto.
    + intros (b1 & b2 & x & c1 & -> & H & H2). exists b1, b2, (Some x), c1. split; [auto|]. split; [exists x; auto|auto].
  - intros j x c bs x' c' Ic (b1 & b2 & y & c1 & -> & (_ & ->) & (_ & _ & ->)). exact Ic.
  - intros c bs l c' _. rewrite (iter_thread (gread P) Gi (Z.to_nat (Z.max 0 n)) ltac:(reflexivity) 0 [] l0 c bs l c' eq_refl). cbn [app]. unfold gread at 2. split.
    + intros (xs & -> & L & T). apply thread_many in T as (M & ->). split; [|auto]. exists xs. split; [auto|]. split; [unfold zlen in *; lia|auto].
    + intros ((xs & -> & L & M) & ->). exists xs. split; [auto|]. split; [unfold zlen in *; lia|]. apply thread_many. auto.
Qed.
Lemma many_enc k (R : Z -> Prop) bs xs : many (fun b v => b = enc_le k v /\ R v) bs xs <-> bs = flat_map (enc_le k) xs /\ Forall R xs.
Proof.
  rewrite many_forall. split; intros (H & F); (split; [|auto]).
  - clear F. induction H as [|b bs x xs -> _ IH]; cbn; [reflexivity|]. now rewrite IH.
  - subst bs. clear F. induction xs as [|x xs IH]; cbn; constructor; auto.
Qed.
Lemma den_read_ints I c : den I (read_ints c) (gread (fun bs x => exists l, zlen l = Z.max 0 (c_nints c) /\ bs = flat_map (enc_le 4) l /\ Forall i32_range l /\ x = set_ints l c)).
Proof.
  unfold read_ints, read_table. eapply den_iff; [eapply den_seq; [apply den_read_table, den_i32|apply still_gread|]; intros l; eapply den_seq; [apply den_check|intros d bs a d' (_ & _ & ->); reflexivity|]; intros u; apply den_ret|].
  intros d bs x d' _. split.
  - intros (b1 & b2 & l & c1 & -> & ((xs & -> & L & M) & ->) & (b3 & b4 & u & c2 & -> & (-> & -> & ->) & (-> & -> & ->))). cbn [app]. rewrite !app_nil_r. apply many_enc in M as (-> & F). split; [|auto]. eauto 6.
  - intros ((l & L & -> & F & ->) & ->). eapply gb_last; [split; [exists l; split; [symmetry; apply app_nil_r|split; [exact L|apply many_enc; auto]]|reflexivity]|]. eapply gb_nil; [apply gret_i|]. apply gret_i.
Qed.
Lemma den_read_floats I c : den I (read_floats c) (gread (fun bs x => exists l, zlen l = Z.max 0 (c_nfloats c) /\ bs = flat_map (enc_le 8) l /\ Forall (fun v => 0 <= v < 2 ^ 64) l /\ x = set_floats l c)).
Proof.
  unfold read_floats, read_table. eapply den_iff; [eapply den_seq; [apply den_read_table, den_f64|apply still_gread|]; intros l; eapply den_seq; [apply den_check|intros d bs a d' (_ & _ & ->); reflexivity|]; intros u; apply den_ret|].
  intros d bs x d' _. split.
  - intros (b1 & b2 & l & c1 & -> & ((xs & -> & L & M) & ->) & (b3 & b4 & u & c2 & -> & (-> & -> & ->) & (-> & -> & ->))). cbn [app]. rewrite !app_nil_r. apply many_enc in M as (-> & F). split; [|auto]. eauto 6.
  - intros ((l & L & -> & F & ->) & ->). eapply gb_last; [split; [exists l; split; [symmetry; apply app_nil_r|split; [exact L|apply many_enc; auto]]|reflexivity]|]. eapply gb_nil; [apply gret_i|]. apply gret_i.
Qed.
Definition tabP (n : Z) (bs : list Z) (t : rstrings) (ss : list str) : Prop := rs_count t = n /\ spell_strings bs t /\ cuts (from_utf8_lossy (rs_text t)) (Z.to_nat n) 0 (rs_sizes t) ss.
Lemma den_read_string_table I c : den I (read_string_table c) (gread (fun bs x => exists t ss, tabP (c_nstrings c) bs t ss /\
   x = set_ustrings (zrepeat None (c_nstrings c)) (set_strings_lens (c_strings_lens c ++ map zlen ss) (set_strings ss c)))).
Proof.
  unfold read_string_table. eapply den_iff.
  { eapply den_seq; [apply den_ok_mapped, den_read_strings|intros d bs a d' (x & _ & _ & ->); reflexivity|]. intros r. cbv zeta. eapply den_seq; [apply den_check|intros d bs a d' (_ & _ & ->); reflexivity|]. intros u. apply den_ret. }
  intros d bs x d' _. split.
  - intros (b1 & b2 & o & c1 & -> & (p & -> & ((t & ss & H1 & H2 & H3 & ->) & ->)) & (b3 & b4 & u & c2 & -> & (-> & -> & ->) & (-> & -> & ->))). cbn [app]. rewrite !app_nil_r. split; [|auto]. exists t, ss. split; [split; auto|reflexivity].
  - intros ((t & ss & (H1 & H2 & H3) & ->) & ->). eapply gb_last; [eexists; split; [reflexivity|split; [exists t, ss; auto|reflexivity]]|]. eapply gb_nil; [apply gret_i|]. cbn. apply gret_i.
Qed.
Lemma den_read_bytes_section I c : den I (read_bytes_section c) (gread (fun bs x => if 5 <=? c_version c then exists v ps b, bs = enc_le 4 (zlen v) ++ v ++ b /\ zlen v < 2 ^ 31 /\ many uix b ps /\ zlen ps = Z.max 0 (c_nbytes c) /\
    x = set_bytes_pos (ps ++ c_bytes_pos c) (set_bytes v c) else bs = [] /\ x = c)).
Proof.
  unfold read_bytes_section. destruct (5 <=? c_version c).
  2:{ eapply den_iff; [apply den_ret|]. intros d bs x d' _. unfold gret, gread. intuition. }
  eapply den_iff.
  { apply den_seq with (K := fun size => gbind (fun d bs (_ : unit) d' => bs = [] /\ 0 <= size /\ d' = d) (fun _ => if size <? 0 then gnone else gbind (gread (fun bs v => bs = v /\ zlen v = size)) (fun v => gbind (gread (fun bs l => exists xs, l = xs ++ c_bytes_pos c /\ zlen xs = Z.max 0 (c_nbytes c) /\ many uix bs xs)) (fun ps =>
        gbind (gret tt) (fun _ => gret (set_bytes_pos ps (set_bytes v c))))))); [apply den_i32|apply still_gread|]. intros size.
    destruct (Z.ltb_spec size 0) as [Hs|Hs].
    - eapply den_iff; [apply (den_bind_none I unit code (crash PCapacity)); [apply den_crash|intros; keeps2; apply keep_read_bytes|discriminate]|]. intros d bs x d' _. unfold gnone. split; [intros []|intros (? & ? & ? & ? & _ & (_ & L & _) & _); lia].
    - apply den_seq; [eapply den_iff; [apply den_ret|intros d bs [] d' _; unfold gret; intuition]|intros d bs a d' (_ & _ & ->); reflexivity|]. intros u.
      apply den_seq; [apply den_unwrap_mapped, den_read_bytes; auto|apply still_gread|]. intros v. apply den_seq; [apply den_read_table, den_UINDEX|apply still_gread|]. intros ps.
      apply den_seq; [apply den_check|intros d bs a d' (_ & _ & ->); reflexivity|]. intros u2. apply den_ret. }
  intros d bs x d' _. split.
  - intros (b1 & b2 & size & c1 & -> & ((-> & R) & ->) & (b3 & b4 & u & c2 & -> & (-> & L & ->) & H)). destruct (Z.ltb_spec size 0); [lia|].
    destruct H as (b5 & b6 & v & c3 & -> & ((-> & Lv) & ->) & (b7 & b8 & ps & c4 & -> & ((xs & -> & Lp & M) & ->) & (b9 & b10 & u2 & c5 & -> & (-> & -> & ->) & (-> & -> & ->)))). cbn [app]. rewrite app_nil_r. subst size.
    split; [|auto]. exists v, xs, b7. unfold i32_range in R. repeat split; auto; lia.
  - intros ((v & ps & b & -> & L & M & Lp & ->) & ->). pose proof (zlen_nonneg v). eapply gb_cons; [split; [split; [reflexivity|unfold i32_range; lia]|reflexivity]|]. eapply gb_nil with (a := tt); [split; [reflexivity|split; [auto|reflexivity]]|]. destruct (Z.ltb_spec (zlen v) 0); [lia|].
    eapply gb_cons; [split; [split; [reflexivity|reflexivity]|reflexivity]|]. eapply gb_last; [split; [exists ps; auto|reflexivity]|]. eapply gb_nil; [apply gret_i|]. apply gret_i.
Qed.
Lemma keep_read_strings n l : keep (read_strings n l). Proof. exact (den_keep (den_read_strings (fun _ => True) n l)). Qed.
Lemma den_read_debugfiles c : den (fun _ => True) (read_debugfiles c) (fun d bs x d' => if negb (c_hasdebug c =? 0) then
    d' = x /\ exists n t ss b1 b2, bs = b1 ++ b2 /\ uix b1 n /\ tabP n b2 t ss /\ x = set_debugfiles ss (set_ndebugfiles n c) else bs = [] /\ x = c /\ d' = d).
Proof.
  unfold read_debugfiles. destruct (negb (c_hasdebug c =? 0)).
  2:{ eapply den_iff; [apply den_ret|]. intros d bs x d' _. unfold gret. intuition. }
  eapply den_iff.
  { apply den_seq with (K := fun c1 => gbind (gsome (gread (tableP (c_ndebugfiles c1) (c_debugfiles_lens c1)))) (fun r d bs x d' => bs = [] /\ d' = x /\ match r with Some (ss, _) => x = set_debugfiles ss c1 | None => x = d end)); [apply den_read_count|apply still_gread|]. intros c1.
    eapply den_iff; [apply den_putc|]; [|intros d bs x d' _; instantiate (1 := gbind (gsome (gread (tableP (c_ndebugfiles c1) (c_debugfiles_lens c1)))) (fun r d bs x d' => bs = [] /\ d' = x /\ match r with Some (ss, _) => x = set_debugfiles ss c1 | None => x = c1 end))].
    - apply den_bind with (J := fun _ d => d = c1); [apply den_ok_mapped, den_read_strings|intros d bs a d' -> (x & _ & _ & ->); reflexivity|].
      intros r. apply den_getc; [intros; keeps2; destruct p; keeps2|].
      destruct r as [[ss l]|].
      + eapply den_iff; [apply den_putc with (G := fun d bs x d' => bs = [] /\ x = d /\ d' = d)|].
        * apply den_getc; [intros; keeps2|]. eapply den_iff; [eapply den_seq; [apply den_check|intros d bs a d' (_ & _ & ->); reflexivity|]; intros u; apply den_ret|]. intros d bs x d' ->. rewrite gbind_ret. reflexivity.
        * intros d bs x d' _. cbn. intuition (subst; auto).
      + eapply den_iff; [eapply den_seq; [apply den_ret|intros d bs a d' (_ & _ & ->); reflexivity|]; intros u|].
        * apply den_getc; [intros; keeps2|]. eapply den_seq; [apply den_check|intros d bs a d' (_ & _ & ->); reflexivity|]. intros u2. apply den_ret.
        * intros d bs x d' ->. rewrite gbind_ret. unfold gbind, gret. split; [intros (b1 & b2 & a & c2 & -> & (-> & -> & ->) & (-> & -> & ->)); auto|intros (-> & -> & ->)].
          exists [], [], tt, c1. auto.
    - unfold gbind. split; intros (b1 & b2 & r & c2 & -> & (p & -> & (H & E)) & H2); subst; [exists b1, b2, (Some p), d|exists b1, b2, (Some p), c1]; destruct p; unfold gsome, gread; split; auto; split; eauto. }
  intros d bs x d' _. split.
  - intros (b1 & b2 & c1 & d1 & -> & ((n & V & ->) & ->) & (b3 & b4 & r & d2 & -> & (p & -> & ((t & ss & H1 & H2 & H3 & ->) & ->)) & (-> & -> & ->))). rewrite app_nil_r. split; [auto|].
    exists n, t, ss, b1, b3. split; [auto|]. split; [auto|]. split; [split; auto|reflexivity].
  - intros (-> & n & t & ss & b1 & b2 & -> & V & (H1 & H2 & H3) & ->). eapply gb_cons; [split; [exists n; split; [exact V|reflexivity]|reflexivity]|].
    eapply gb_last; [eexists; split; [reflexivity|split; [exists t, ss; auto|reflexivity]]|]. cbv beta iota. auto.
Qed.
