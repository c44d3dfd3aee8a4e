(** [Code::read] accepts exactly the language of GrammarSpec.v. *)
From Verif Require Import Prelude StdModel BrassTypes DecoderModel CodeModel FormatSpec ReaderSpec ErrSpec GrammarSpec.
From Verif Require Import CodeGenericProofs FormatProofs Utf8Proofs StringsProofs ReaderPost ReaderTables ErrProofs GrammarDen GrammarTypes GrammarFuns GrammarStrings GrammarPhases GrammarPhases2 GrammarNames GrammarModule.
From Coq Require Import Lia ZifyBool.
Ltac Zify.zify_post_hook ::= Z.div_mod_to_equations.

(** * Steps *)
Lemma step_to (I : code -> Prop) A B (m : M A) G (k : A -> M B) s b s' : den I m G -> (forall a, keep (k a)) -> clean s -> I (d_code s) ->
  bind m k s = (Ok b, s') -> errs s' = None ->
  exists a s1 bs, clean s1 /\ d_buf s = bs ++ d_buf s1 /\ G (d_code s) bs a (d_code s1) /\ k a s1 = (Ok b, s').
Proof.
  intros D K C Ic R N. apply bind_ok in R as (a & s1 & R1 & R2).
  assert (N1 : errs s1 = None). { destruct (errs s1) eqn:Q; [|auto]. exfalso. apply (K a _ _ _ R2); [rewrite Q; discriminate|exact N]. }
  destruct (den_to D _ _ _ C Ic R1 N1) as (bs & E & H). exists a, s1, bs. split; [exact (clean_next _ _ _ C E N1)|]. auto.
Qed.
Lemma step_from (I : code -> Prop) A B (m : M A) (G : rel A) (k : A -> M B) s bs rest a c' : den I m G -> clean s -> I (d_code s) -> d_buf s = bs ++ rest -> G (d_code s) bs a c' ->
  bind m k s = k a (fin s rest (zlen bs) c').
Proof. intros D C Ic E H. unfold bind. now rewrite (den_from D _ _ _ _ _ C Ic E H). Qed.
Lemma keep_ret A (a : A) : keep (ret a). Proof. intros s r s' R E. inversion R; subst. auto. Qed.
Lemma keep_bind A B (m : M A) (k : A -> M B) : keep m -> (forall a, keep (k a)) -> keep (bind m k).
Proof. intros Km Kk s r s' R E. unfold bind in R. destruct (m s) as [[a|e|p] s1] eqn:Q; [apply (Kk a _ _ _ R)|..]; [|inversion R; subst..]; eapply Km; eauto. Qed.
Lemma keep_magic c : keep (read_magic c). Proof. exact (den_keep (den_read_magic (fun _ => True) c)). Qed.
Lemma keep_counts c : keep (read_counts c). Proof. exact (den_keep (den_read_counts (fun _ => True) c)). Qed.
Lemma keep_ints c : keep (read_ints c). Proof. exact (den_keep (den_read_ints (fun _ => True) c)). Qed.
Lemma keep_floats c : keep (read_floats c). Proof. exact (den_keep (den_read_floats (fun _ => True) c)). Qed.
Lemma keep_strings c : keep (read_string_table c). Proof. exact (den_keep (den_read_string_table (fun _ => True) c)). Qed.
Lemma keep_bytes_section c : keep (read_bytes_section c). Proof. exact (den_keep (den_read_bytes_section (fun _ => True) c)). Qed.
Lemma keep_debugfiles c : keep (read_debugfiles c). Proof. exact (den_keep (den_read_debugfiles c)). Qed.
Lemma keep_types c : keep (read_types c). Proof. unfold read_types. keeps2. Qed.
Lemma keep_globals c : keep (read_globals c). Proof. unfold read_globals. keeps2. Qed.
Lemma keep_natives c : keep (read_natives c). Proof. unfold read_natives. keeps2; apply keep_read_string. Qed.
Lemma keep_functions c : keep (read_functions c). Proof. unfold read_functions. keeps2. apply keep_function_entry. Qed.
Lemma keep_constants c : keep (read_constants c). Proof. unfold read_constants. keeps2. Qed.
Ltac kp := repeat (intros; lazymatch goal with |- keep (bind _ _) => apply keep_bind | |- keep get_code => apply keep_get_code
  | |- keep (read_magic _) => apply keep_magic | |- keep (read_counts _) => apply keep_counts | |- keep (read_ints _) => apply keep_ints | |- keep (read_floats _) => apply keep_floats
  | |- keep (read_string_table _) => apply keep_strings | |- keep (read_bytes_section _) => apply keep_bytes_section | |- keep (read_debugfiles _) => apply keep_debugfiles
  | |- keep (read_types _) => apply keep_types | |- keep (read_globals _) => apply keep_globals | |- keep (read_natives _) => apply keep_natives | |- keep (read_functions _) => apply keep_functions | |- keep (read_constants _) => apply keep_constants end).

(** * The header phases, from the empty module *)
Lemma uix_range bs n : bytes bs -> uix bs n -> 0 <= n <= I32_MAX.
Proof. intros B (V & P). apply index_value_range in V; [|auto]. unfold I32_MAX, i32_range in *. lia. Qed.
Ltac parts B := unfold bytes in B; rewrite ?Forall_app in B; fold bytes in B; decompose [and] B.
Definition ready (c : code) : Prop :=
  c_ustrings c = zrepeat None (c_nstrings c) /\ 0 <= c_nstrings c <= I32_MAX /\ 0 <= c_ntypes c <= I32_MAX /\ 0 <= c_ndebugfiles c <= I32_MAX /\
  c_functions c = [] /\ c_constants c = [] /\ c_natives c = [] /\ c_globals c = [] /\ c_types c = [].
Definition front (bs : list Z) (c6 : code) : Prop :=
  exists v q0 q1 q2 q3 q4 c2 c3 c4 c5, bs = [72; 76; 66; v] ++ q0 ++ q1 ++ q2 ++ q3 ++ q4 /\ 2 <= v <= 5 /\ countsP (set_version v code_new) q0 c2 /\
    (exists l, zlen l = Z.max 0 (c_nints c2) /\ q1 = flat_map (enc_le 4) l /\ Forall i32_range l /\ c3 = set_ints l c2) /\
    (exists l, zlen l = Z.max 0 (c_nfloats c3) /\ q2 = flat_map (enc_le 8) l /\ Forall (fun v => 0 <= v < 2 ^ 64) l /\ c4 = set_floats l c3) /\
    (exists t ss, tabP (c_nstrings c4) q3 t ss /\ c5 = set_ustrings (zrepeat None (c_nstrings c4)) (set_strings_lens (c_strings_lens c4 ++ map zlen ss) (set_strings ss c4))) /\
    (if 5 <=? c_version c5 then exists v ps b, q4 = enc_le 4 (zlen v) ++ v ++ b /\ zlen v < 2 ^ 31 /\ many uix b ps /\ zlen ps = Z.max 0 (c_nbytes c5) /\
      c6 = set_bytes_pos (ps ++ c_bytes_pos c5) (set_bytes v c5) else q4 = [] /\ c6 = c5).
Definition read_front : M code :=
  c <- read_magic code_new ;; c <- read_counts c ;; c <- read_ints c ;; c <- read_floats c ;; c <- read_string_table c ;; read_bytes_section c.
Lemma den_front I : den I read_front (gread front).
Proof.
  unfold read_front. eapply den_iff.
  { eapply den_seq; [apply den_read_magic|apply still_gread|]; intros c1. eapply den_seq; [apply den_read_counts|apply still_gread|]; intros c2.
    eapply den_seq; [apply den_read_ints|apply still_gread|]; intros c3. eapply den_seq; [apply den_read_floats|apply still_gread|]; intros c4.
    eapply den_seq; [apply den_read_string_table|apply still_gread|]; intros c5. apply den_read_bytes_section. }
  intros d bs x d' _. split.
  - intros (b1 & q & c1 & d1 & -> & ((v & -> & Rv & ->) & ->) & (q0 & r0 & c2 & d2 & -> & (H2 & ->) & (q1 & r1 & c3 & d3 & -> & (H3 & ->) & (q2 & r2 & c4 & d4 & -> & (H4 & ->) & (q3 & q4 & c5 & d5 & -> & (H5 & ->) & (H6 & ->)))))).
    split; [|reflexivity]. exists v, q0, q1, q2, q3, q4, c2, c3, c4, c5. auto 10.
  - intros ((v & q0 & q1 & q2 & q3 & q4 & c2 & c3 & c4 & c5 & -> & Rv & H2 & H3 & H4 & H5 & H6) & ->).
    eapply gb_cons; [split; [exists v; split; [reflexivity|split; [exact Rv|reflexivity]]|reflexivity]|].
    eapply gb_cons; [split; [exact H2|reflexivity]|]. eapply gb_cons; [split; [exact H3|reflexivity]|]. eapply gb_cons; [split; [exact H4|reflexivity]|]. eapply gb_cons; [split; [exact H5|reflexivity]|]. split; [exact H6|reflexivity].
Qed.
Lemma front_ready bs c : bytes bs -> front bs c -> ready c /\ c_ndebugfiles c = 0 /\ c_debugfiles c = [].
Proof.
  intros B (v & q0 & q1 & q2 & q3 & q4 & c2 & c3 & c4 & c5 & -> & Rv & H2 & (li & _ & _ & _ & ->) & (lf & _ & _ & _ & ->) & (t & ss & _ & ->) & H6).
  destruct H2 as (flags & ni & nf & ns & nb & nt & ng & nn & nfn & nk & ep & b0 & b1 & b2 & b3 & b4 & b5 & b6 & b7 & b8 & b9 & b10 & -> & V0 & V1 & V2 & V3 & V4 & V5 & V6 & V7 & V8 & V9 & V10 & ->).
  parts B. pose proof (uix_range b3 _ ltac:(assumption) V3). pose proof (uix_range b5 _ ltac:(assumption) V5). cbn [c_version] in H6.
  match type of H6 with if ?b then _ else _ => destruct b end; [destruct H6 as (w & ps & b & _ & _ & _ & _ & ->)|destruct H6 as (_ & ->)]; unfold ready; cbn - [I32_MAX]; repeat split; auto; try lia; unfold I32_MAX; lia.
Qed.
Definition read_back (c : code) : M code :=
  c <- read_debugfiles c ;; c <- read_types c ;; c <- read_globals c ;; c <- read_natives c ;; c <- read_functions c ;; c <- read_constants c ;; get_code.
Lemma bind_cong A B (m : M A) (k k' : A -> M B) s : (forall a s', k a s' = k' a s') -> bind m k s = bind m k' s.
Proof. intros H. unfold bind. destruct (m s) as [[]]; auto. Qed.
Lemma code_read_front s : code_read s = bind read_front read_back s.
Proof.
  unfold code_read, read_front. cbv zeta. do 5 (rewrite bind_assoc; apply bind_cong; clear s; intros ?c s). reflexivity.
Qed.

(** * The other phases *)
Lemma zlen_nil {A} (l : list A) : zlen l <= 0 -> l = [].
Proof. destruct l; [auto|]. intros H. rewrite zlen_cons in H. pose proof (zlen_nonneg l). lia. Qed.
Lemma forall_none {A} (P : A -> Prop) l : Forall P l -> (forall x, P x -> False) -> l = [].
Proof. intros F H. destruct F; [auto|]. destruct (H _ H0). Qed.
Section back.
Variable c6 : code.
Hypothesis Hr : ready c6.
Hypothesis Hd : c_ndebugfiles c6 = 0 /\ c_debugfiles c6 = [].
Let dbg := negb (c_hasdebug c6 =? 0).
Let ns := c_nstrings c6. Let nt := c_ntypes c6. Let ss := c_strings c6.
Definition debug_part (q : list Z) (n : Z) (td : rstrings) (fs : list str) : Prop :=
  if dbg then exists b1 b2, q = b1 ++ b2 /\ uix b1 n /\ tabP n b2 td fs else q = [] /\ td = no_strings /\ n = 0 /\ fs = [].
Definition m7 n fs := set_debugfiles fs (set_ndebugfiles n c6).
Definition m8 n fs ats := mk_types ss ns nt (m7 n fs) ats.
Definition m9 n fs ats ks := set_globals (map (ty (fst (mean_types ss [] [] ats))) ks ++ zrepeat vt_default (c_nglobals c6)) (m8 n fs ats).
Definition m10 n fs ats ks nl := set_natives (map (mean_nat ss (fst (mean_types ss [] [] ats))) nl) (m9 n fs ats ks).
Definition m11 n fs ats ks nl fns := set_functions (map (mean_fun n dbg (fst (mean_types ss [] [] ats))) fns) (m10 n fs ats ks nl).
Definition m12 n fs ats ks nl fns cl := set_constants (map mean_const cl) (m11 n fs ats ks nl fns).
Definition back (bs : list Z) (x : code) : Prop :=
  exists q1 q2 q3 q4 q5 q6 n td fs ats ks nl fns cl, bs = q1 ++ q2 ++ q3 ++ q4 ++ q5 ++ q6 /\
    debug_part q1 n td fs /\
    (zlen ats = nt /\ many spell_type q2 ats /\ legal_types ns nt 0 ats) /\
    (zlen ks = Z.max 0 (c_nglobals c6) /\ many ix q3 ks /\ Forall (fun k => 0 <= k < nt) ks) /\
    (zlen nl = Z.max 0 (c_nnatives c6) /\ many spell_native q4 nl /\ Forall (natR ss nt ns) nl) /\
    (zlen fns = Z.max 0 (c_nfunctions c6) /\ many (spell_fun (c_version c6) dbg) q5 fns /\ Forall (legal_fun nt n dbg) fns) /\
    (zlen cl = Z.max 0 (c_nconstants c6) /\ many spell_constant q6 cl) /\
    x = if negb dbg && (nt =? 0) && (c_nconstants c6 <=? 0) then code_new else m12 n fs ats ks nl fns cl.

Lemma m7_same : m7 0 [] = c6. Proof. destruct Hd as (H1 & H2). unfold m7. destruct c6; cbn in *. now subst. Qed.
Lemma m8_same n fs ats : nt <= 0 -> zlen ats = nt -> m8 n fs ats = m7 n fs.
Proof.
  intros H E. rewrite (zlen_nil ats) by lia. unfold m8, mk_types. cbn [mean_types]. rewrite cache_list_nil.
  destruct Hr as (U & R1 & R2 & _ & _ & _ & _ & _ & T). unfold m7. fold nt in R2. replace nt with 0 by lia. cbn [app zrepeat]. unfold ns. destruct c6; cbn in *. subst. reflexivity.
Qed.
Lemma m8_parts n fs ats : c_ntypes (m8 n fs ats) = nt /\ c_nstrings (m8 n fs ats) = ns /\ c_strings (m8 n fs ats) = ss /\ c_types (m8 n fs ats) = fst (mean_types ss [] [] ats) ++ zrepeat vt_default nt /\
  c_ndebugfiles (m8 n fs ats) = n /\ c_hasdebug (m8 n fs ats) = c_hasdebug c6 /\ c_version (m8 n fs ats) = c_version c6 /\
  c_nglobals (m8 n fs ats) = c_nglobals c6 /\ c_nnatives (m8 n fs ats) = c_nnatives c6 /\ c_nfunctions (m8 n fs ats) = c_nfunctions c6 /\ c_nconstants (m8 n fs ats) = c_nconstants c6 /\
  c_globals (m8 n fs ats) = [] /\ c_natives (m8 n fs ats) = [] /\ c_functions (m8 n fs ats) = [] /\ c_constants (m8 n fs ats) = [].
Proof.
  destruct Hr as (U & R1 & R2 & R3 & R4 & R5 & R6 & R7 & R8). unfold m8, mk_types. destruct (mean_types ss [] [] ats) as [ts ins]. cbn. repeat split; auto.
Qed.
Lemma m9_same n fs ats ks : c_nglobals c6 <= 0 -> zlen ks = Z.max 0 (c_nglobals c6) -> m9 n fs ats ks = m8 n fs ats.
Proof.
  intros H E. rewrite (zlen_nil ks) by lia. unfold m9. replace (zrepeat vt_default (c_nglobals c6)) with (@nil vtype) by (unfold zrepeat; replace (Z.to_nat (c_nglobals c6)) with 0%nat by lia; reflexivity).
  destruct (m8_parts n fs ats) as (_ & _ & _ & _ & _ & _ & _ & _ & _ & _ & _ & G & _). cbn [map app]. destruct (m8 n fs ats); cbn in *. now subst.
Qed.
Lemma m10_same n fs ats ks nl : c_nnatives c6 <= 0 -> zlen nl = Z.max 0 (c_nnatives c6) -> m10 n fs ats ks nl = m9 n fs ats ks.
Proof.
  intros H E. rewrite (zlen_nil nl) by lia. unfold m10, m9. 
  destruct (m8_parts n fs ats) as (_ & _ & _ & _ & _ & _ & _ & _ & _ & _ & _ & _ & G & _). destruct (m8 n fs ats); cbn in *. now subst.
Qed.
Lemma m11_same n fs ats ks nl fns : c_nfunctions c6 <= 0 -> zlen fns = Z.max 0 (c_nfunctions c6) -> m11 n fs ats ks nl fns = m10 n fs ats ks nl.
Proof.
  intros H E. rewrite (zlen_nil fns) by lia. unfold m11, m10, m9.
  destruct (m8_parts n fs ats) as (_ & _ & _ & _ & _ & _ & _ & _ & _ & _ & _ & _ & _ & G & _). destruct (m8 n fs ats); cbn in *. now subst.
Qed.
Lemma m12_same n fs ats ks nl fns cl : c_nconstants c6 <= 0 -> zlen cl = Z.max 0 (c_nconstants c6) -> m12 n fs ats ks nl fns cl = m11 n fs ats ks nl fns.
Proof.
  intros H E. rewrite (zlen_nil cl) by lia. unfold m12, m11, m10, m9.
  destruct (m8_parts n fs ats) as (_ & _ & _ & _ & _ & _ & _ & _ & _ & _ & _ & _ & _ & _ & G). destruct (m8 n fs ats); cbn in *. now subst.
Qed.

(** the decoder's module along the way *)
Definition dec7 (n : Z) (fs : list str) : code := if dbg then m7 n fs else code_new.
Definition upd (k : Z) (d x : code) : code := if k <=? 0 then d else x.
Definition dec8 n fs ats := upd nt (dec7 n fs) (m8 n fs ats).
Definition dec9 n fs ats ks := upd (c_nglobals c6) (dec8 n fs ats) (m9 n fs ats ks).
Definition dec10 n fs ats ks nl := upd (c_nnatives c6) (dec9 n fs ats ks) (m10 n fs ats ks nl).
Definition dec11 n fs ats ks nl fns := upd (c_nfunctions c6) (dec10 n fs ats ks nl) (m11 n fs ats ks nl fns).
Definition dec12 n fs ats ks nl fns cl := upd (c_nconstants c6) (dec11 n fs ats ks nl fns) (m12 n fs ats ks nl fns cl).
Lemma dec8_cases n fs ats : zlen ats = nt -> dec8 n fs ats = if negb dbg && (nt =? 0) then code_new else m8 n fs ats.
Proof.
  intros E. destruct Hr as (_ & _ & R & _). fold nt in R. unfold dec8, upd, dec7. destruct (Z.leb_spec nt 0); [|replace (nt =? 0) with false by lia; now rewrite andb_false_r].
  replace (nt =? 0) with true by lia. rewrite andb_true_r. destruct dbg; cbn [negb]; [|reflexivity]. now rewrite m8_same by lia.
Qed.
Lemma dec9_cases n fs ats ks : zlen ats = nt -> zlen ks = Z.max 0 (c_nglobals c6) -> Forall (fun k => 0 <= k < nt) ks ->
  dec9 n fs ats ks = if negb dbg && (nt =? 0) then code_new else m9 n fs ats ks.
Proof.
  intros E1 E2 F. unfold dec9, upd. destruct (Z.leb_spec (c_nglobals c6) 0).
  - rewrite dec8_cases, m9_same by auto. reflexivity.
  - destruct (negb dbg && (nt =? 0)) eqn:Q; [|reflexivity]. apply andb_true_iff in Q as (_ & Q). apply forall_none in F; [|intros; lia]. subst ks. change (zlen (@nil Z)) with 0 in E2. lia.
Qed.
Lemma dec10_cases n fs ats ks nl : zlen ats = nt -> zlen ks = Z.max 0 (c_nglobals c6) -> Forall (fun k => 0 <= k < nt) ks ->
  zlen nl = Z.max 0 (c_nnatives c6) -> Forall (natR ss nt ns) nl ->
  dec10 n fs ats ks nl = if negb dbg && (nt =? 0) then code_new else m10 n fs ats ks nl.
Proof.
  intros E1 E2 F E3 F3. unfold dec10, upd. destruct (Z.leb_spec (c_nnatives c6) 0).
  - rewrite dec9_cases, m10_same by auto. reflexivity.
  - destruct (negb dbg && (nt =? 0)) eqn:Q; [|reflexivity]. apply andb_true_iff in Q as (_ & Q). apply forall_none in F3; [|intros [[[lib name] t] fi]; unfold natR; lia]. subst nl. change (zlen (@nil (Z*Z*Z*Z))) with 0 in E3. lia.
Qed.
Lemma dec11_cases n fs ats ks nl fns : zlen ats = nt -> zlen ks = Z.max 0 (c_nglobals c6) -> Forall (fun k => 0 <= k < nt) ks ->
  zlen nl = Z.max 0 (c_nnatives c6) -> Forall (natR ss nt ns) nl -> zlen fns = Z.max 0 (c_nfunctions c6) -> Forall (legal_fun nt n dbg) fns ->
  dec11 n fs ats ks nl fns = if negb dbg && (nt =? 0) then code_new else m11 n fs ats ks nl fns.
Proof.
  intros E1 E2 F E3 F3 E4 F4. unfold dec11, upd. destruct (Z.leb_spec (c_nfunctions c6) 0).
  - rewrite dec10_cases, m11_same by auto. reflexivity.
  - destruct (negb dbg && (nt =? 0)) eqn:Q; [|reflexivity]. apply andb_true_iff in Q as (_ & Q). apply forall_none in F4; [|intros f (R & _); lia]. subst fns. change (zlen (@nil rfun)) with 0 in E4. lia.
Qed.
Lemma dec12_cases n fs ats ks nl fns cl : zlen ats = nt -> zlen ks = Z.max 0 (c_nglobals c6) -> Forall (fun k => 0 <= k < nt) ks ->
  zlen nl = Z.max 0 (c_nnatives c6) -> Forall (natR ss nt ns) nl -> zlen fns = Z.max 0 (c_nfunctions c6) -> Forall (legal_fun nt n dbg) fns -> zlen cl = Z.max 0 (c_nconstants c6) ->
  dec12 n fs ats ks nl fns cl = if negb dbg && (nt =? 0) && (c_nconstants c6 <=? 0) then code_new else m12 n fs ats ks nl fns cl.
Proof.
  intros E1 E2 F E3 F3 E4 F4 E5. unfold dec12, upd. destruct (Z.leb_spec (c_nconstants c6) 0).
  - rewrite dec11_cases, m12_same by auto. now rewrite andb_true_r.
  - now rewrite andb_false_r.
Qed.

(** the phases' denotations on these modules *)
Lemma map_ty_app ts n l : map (ty (ts ++ zrepeat vt_default n)) l = map (ty ts) l.
Proof. apply map_ext. intros. apply ty_app. Qed.
Lemma map_nat_app ts n l : map (mean_nat ss (ts ++ zrepeat vt_default n)) l = map (mean_nat ss ts) l.
Proof. apply map_ext. intros [[[a b] c] d]. unfold mean_nat. now rewrite ty_app. Qed.
Lemma map_fun_app nf ts n l : map (mean_fun nf dbg (ts ++ zrepeat vt_default n)) l = map (mean_fun nf dbg ts) l.
Proof. apply map_ext. intros f. unfold mean_fun. now rewrite ty_app, map_ty_app. Qed.
Lemma ts_len ats : nt <= zlen (fst (mean_types ss [] [] ats) ++ zrepeat vt_default nt).
Proof. rewrite zlen_app, mean_types_len. change (zlen (@nil vtype)) with 0. destruct Hr as (_ & _ & R & _). fold nt in R. rewrite zlen_repeat by lia. pose proof (zlen_nonneg ats). lia. Qed.
Lemma den7 : den (fun d => d = code_new) (read_debugfiles c6) (fun d bs x d' => exists n td fs, debug_part bs n td fs /\ x = m7 n fs /\ d' = dec7 n fs).
Proof.
  eapply den_conseq; [apply den_read_debugfiles|exact (fun _ _ => I)|]. intros d bs x d' ->. cbv beta. unfold debug_part, dec7, m7. fold dbg. destruct dbg.
  - split; [intros (-> & n & t & fs & b1 & b2 & -> & V & T & ->); exists n, t, fs; eauto 10|intros (n & t & fs & (b1 & b2 & -> & V & T) & -> & ->); split; [auto|]; exists n, t, fs, b1, b2; auto].
  - split; [intros (-> & -> & ->); exists 0, no_strings, []; split; [auto|]; split; [symmetry; apply m7_same|auto]|intros (n & t & fs & (-> & -> & -> & ->) & -> & ->); split; [auto|]; split; [apply m7_same|auto]].
Qed.
Lemma den8 n fs : den (fun d => d = dec7 n fs) (read_types (m7 n fs)) (fun d bs x d' => exists ats, zlen ats = nt /\ many spell_type bs ats /\ legal_types ns nt 0 ats /\ x = m8 n fs ats /\ d' = dec8 n fs ats).
Proof.
  destruct Hr as (U & R1 & R2 & _). eapply den_conseq; [apply (den_read_types ss (m7 n fs)); auto|exact (fun _ _ => I)|]. intros d bs x d' ->. split; intros (ats & L & M & F & -> & ->); exists ats; auto.
Qed.
Lemma den9 n fs ats : den (fun d => d = dec8 n fs ats) (read_globals (m8 n fs ats)) (fun d bs x d' => exists ks, zlen ks = Z.max 0 (c_nglobals c6) /\ many ix bs ks /\ Forall (fun k => 0 <= k < nt) ks /\ x = m9 n fs ats ks /\ d' = dec9 n fs ats ks).
Proof.
  destruct (m8_parts n fs ats) as (P1 & P2 & P3 & P4 & P5 & P6 & P7 & P8 & _). destruct Hr as (U & R1 & R2 & _).
  eapply den_conseq; [apply (den_read_globals (fst (mean_types ss [] [] ats) ++ zrepeat vt_default nt) nt ns (m8 n fs ats)) with (I := fun _ => True)|exact (fun _ _ => I)|]; auto.
  - apply ts_len.
  - apply R2.
  - repeat split; auto.
  - intros d bs x d' ->. rewrite P8. unfold dec9, upd, m9. split; intros (ks & L & M & F & -> & ->); exists ks; rewrite map_ty_app; auto.
Qed.
Lemma den10 n fs ats ks : zlen ats = nt -> zlen ks = Z.max 0 (c_nglobals c6) -> Forall (fun k => 0 <= k < nt) ks ->
  den (fun d => d = dec9 n fs ats ks) (read_natives (m9 n fs ats ks)) (fun d bs x d' => exists nl, zlen nl = Z.max 0 (c_nnatives c6) /\ many spell_native bs nl /\ Forall (natR ss nt ns) nl /\ x = m10 n fs ats ks nl /\ d' = dec10 n fs ats ks nl).
Proof.
  intros E1 E2 F. destruct (m8_parts n fs ats) as (P1 & P2 & P3 & P4 & P5 & P6 & P7 & P8 & P9 & _). pose proof Hr as (U & R1 & R2 & _).
  assert (Bs : based ss (fst (mean_types ss [] [] ats) ++ zrepeat vt_default nt) nt ns (m9 n fs ats ks)) by (unfold m9; repeat split; auto).
  eapply den_conseq; [apply (den_read_natives ss (fst (mean_types ss [] [] ats) ++ zrepeat vt_default nt) nt ns (m9 n fs ats ks))|..]; auto.
  - apply ts_len.
  - apply R2.
  - apply R1.
  - intros d ->. rewrite dec9_cases by auto. destruct (negb dbg && (nt =? 0)) eqn:Q; [right|left; exact Bs]. apply andb_true_iff in Q as (_ & Q). cbn. unfold I32_MAX. lia.
  - intros d bs x d' ->. replace (c_nnatives (m9 n fs ats ks)) with (c_nnatives c6) by (unfold m9; cbn; auto). unfold dec10, upd, m10. split; intros (nl & L & M & F2 & -> & ->); exists nl; rewrite map_nat_app; auto.
Qed.
Lemma den11 n fs ats ks nl : n <= I32_MAX ->
  den (fun d => d = dec10 n fs ats ks nl) (read_functions (m10 n fs ats ks nl)) (fun d bs x d' => exists fns, zlen fns = Z.max 0 (c_nfunctions c6) /\ many (spell_fun (c_version c6) dbg) bs fns /\ Forall (legal_fun nt n dbg) fns /\ x = m11 n fs ats ks nl fns /\ d' = dec11 n fs ats ks nl fns).
Proof.
  intros Hn. destruct (m8_parts n fs ats) as (P1 & P2 & P3 & P4 & P5 & P6 & P7 & P8 & P9 & P10 & P11 & P12 & P13 & P14 & P15). pose proof Hr as (U & R1 & R2 & _).
  assert (X : c_ndebugfiles (m10 n fs ats ks nl) = n /\ c_hasdebug (m10 n fs ats ks nl) = c_hasdebug c6 /\ c_version (m10 n fs ats ks nl) = c_version c6 /\ c_nfunctions (m10 n fs ats ks nl) = c_nfunctions c6).
  { unfold m10, m9. cbn. auto. } destruct X as (X1 & X2 & X3 & X4).
  eapply den_conseq; [apply (den_read_functions (fst (mean_types ss [] [] ats) ++ zrepeat vt_default nt) nt ns (m10 n fs ats ks nl)) with (I := fun _ => True)|exact (fun _ _ => I)|]; auto.
  - apply ts_len.
  - apply R2.
  - now rewrite X1.
  - unfold m10, m9. repeat split; auto.
  - intros d bs x d' ->. rewrite X1, X2, X3, X4. fold dbg. unfold dec11, upd, m11. split; intros (fns & L & M & F & -> & ->); exists fns; rewrite map_fun_app; auto.
Qed.
Lemma den12 n fs ats ks nl fns : den (fun d => d = dec11 n fs ats ks nl fns) (read_constants (m11 n fs ats ks nl fns)) (fun d bs x d' => exists cl, zlen cl = Z.max 0 (c_nconstants c6) /\ many spell_constant bs cl /\ x = m12 n fs ats ks nl fns cl /\ d' = dec12 n fs ats ks nl fns cl).
Proof.
  destruct (m8_parts n fs ats) as (P1 & P2 & P3 & P4 & P5 & P6 & P7 & P8 & P9 & P10 & P11 & P12 & P13 & P14 & P15).
  eapply den_conseq; [apply (den_read_constants (m11 n fs ats ks nl fns))|exact (fun _ _ => I)|].
  - unfold m11, m10, m9. cbn. auto.
  - intros d bs x d' ->. replace (c_nconstants (m11 n fs ats ks nl fns)) with (c_nconstants c6) by (unfold m11, m10, m9; cbn; auto). split; intros (cl & L & M & -> & ->); exists cl; auto.
Qed.
Lemma debug_part_range q n td fs : bytes q -> debug_part q n td fs -> n <= I32_MAX.
Proof. intros B. unfold debug_part. destruct dbg; [intros (b1 & b2 & -> & V & _); parts B; apply (uix_range b1 n) in V; auto; lia|intros (_ & _ & -> & _); unfold I32_MAX; lia]. Qed.
Lemma back_to s x s' : clean s -> d_code s = code_new -> read_back c6 s = (Ok x, s') -> errs s' = None -> exists bs, d_buf s = bs ++ d_buf s' /\ back bs x.
Proof.
  intros C D R N. unfold read_back in R.
  apply (step_to _ _ _ _ _ _ _ _ _ den7) in R as (c7 & s7 & q1 & C7 & B7 & (n & td & fs & H7 & -> & D7) & R); auto; [|kp].
  apply (step_to _ _ _ _ _ _ _ _ _ (den8 n fs)) in R as (c8 & s8 & q2 & C8 & B8 & (ats & L8 & M8 & F8 & -> & D8) & R); auto; [|kp].
  apply (step_to _ _ _ _ _ _ _ _ _ (den9 n fs ats)) in R as (c9 & s9 & q3 & C9 & B9 & (ks & L9 & M9 & F9 & -> & D9) & R); auto; [|kp].
  apply (step_to _ _ _ _ _ _ _ _ _ (den10 n fs ats ks L8 L9 F9)) in R as (c10 & s10 & q4 & C10 & B10 & (nl & L10 & M10 & F10 & -> & D10) & R); auto; [|kp].
  assert (Hn : n <= I32_MAX). { apply debug_part_range with (q := q1) in H7; auto. destruct C as (Bs & _). rewrite B7 in Bs. now apply Forall_app in Bs. }
  apply (step_to _ _ _ _ _ _ _ _ _ (den11 n fs ats ks nl Hn)) in R as (c11 & s11 & q5 & C11 & B11 & (fns & L11 & M11 & F11 & -> & D11) & R); auto; [|kp].
  apply (step_to _ _ _ _ _ _ _ _ _ (den12 n fs ats ks nl fns)) in R as (c12 & s12 & q6 & C12 & B12 & (cl & L12 & M12 & -> & D12) & R); auto; [|kp].
  inversion R; subst x s'. exists (q1 ++ q2 ++ q3 ++ q4 ++ q5 ++ q6). split; [rewrite B7, B8, B9, B10, B11, B12; now rewrite <- !app_assoc|].
  exists q1, q2, q3, q4, q5, q6, n, td, fs, ats, ks, nl, fns, cl. split; [auto|]. split; [auto|]. split; [auto|]. split; [auto|]. split; [auto|]. split; [auto|]. split; [auto|].
  rewrite D12. now apply dec12_cases.
Qed.
Lemma back_from s bs rest x : clean s -> d_code s = code_new -> d_buf s = bs ++ rest -> back bs x -> read_back c6 s = (Ok x, fin s rest (zlen bs) x).
Proof.
  intros C D B (q1 & q2 & q3 & q4 & q5 & q6 & n & td & fs & ats & ks & nl & fns & cl & -> & H7 & (L8 & M8 & F8) & (L9 & M9 & F9) & (L10 & M10 & F10) & (L11 & M11 & F11) & (L12 & M12) & ->).
  assert (Hn : n <= I32_MAX). { apply debug_part_range with (q := q1) in H7; auto. destruct C as (Bs & _). rewrite B, <- app_assoc in Bs. now apply Forall_app in Bs. }
  rewrite <- !app_assoc in B. unfold read_back.
  rewrite (step_from _ _ _ _ _ _ s q1 (q2 ++ q3 ++ q4 ++ q5 ++ q6 ++ rest) (m7 n fs) (dec7 n fs) den7); auto; [|eauto 10].
  pose proof (clean_fin _ _ _ (dec7 n fs) C B) as C7. set (s7 := fin _ _ _ _) in *.
  rewrite (step_from _ _ _ _ _ _ s7 q2 (q3 ++ q4 ++ q5 ++ q6 ++ rest) (m8 n fs ats) (dec8 n fs ats) (den8 n fs)); auto; [|eauto 10].
  pose proof (clean_fin s7 q2 (q3 ++ q4 ++ q5 ++ q6 ++ rest) (dec8 n fs ats) C7 eq_refl) as C8. set (s8 := fin s7 _ _ _) in *.
  rewrite (step_from _ _ _ _ _ _ s8 q3 (q4 ++ q5 ++ q6 ++ rest) (m9 n fs ats ks) (dec9 n fs ats ks) (den9 n fs ats)); auto; [|eauto 10].
  pose proof (clean_fin s8 q3 (q4 ++ q5 ++ q6 ++ rest) (dec9 n fs ats ks) C8 eq_refl) as C9. set (s9 := fin s8 _ _ _) in *.
  rewrite (step_from _ _ _ _ _ _ s9 q4 (q5 ++ q6 ++ rest) (m10 n fs ats ks nl) (dec10 n fs ats ks nl) (den10 n fs ats ks L8 L9 F9)); auto; [|eauto 10].
  pose proof (clean_fin s9 q4 (q5 ++ q6 ++ rest) (dec10 n fs ats ks nl) C9 eq_refl) as C10. set (s10 := fin s9 _ _ _) in *.
  rewrite (step_from _ _ _ _ _ _ s10 q5 (q6 ++ rest) (m11 n fs ats ks nl fns) (dec11 n fs ats ks nl fns) (den11 n fs ats ks nl Hn)); auto; [|eauto 10].
  pose proof (clean_fin s10 q5 (q6 ++ rest) (dec11 n fs ats ks nl fns) C10 eq_refl) as C11. set (s11 := fin s10 _ _ _) in *.
  rewrite (step_from _ _ _ _ _ _ s11 q6 rest (m12 n fs ats ks nl fns cl) (dec12 n fs ats ks nl fns cl) (den12 n fs ats ks nl fns)); auto; [|eauto 10].
  unfold get_code. cbn [d_code fin]. rewrite dec12_cases by auto.  subst s11 s10 s9 s8 s7. rewrite !fin_fin, !zlen_app. repeat f_equal; lia.
Qed.
End back.

(** * The whole *)
Definition whole (bs : list Z) (x : code) : Prop := exists b1 b2 c6, bs = b1 ++ b2 /\ front b1 c6 /\ back c6 b2 x.
Lemma code_read_to buf x s' : bytes buf -> zlen buf < 2 ^ 63 -> code_read (start None buf) = (Ok x, s') -> errs s' = None -> exists bs, buf = bs ++ d_buf s' /\ whole bs x.
Proof.
  intros B L R N. rewrite code_read_front in R. assert (C : clean (start None buf)) by (split; auto).
  pose proof R as R0. apply (step_to _ _ _ _ _ _ _ _ _ (den_front (fun d => d = code_new))) in R as (c6 & s6 & b1 & C6 & B6 & (F & D) & R); auto.
  2:{ intros c. unfold read_back. kp. }
  cbn [d_buf start] in B6. assert (Bb : bytes b1) by (rewrite B6 in B; now apply Forall_app in B). destruct (front_ready _ _ Bb F) as (Rd & E1).
  destruct (back_to c6 Rd E1 s6 x s' C6 D R N) as (b2 & B2 & H). exists (b1 ++ b2). split; [now rewrite B6, B2, app_assoc|]. exists b1, b2, c6. auto.
Qed.
Lemma code_read_from bs rest x : bytes (bs ++ rest) -> zlen (bs ++ rest) < 2 ^ 63 -> whole bs x -> code_read (start None (bs ++ rest)) = (Ok x, fin (start None (bs ++ rest)) rest (zlen bs) x).
Proof.
  intros B L (b1 & b2 & c6 & -> & F & H). rewrite code_read_front. assert (C : clean (start None ((b1 ++ b2) ++ rest))) by (split; auto).
  assert (E : d_buf (start None ((b1 ++ b2) ++ rest)) = b1 ++ b2 ++ rest) by (cbn; now rewrite app_assoc).
  rewrite (step_from _ _ _ _ _ _ _ b1 (b2 ++ rest) c6 code_new (den_front (fun d => d = code_new))); auto; [|split; auto].
  assert (Bb : bytes b1) by (cbn in E; rewrite E in B; now apply Forall_app in B). destruct (front_ready _ _ Bb F) as (Rd & E1).
  rewrite (back_from c6 Rd E1 _ b2 rest x); [|now apply clean_fin|reflexivity|reflexivity|exact H]. rewrite fin_fin, zlen_app. reflexivity.
Qed.

(** * ... is the grammar *)
Lemma odd_flag f : negb (Z.land f 1 =? 0) = Z.odd f.
Proof. change 1 with (Z.ones 1). rewrite Z.land_ones by lia. change (2 ^ 1) with 2. rewrite Zmod_odd. now destruct (Z.odd f). Qed.
Lemma flag_value f : Z.land f 1 = if Z.odd f then 1 else 0.
Proof. change (Z.land f 1) with (Z.land f (Z.ones 1)). rewrite Z.land_ones by lia. change (2 ^ 1) with 2. apply Zmod_odd. Qed.
Lemma cuts_len text : forall n cur sizes ss, cuts text n cur sizes ss -> zlen ss <= Z.of_nat n.
Proof.
  induction n as [|n IH]; intros cur [|k sizes] [|s ss]; cbn [cuts]; try tauto; [cbn; lia..|]. intros (_ & H). rewrite zlen_cons.
  destruct (zlen text <=? cur + k); [destruct H as (_ & ->); change (zlen (@nil str)) with 0; lia|]. apply IH in H. lia.
Qed.
Lemma set_bytes_none c : c_bytes c = [] -> c_bytes_pos c = [] -> set_bytes_pos [] (set_bytes [] c) = c.
Proof. destruct c. cbn. intros -> ->. reflexivity. Qed.
Lemma whole_module bs x : whole bs x <-> exists m ss fs, spell_module bs m /\ legal_module m ss fs /\ x = mean_module m ss fs.
Proof.
  split.
  - intros (b1 & bb & c6 & -> & (v & q0 & q1 & q2 & q3 & q4 & c2 & c3 & c4 & c5 & -> & Rv & H2 & (li & L1 & -> & F1 & ->) & (lf & L2 & -> & F2 & ->) & (t & ss & T & ->) & H6) & K).
    destruct H2 as (flags & ni & nf & ns & nb & nt & ng & nn & nfn & nk & ep & b0 & b1 & b2 & b3 & b4 & b5 & b6 & b7 & b8 & b9 & b10 & -> & V0 & V1 & V2 & V3 & V4 & V5 & V6 & V7 & V8 & V9 & V10 & ->).
    cbn - [Z.pow I32_MAX] in L1, L2, T, H6, V4, V9. set (c5 := set_ustrings _ _) in H6.
    assert (X6 : exists vb ps, (if 5 <=? v then exists b, q4 = enc_le 4 (zlen vb) ++ vb ++ b /\ zlen vb < 2 ^ 31 /\ many uix b ps /\ zlen ps = nb else q4 = [] /\ vb = [] /\ ps = []) /\ c6 = set_bytes_pos ps (set_bytes vb c5)).
    { destruct (5 <=? v); [destruct H6 as (vb & ps & b & -> & Lb & Mb & Lp & ->); exists vb, ps; destruct V4 as (_ & V4); rewrite Z.max_r in Lp by lia; rewrite app_nil_r; split; [exists b; auto|reflexivity]|].
      destruct H6 as (-> & ->). exists [], []. auto. }
    clear H6. destruct X6 as (vb & ps & H6 & ->).
    destruct K as (k1 & k2 & k3 & k4 & k5 & k6 & n & td & fs & ats & ks & nl & fns & cl & -> & H7 & (L8 & M8 & F8) & (L9 & M9 & F9) & (L10 & M10 & F10) & (L11 & M11 & F11) & (L12 & M12) & ->).
    unfold debug_part in H7. subst c5. cbn - [Z.pow I32_MAX Z.land] in *. rewrite odd_flag in *.
    exists {| rm_version := v; rm_flags := flags; rm_ints := li; rm_floats := lf; rm_strings := t; rm_bytes := vb; rm_bytes_pos := ps; rm_debugfiles := td; rm_types := ats; rm_globals := ks; rm_natives := nl; rm_functions := fns; rm_constants := cl; rm_entrypoint := ep |}, ss, fs.
    assert (N1 : ni = zlen li) by (destruct V1; lia). assert (N2 : nf = zlen lf) by (destruct V2; lia). destruct T as (T1 & T2 & T3). assert (N3 : 0 <= ns) by (destruct V3; lia).
    assert (N6 : ng = zlen ks) by (destruct V6; lia). assert (N7 : nn = zlen nl) by (destruct V7; lia). assert (N8 : nfn = zlen fns) by (destruct V8; lia).
    assert (N9 : nk = zlen cl) by (destruct (4 <=? v); [destruct V9; lia|destruct V9 as (_ & ->); lia]).
    assert (Nb : nb = zlen ps) by (destruct (5 <=? v); [destruct H6 as (b & _ & _ & _ & <-); auto|destruct H6 as (_ & _ & ->); destruct V4 as (_ & ->); reflexivity]).
    subst ni nf ng nn nfn nk nb ns nt. 
    assert (X7 : n = rs_count td /\ strings_of td fs /\ (if Z.odd flags then exists c1 c2, k1 = c1 ++ c2 /\ uix c1 (rs_count td) /\ spell_strings c2 td else k1 = [] /\ td = no_strings)).
    { destruct (Z.odd flags); [destruct H7 as (c1 & c2 & -> & V & (<- & S & C)); split; [auto|]; split; [split; [destruct V; auto|exact C]|]; eauto|].
      destruct H7 as (-> & -> & -> & ->). split; [reflexivity|]. split; [split; [cbn; lia|exact I]|auto]. }
    destruct X7 as (-> & Sf & X7). pose proof (cuts_len _ _ _ _ _ T3) as Ls. rewrite Z2Nat.id in Ls by auto.
    split; [|split].
    + exists ([72; 76; 66; v] ++ b0 ++ b1 ++ b2 ++ b3 ++ b4 ++ b5 ++ b6 ++ b7 ++ b8 ++ b9 ++ b10), q3, q4, k1, k2, (k3 ++ k4 ++ k5 ++ k6). cbn [rm_ints rm_floats rm_strings rm_types rm_globals rm_natives rm_functions rm_constants rm_version rm_debug rm_flags rm_bytes rm_bytes_pos].
      split; [rewrite <- !app_assoc; reflexivity|]. split.
      { exists b0, b1, b2, b3, b4, b5, b6, b7, b8, b9, b10. cbn [rm_ints rm_floats rm_strings rm_types rm_globals rm_natives rm_functions rm_constants rm_version rm_flags rm_bytes rm_bytes_pos rm_entrypoint].
        repeat (split; [first [reflexivity|assumption|idtac]|]); auto.
        - destruct (5 <=? v); [exact V4|]. destruct V4 as (-> & V4), H6 as (_ & -> & ->). auto.
        - destruct (4 <=? v); [exact V9|]. destruct V9 as (-> & V9). split; [auto|]. apply zlen_nil. lia.
        - apply V10.
        - apply V10. }
      split; [exact F1|]. split; [exact F2|]. split; [exact T2|]. split; [unfold spell_bytes; cbn [rm_version rm_bytes rm_bytes_pos]; destruct (5 <=? v); [destruct H6 as (b & -> & Lb & Mb & _); exists b; split; [reflexivity|auto]|apply H6]|].
      split; [exact X7|]. split; [exact M8|]. exists k3, k4, k5, k6. auto.
    + split; [exact Rv|]. split; [split; [auto|exact T3]|]. split; [exact Sf|]. split; [exact F8|]. split; [exact F9|]. split; [|exact F11].
      cbn. eapply Forall_impl; [|exact F10]. intros [[[a b] c] d]. unfold natR. tauto.
    + unfold mean_module, m12, m11, m10, m9, m8, m7, mk_types. cbn - [Z.land mean_types]. destruct (mean_types ss [] [] ats) as [ts ins]. cbn - [Z.land mean_types].
      unfold rm_debug. cbn [rm_flags]. rewrite flag_value.
      replace (zlen cl <=? 0) with (zlen cl =? 0) by (pose proof (zlen_nonneg cl); lia). replace (negb ((if Z.odd flags then 1 else 0) =? 0)) with (Z.odd flags) by (destruct (Z.odd flags); reflexivity). reflexivity.
  - intros (m & ss & fs & (h & s1 & s2 & s3 & s4 & s5 & -> & Hh & F1 & F2 & S1 & S2 & S3 & S4 & (t1 & t2 & t3 & t4 & -> & M9 & M10 & M11 & M12)) & (Rv & (N3 & T3) & (Nf & Tf) & F8 & F9 & F10 & F11) & ->).
    destruct m as [v flags li lf t vb ps td ats ks nl fns cl ep]. unfold rm_debug in *. cbn [rm_ints rm_floats rm_strings rm_types rm_globals rm_natives rm_functions rm_constants rm_version rm_flags rm_bytes rm_bytes_pos rm_entrypoint rm_debugfiles] in *.
    destruct Hh as (b0 & b1 & b2 & b3 & b4 & b5 & b6 & b7 & b8 & b9 & b10 & -> & V0 & V1 & V2 & V3 & V4 & V5 & V6 & V7 & V8 & V9 & V10).
    cbn [rm_ints rm_floats rm_strings rm_types rm_globals rm_natives rm_functions rm_constants rm_version rm_flags rm_bytes rm_bytes_pos rm_entrypoint rm_debugfiles] in *.
    pose proof (cuts_len _ _ _ _ _ T3) as Ls. rewrite Z2Nat.id in Ls by auto.
    set (c2 := set_hasdebug (Z.land flags 1) (set_entrypoint ep (set_nconstants (zlen cl) (set_nfunctions (zlen fns) (set_nnatives (zlen nl) (set_nglobals (zlen ks) (set_ntypes (zlen ats) (set_nbytes (zlen ps) (set_nstrings (rs_count t) (set_nfloats (zlen lf) (set_nints (zlen li) (set_version v code_new)))))))))))).
    set (c3 := set_ints li c2). set (c4 := set_floats lf c3). set (c5 := set_ustrings (zrepeat None (c_nstrings c4)) (set_strings_lens (c_strings_lens c4 ++ map zlen ss) (set_strings ss c4))).
    exists (([72; 76; 66; v] ++ b0 ++ b1 ++ b2 ++ b3 ++ b4 ++ b5 ++ b6 ++ b7 ++ b8 ++ b9 ++ b10) ++ flat_map (enc_le 4) li ++ flat_map (enc_le 8) lf ++ s1 ++ s2), (s3 ++ s4 ++ t1 ++ t2 ++ t3 ++ t4), (set_bytes_pos ps (set_bytes vb c5)).
    split; [rewrite <- !app_assoc; reflexivity|]. split.
    + exists v, (b0 ++ b1 ++ b2 ++ b3 ++ b4 ++ b5 ++ b6 ++ b7 ++ b8 ++ b9 ++ b10), (flat_map (enc_le 4) li), (flat_map (enc_le 8) lf), s1, s2, c2, c3, c4, c5.
      split; [rewrite <- !app_assoc; reflexivity|]. split; [exact Rv|]. split.
      { exists flags, (zlen li), (zlen lf), (rs_count t), (zlen ps), (zlen ats), (zlen ks), (zlen nl), (zlen fns), (zlen cl), ep, b0, b1, b2, b3, b4, b5, b6, b7, b8, b9, b10.
        split; [reflexivity|]. split; [exact V0|]. split; [exact V1|]. split; [exact V2|]. split; [exact V3|]. split; [cbn; destruct (5 <=? v); [exact V4|]; destruct V4 as (-> & _ & ->); auto|].
        split; [exact V5|]. split; [exact V6|]. split; [exact V7|]. split; [exact V8|]. split; [cbn; destruct (4 <=? v); [exact V9|]; destruct V9 as (-> & ->); auto|]. split; [exact V10|reflexivity]. }
      split; [exists li; cbn; pose proof (zlen_nonneg li); repeat split; auto; lia|]. split; [exists lf; cbn - [Z.pow]; pose proof (zlen_nonneg lf); repeat split; auto; lia|].
      split; [exists t, ss; split; [split; [reflexivity|split; [exact S1|exact T3]]|reflexivity]|].
      unfold spell_bytes in S2. cbn [rm_ints rm_version rm_bytes rm_bytes_pos] in S2. change (c_version c5) with v. destruct (5 <=? v).
      * destruct S2 as (b & -> & Lb & Mb). exists vb, ps, b. split; [reflexivity|]. split; [exact Lb|]. split; [exact Mb|]. split; [cbn; pose proof (zlen_nonneg ps); lia|]. change (c_bytes_pos c5) with (@nil Z). now rewrite app_nil_r.
      * destruct V4 as (_ & -> & ->). split; [exact S2|]. now apply set_bytes_none.
    + exists s3, s4, t1, t2, t3, t4, (rs_count td), td, fs, ats, ks, nl, fns, cl. split; [reflexivity|]. unfold debug_part. cbn - [Z.pow I32_MAX Z.land mean_module]. rewrite odd_flag.
      split. { unfold spell_debugfiles, rm_debug in S3. cbn [rm_flags rm_debugfiles] in S3. destruct (Z.odd flags); [destruct S3 as (c1 & d2 & -> & V & S); exists c1, d2; split; [auto|]; split; [auto|]; split; auto|].
        destruct S3 as (-> & ->). split; [auto|]. split; [auto|]. split; [auto|]. cbn in Tf. destruct fs; [auto|destruct Tf]. }
      split; [auto|]. split; [pose proof (zlen_nonneg ks); repeat split; auto; lia|].
      split; [pose proof (zlen_nonneg nl); repeat split; auto; [lia|]; eapply Forall_impl; [|exact F10]; intros [[[a b] c] d]; unfold natR; lia|].
      split; [pose proof (zlen_nonneg fns); repeat split; auto; lia|]. split; [pose proof (zlen_nonneg cl); repeat split; auto; lia|].
      unfold mean_module, m12, m11, m10, m9, m8, m7, mk_types. cbn - [Z.land mean_types]. destruct (mean_types ss [] [] ats) as [ts ins]. cbn - [Z.land mean_types].
      subst c5 c4 c3 c2. unfold rm_debug. cbn [rm_flags]. rewrite flag_value.
      replace (zlen cl <=? 0) with (zlen cl =? 0) by (pose proof (zlen_nonneg cl); lia). replace (negb ((if Z.odd flags then 1 else 0) =? 0)) with (Z.odd flags) by (destruct (Z.odd flags); reflexivity). reflexivity.
Qed.
