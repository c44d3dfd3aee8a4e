(** C42, sharply: what every read returns after an earlier read has left an error.
    Model: DecoderModel.v, CodeModel.v.  Vocabulary: ReaderSpec.v, GrammarSpec.v. *)
From Verif Require Import Prelude StdModel BrassTypes DecoderModel CodeModel FormatSpec ReaderSpec AcceptSpec GrammarSpec.
From Verif Require Import CodeGenericProofs FormatProofs ReaderPost ErrProofs ErrExact GrammarDen GrammarModule GrammarCode PropsModule PropsGrammar.
From Coq Require Import Lia ZifyBool.

(** The same state in a process that already held error [e]. *)
Definition up (e : derr) (s : st) : st :=
  {| d_buf := d_buf s; d_pos := d_pos s; d_code := d_code s; errs := match errs s with Some x => Some x | None => Some e end; d_log := d_log s |}.
Definition T {A} (m : M A) : Prop := forall e s, let '(r, s1) := m s in exists s2, m (up e s) = (r, s2) /\ match r with Ok _ => s2 = up e s1 | _ => True end.
(** Runs that end with a check. *)
Definition K {A} (m : M A) : Prop := forall e s, let '(r, s1) := m s in exists r2 s2, m (up e s) = (r2, s2) /\
  match r with Ok _ => errs s1 = None /\ r2 = Err e /\ errs s2 = Some e | Err x => r2 = Err x | Panic p => r2 = Panic p end.
Lemma T_ret {A} (a : A) : T (ret a). Proof. intros e s. cbn. eexists. split; reflexivity. Qed.
Lemma T_bind {A B} (m : M A) (k : A -> M B) : T m -> (forall a, T (k a)) -> T (bind m k).
Proof.
  intros Hm Hk e s. unfold bind. specialize (Hm e s). destruct (m s) as [[a|x|p] s1]; destruct Hm as (s2 & E & H); rewrite E.
  - subst s2. exact (Hk a e s1).
  - eauto.
  - eauto.
Qed.
Lemma K_bind {A B} (m : M A) (k : A -> M B) : T m -> (forall a, K (k a)) -> K (bind m k).
Proof.
  intros Hm Hk e s. unfold bind. specialize (Hm e s). destruct (m s) as [[a|x|p] s1]; destruct Hm as (s2 & E & H); rewrite E.
  - subst s2. exact (Hk a e s1).
  - eauto.
  - eauto.
Qed.
Lemma K_check {A} (a : A) : K (check_error ;;; ret a).
Proof. intros e s. unfold bind, check_error, ret. cbn [errs up]. destruct (errs s) as [x|] eqn:E; cbn [errs up]; eexists _, _; (split; [reflexivity|]); cbn [errs up]; rewrite ?E; auto. Qed.
Lemma T_throw {A} x : T (@throw A x). Proof. intros e s. cbn. eexists. split; reflexivity. Qed.
Lemma T_unwrap {A} (m : M A) : T m -> T (unwrap m).
Proof. intros H e s. unfold unwrap. specialize (H e s). destruct (m s) as [[a|x|p] s1]; destruct H as (s2 & -> & H); eauto. Qed.
Lemma T_unwrap_mapped {A} (m : M A) : T m -> T (unwrap_mapped m).
Proof. intros H e s. unfold unwrap_mapped. specialize (H e s). destruct (m s) as [[a|x|p] s1]; destruct H as (s2 & -> & H); eauto. Qed.
Lemma T_ok {A} (m : M A) : T m -> (forall s, match fst (m s) with Err _ => False | _ => True end) -> T (ok m).
Proof. intros H N e s. unfold ok. specialize (H e s). specialize (N s). destruct (m s) as [[a|x|p] s1]; destruct H as (s2 & -> & H); [eauto|contradiction|eauto]. Qed.
Lemma T_pos : T get_pos. Proof. intros e s. cbn. eexists. split; reflexivity. Qed.
Lemma T_record x : T (record_error x). Proof. intros e s. cbn. eexists. split; reflexivity. Qed.
Lemma T_read_bytes n : T (read_bytes n).
Proof. intros e s. unfold read_bytes. cbn [d_buf up]. destruct (zlen (d_buf s) <? n); eexists; split; reflexivity. Qed.
Lemma T_u8 : T decode_u8. Proof. apply T_bind; [apply T_read_bytes|intros; apply T_ret]. Qed.
Lemma T_index : T read_index.
Proof.
  apply T_bind; [apply T_u8|intros b]. destruct (_ =? 0); [apply T_ret|]. destruct (_ =? 0).
  - apply T_bind; [apply T_unwrap, T_u8|intros x; apply T_ret].
  - do 3 (apply T_bind; [apply T_u8|intros ?]). apply T_ret.
Qed.
Lemma T_UINDEX : T UINDEX.
Proof.
  apply T_bind; [apply T_unwrap_mapped, T_unwrap, T_index|intros i]. destruct (i <? 0); [|apply T_ret].
  apply T_bind; [apply T_pos|intros p]. apply T_bind; [apply T_record|intros; apply T_ret].
Qed.
Lemma UINDEX_no_err s : match fst (UINDEX s) with Err _ => False | _ => True end.
Proof.
  unfold UINDEX, bind. destruct (unwrap_mapped INDEX s) as [[i|x|p] s1] eqn:E; cbn; [|unfold unwrap_mapped in E; destruct (INDEX s) as [[]]; discriminate|exact I].
  destruct (i <? 0); exact I.
Qed.
Lemma T_count set c : T (read_count set c).
Proof. apply T_bind; [apply T_ok; [apply T_UINDEX|apply UINDEX_no_err]|intros [x|]; apply T_ret]. Qed.
Lemma T_magic c : T (read_magic c).
Proof.
  apply T_bind; [apply T_unwrap, T_u8|intros h]. apply T_bind.
  - destruct (negb _); [apply T_ret|]. apply T_bind; [apply T_unwrap, T_u8|intros l]. destruct (negb _); [apply T_ret|]. apply T_bind; [apply T_unwrap, T_u8|intros b; apply T_ret].
  - intros []; [apply T_bind; [apply T_pos|intros; apply T_throw]|]. apply T_bind; [apply T_unwrap_mapped, T_u8|intros v]. destruct (_ || _); [apply T_bind; [apply T_pos|intros; apply T_throw]|apply T_ret].
Qed.
Lemma K_counts c : K (read_counts c).
Proof.
  unfold read_counts. apply K_bind; [apply T_ok; [apply T_UINDEX|apply UINDEX_no_err]|intros r].
  do 3 (apply K_bind; [apply T_count|intros ?]). apply K_bind; [destruct (5 <=? _); [apply T_count|apply T_ret]|intros ?]. do 4 (apply K_bind; [apply T_count|intros ?]).
  apply K_bind; [destruct (4 <=? _); [apply T_count|apply T_ret]|intros ?]. apply K_bind; [apply T_count|intros ?]. apply K_check.
Qed.

(** After an earlier error [e], every file whatever is answered in one of two ways: [e] is reported
    again (and kept), or the file is refused, or crashes, in its header as it would in a fresh process. *)
Theorem C42_after e file : 
  read_module (Some e) file = (Err e, Some e) \/
  (fst (read_module (Some e) file) = fst (read_module None file) /\ forall c, fst (read_module (Some e) file) <> Ok c).
Proof.
  unfold read_module. change (start (Some e) file) with (up e (start None file)). generalize (start None file). intros s.
  assert (Ek : exists k, code_read = bind (read_magic code_new) (fun c => bind (read_counts c) k)) by (eexists; reflexivity). destruct Ek as (k & ->). unfold bind.
  pose proof (T_magic code_new e s) as Hm. destruct (read_magic code_new s) as [[c1|x|p] s1]; destruct Hm as (s2 & -> & Hm); [subst s2|right; split; [reflexivity|discriminate]..].
  pose proof (K_counts c1 e s1) as Hc. destruct (read_counts c1 s1) as [[c2|x|p] s3]; destruct Hc as (r2 & s4 & -> & Hc).
  - destruct Hc as (_ & -> & Hc). left. now rewrite Hc.
  - subst r2. right. split; [reflexivity|discriminate].
  - subst r2. right. split; [reflexivity|discriminate].
Qed.
(** For a file the reader would accept in a fresh process it is always the old error: it is accepted
    exactly when no earlier read has left an error. *)
Theorem C42_iff file c : accepted None file c ->
  (forall e0, accepted e0 file c <-> e0 = None) /\ forall e, read_module (Some e) file = (Err e, Some e).
Proof.
  intros A. assert (R : forall e, read_module (Some e) file = (Err e, Some e)).
  { intros e. destruct (C42_after e file) as [H|[H N]]; [exact H|]. unfold accepted in A. exfalso. apply (N c). congruence. }
  split; [|exact R]. intros [e|]; [|tauto]. unfold accepted. rewrite R. split; discriminate.
Qed.
(** Whatever follows a complete header, it is the old error. *)
Theorem C42_header e h m rest : spell_header h m -> 2 <= rm_version m <= 5 -> bytes (h ++ rest) -> zlen (h ++ rest) < 2 ^ 63 ->
  read_module (Some e) (h ++ rest) = (Err e, Some e).
Proof.
  intros Hh Rv B L. destruct Hh as (b0 & b1 & b2 & b3 & b4 & b5 & b6 & b7 & b8 & b9 & b10 & -> & V0 & V1 & V2 & V3 & V4 & V5 & V6 & V7 & V8 & V9 & V10).
  set (q := b0 ++ b1 ++ b2 ++ b3 ++ b4 ++ b5 ++ b6 ++ b7 ++ b8 ++ b9 ++ b10) in *.
  assert (P : countsP (set_version (rm_version m) code_new) q (set_hasdebug (Z.land (rm_flags m) 1) (set_entrypoint (rm_entrypoint m) (set_nconstants (zlen (rm_constants m)) (set_nfunctions (zlen (rm_functions m)) (set_nnatives (zlen (rm_natives m))
     (set_nglobals (zlen (rm_globals m)) (set_ntypes (zlen (rm_types m)) (set_nbytes (zlen (rm_bytes_pos m)) (set_nstrings (rs_count (rm_strings m)) (set_nfloats (zlen (rm_floats m)) (set_nints (zlen (rm_ints m)) (set_version (rm_version m) code_new))))))))))))).
  { exists (rm_flags m), (zlen (rm_ints m)), (zlen (rm_floats m)), (rs_count (rm_strings m)), (zlen (rm_bytes_pos m)), (zlen (rm_types m)), (zlen (rm_globals m)), (zlen (rm_natives m)), (zlen (rm_functions m)), (zlen (rm_constants m)), (rm_entrypoint m), b0, b1, b2, b3, b4, b5, b6, b7, b8, b9, b10.
    split; [reflexivity|]. split; [exact V0|]. split; [exact V1|]. split; [exact V2|]. split; [exact V3|]. split; [cbn; destruct (5 <=? rm_version m); [exact V4|]; destruct V4 as (-> & _ & ->); auto|].
    split; [exact V5|]. split; [exact V6|]. split; [exact V7|]. split; [exact V8|]. split; [cbn; destruct (4 <=? rm_version m); [exact V9|]; destruct V9 as (-> & ->); auto|]. split; [exact V10|reflexivity]. }
  revert P. match goal with |- countsP _ _ ?x -> _ => generalize x end. intros c2 P. clear V0 V1 V2 V3 V4 V5 V6 V7 V8 V9 V10.
  set (file := ([72; 76; 66; rm_version m] ++ q) ++ rest) in *. assert (C : clean (start None file)) by (split; auto).
  assert (E : d_buf (start None file) = [72; 76; 66; rm_version m] ++ q ++ rest) by (cbn [d_buf start]; unfold file; now rewrite <- app_assoc).
  assert (Em : read_magic code_new (start None file) = (Ok (set_version (rm_version m) code_new), fin (start None file) (q ++ rest) 4 code_new)).
  { apply (den_from (den_read_magic (fun _ => True) code_new) _ _ _ _ _ C I E). split; [eauto|reflexivity]. }
  pose proof (clean_fin _ _ _ code_new C E) as C1. change (zlen [72; 76; 66; rm_version m]) with 4 in C1.
  pose proof (den_from (den_read_counts (fun _ => True) (set_version (rm_version m) code_new)) _ q rest c2 code_new C1 I eq_refl (conj P eq_refl)) as Ec.
  unfold read_module. change (start (Some e) file) with (up e (start None file)).
  assert (Ek : exists k, code_read = bind (read_magic code_new) (fun c => bind (read_counts c) k)) by (eexists; reflexivity). destruct Ek as (k & ->). unfold bind.
  pose proof (T_magic code_new e (start None file)) as Hm. rewrite Em in Hm. destruct Hm as (s2 & -> & ->).
  pose proof (K_counts (set_version (rm_version m) code_new) e (fin (start None file) (q ++ rest) 4 code_new)) as Hc. rewrite Ec in Hc. destruct Hc as (r2 & s4 & -> & _ & -> & Hc). now rewrite Hc.
Qed.
(** A valid file, a file with a wrong version and a file cut in its header, read after an error. *)
Example C42_after_ex : let e := err NoMoreData 77 in
  (exists c, accepted None (enc_module ex_mod) c) /\ read_module (Some e) (enc_module ex_mod) = (Err e, Some e) /\
  fst (read_module (Some e) [72; 76; 66; 6; 0]) = Err (err UnsupportedBytecodeVersion 4) /\ fst (read_module (Some e) [72; 76; 66; 5]) = Panic PUnwrap.
Proof. split; [eexists; vm_compute; reflexivity|]. split; [vm_compute; reflexivity|]. split; vm_compute; reflexivity. Qed.
