(** Facts that hold of every function of the reader, proved compositionally: bytes are consumed from
    the front and counted, recorded errors are never cleared, and a successful error-free run
    depends only on the bytes it consumed. *)
From Verif Require Import Prelude StdModel BrassTypes DecoderModel CodeModel.
From Verif Require Export ReaderSpec.
From Coq Require Import Lia.

Definition with_buf (s : st) (b : list Z) : st :=
  {| d_buf := b; d_pos := d_pos s; d_code := d_code s; errs := errs s; d_log := d_log s |}.

Lemma with_buf_same s : with_buf s (d_buf s) = s.
Proof. destruct s; reflexivity. Qed.

(** [s'] is reached from [s] by consuming bytes; recorded errors stay. *)
Definition fwd (s s' : st) : Prop :=
  (exists used, d_buf s = used ++ d_buf s' /\ d_pos s' = d_pos s + zlen used) /\
  (errs s <> None -> errs s' <> None) /\
  (exists l, d_log s' = d_log s ++ l /\ (errs s' = None -> l = [])).
Lemma log_same (s s' : st) : d_log s' = d_log s -> exists l, d_log s' = d_log s ++ l /\ (errs s' = None -> l = []).
Proof. intros ->. exists []. rewrite app_nil_r. auto. Qed.
#[export] Hint Resolve log_same : core.

Lemma zlen_app {A} (a b : list A) : zlen (a ++ b) = zlen a + zlen b.
Proof. unfold zlen. rewrite app_length. lia. Qed.
Lemma zlen_nonneg {A} (l : list A) : 0 <= zlen l.
Proof. unfold zlen. lia. Qed.

Lemma fwd_refl s : fwd s s.
Proof. split; [exists []; cbn; split; [reflexivity|unfold zlen; cbn; lia] | auto]. Qed.
Lemma fwd_trans a b c : fwd a b -> fwd b c -> fwd a c.
Proof.
  intros [(u & Hu & Pu) [E1 L1]] [(v & Hv & Pv) [E2 L2]]. split; [|split; [auto|]].
  2:{ destruct L1 as (l1 & L1 & N1), L2 as (l2 & L2 & N2). exists (l1 ++ l2).
      split; [rewrite L2, L1; symmetry; apply app_assoc|]. intros N. rewrite N2 by auto. rewrite app_nil_r.
      apply N1. destruct (errs b); [exfalso; apply E2; congruence|auto]. }
  exists (u ++ v). rewrite <- app_assoc, <- Hv, zlen_app. split; [auto|lia].
Qed.
Lemma fwd_bytes s s' : fwd s s' -> bytes (d_buf s) -> bytes (d_buf s').
Proof. intros [(u & Hu & _) _] B. rewrite Hu in B. apply Forall_app in B. apply B. Qed.

(** [w = true] allows running out of the model's recursion fuel. *)
Record Good {A} (w : bool) (m : M A) : Prop := {
  g_fwd : forall s r s', bytes (d_buf s) -> m s = (r, s') -> fwd s s';
  g_nofuel : w = false -> forall s, bytes (d_buf s) -> fst (m s) <> Panic PFuel;
  g_local : forall s a s', bytes (d_buf s) -> m s = (Ok a, s') -> errs s' = None ->
    exists used, d_buf s = used ++ d_buf s' /\
      forall ext, bytes ext -> m (with_buf s (used ++ ext)) = (Ok a, with_buf s' ext) }.

(** An [Err] outcome implies a recorded error. *)
Definition ErrRec {A} (m : M A) : Prop := forall s e s', m s = (Err e, s') -> errs s' <> None.

(** Functions that neither consume nor touch the buffer/errors, e.g. [ret]. *)
Lemma good_pure w {A} (m : M A) (f : st -> A) (g : st -> code) :
  (forall s, m s = (Ok (f s), {| d_buf := d_buf s; d_pos := d_pos s; d_code := g s; errs := errs s; d_log := d_log s |})) ->
  (forall s b, f (with_buf s b) = f s) -> (forall s b, g (with_buf s b) = g s) -> Good w m.
Proof.
  intros H Hf Hg. split.
  - intros s r s' _ E. rewrite H in E. inversion E; subst. split; cbn; auto.
    exists []; cbn; split; [reflexivity|unfold zlen; cbn; lia].
  - intros _ s _. rewrite H. cbn. discriminate.
  - intros s a s' _ E _. rewrite H in E. inversion E; subst. exists []. split; [reflexivity|].
    intros ext Be. rewrite H, Hf, Hg. reflexivity.
Qed.

Lemma st_eta s : {| d_buf := d_buf s; d_pos := d_pos s; d_code := d_code s; errs := errs s; d_log := d_log s |} = s.
Proof. destruct s; reflexivity. Qed.

Lemma good_ret w {A} (a : A) : Good w (ret a).
Proof. apply good_pure with (f := fun _ => a) (g := d_code); auto. intros; unfold ret; now rewrite st_eta. Qed.
Lemma good_get_pos w : Good w get_pos.
Proof. apply good_pure with (f := d_pos) (g := d_code); auto. intros; unfold get_pos; now rewrite st_eta. Qed.
Lemma good_get_code w : Good w get_code.
Proof. apply good_pure with (f := d_code) (g := d_code); auto. intros; unfold get_code; now rewrite st_eta. Qed.
Lemma good_put_code w c : Good w (put_code c).
Proof. apply good_pure with (f := fun _ => tt) (g := fun _ => c); auto. Qed.

Lemma good_throw w {A} e : Good w (@throw A e).
Proof.
  split; unfold throw.
  - intros s r s' _ E; inversion E; subst; apply fwd_refl.
  - cbn; discriminate.
  - discriminate.
Qed.
Lemma good_crash w {A} p : p <> PFuel -> Good w (@crash A p).
Proof.
  intros N. split; unfold crash.
  - intros s r s' _ E; inversion E; subst; apply fwd_refl.
  - cbn; intros _ _ _ E; inversion E; auto.
  - discriminate.
Qed.
Lemma good_expect w {A} p (o : option A) : p <> PFuel -> Good w (expect p o).
Proof. intros N. destruct o; [apply good_ret|now apply good_crash]. Qed.
Lemma good_lift w {A} (r : res derr A) : r <> Panic PFuel -> Good w (lift r).
Proof.
  intros N. split; unfold lift.
  - intros s q s' _ E; inversion E; subst; apply fwd_refl.
  - cbn; auto.
  - intros s a s' _ E _. inversion E; subst. exists []. split; reflexivity.
Qed.
Lemma good_record_error w e : Good w (record_error e).
Proof.
  split; unfold record_error.
  - intros s r s' _ E; inversion E; subst. split; cbn; [|split; [discriminate|exists [e]; split; [reflexivity|discriminate]]].
    exists []; cbn; split; [reflexivity|unfold zlen; cbn; lia].
  - cbn; discriminate.
  - intros s a s' _ E N. inversion E; subst. cbn in N. discriminate.
Qed.
Lemma good_map_err w e : Good w (map_err e).
Proof.
  split; unfold map_err.
  - intros s r s' _ E; inversion E; subst. split; cbn; [|split; [destruct (errs s); congruence|exists [e]; split; [reflexivity|destruct (errs s); discriminate]]].
    exists []; cbn; split; [reflexivity|unfold zlen; cbn; lia].
  - cbn; discriminate.
  - intros s a s' _ E N. inversion E; subst. cbn in N. destruct (errs s); discriminate.
Qed.
Lemma good_check_error w : Good w check_error.
Proof.
  split; unfold check_error.
  - intros s r s' _ E. destruct (errs s) eqn:Q; inversion E; subst; apply fwd_refl.
  - intros _ s _. destruct (errs s); cbn; discriminate.
  - intros s a s' _ E N. destruct (errs s) eqn:Q; inversion E; subst. exists [].
    split; [reflexivity|]. intros ext Be. cbn. rewrite Q. reflexivity.
Qed.
Lemma check_error_rec : ErrRec check_error.
Proof. intros s e s' E. unfold check_error in E. destruct (errs s) eqn:Q; inversion E; subst. congruence. Qed.

Lemma good_bind w {A B} (m : M A) (k : A -> M B) : Good w m -> (forall a, Good w (k a)) -> Good w (bind m k).
Proof.
  intros G K. split; unfold bind.
  - intros s r s' B0 E. destruct (m s) as [[a|e|p] s1] eqn:Em;
      pose proof (g_fwd _ _ G _ _ _ B0 Em) as F1.
    + eapply fwd_trans; [exact F1|]. eapply (g_fwd _ _ (K a)); [|exact E]. eapply fwd_bytes; eauto.
    + inversion E; subst; auto.
    + inversion E; subst; auto.
  - intros W s B0. pose proof (g_nofuel _ _ G W _ B0) as F.
    destruct (m s) as [[a|e|p] s1] eqn:Em; cbn in *.
    + apply (g_nofuel _ _ (K a) W). eapply fwd_bytes; [eapply (g_fwd _ _ G)|]; eauto.
    + discriminate.
    + congruence.
  - intros s b s' B0 E N. destruct (m s) as [[a|e|p] s1] eqn:Em; try discriminate.
    pose proof (g_fwd _ _ G _ _ _ B0 Em) as F1.
    assert (B1 : bytes (d_buf s1)) by (eapply fwd_bytes; eauto).
    pose proof (g_fwd _ _ (K a) _ _ _ B1 E) as F2.
    assert (N1 : errs s1 = None).
    { destruct F2 as [_ F2]. destruct (errs s1); [|reflexivity]. exfalso. apply F2; congruence. }
    destruct (g_local _ _ G _ _ _ B0 Em N1) as (u1 & U1 & L1).
    destruct (g_local _ _ (K a) _ _ _ B1 E N) as (u2 & U2 & L2).
    exists (u1 ++ u2). split; [now rewrite <- app_assoc, <- U2|].
    intros ext Be. rewrite <- app_assoc, L1; [now apply L2|].
    apply Forall_app; split; [|auto]. rewrite U2 in B1. now apply Forall_app in B1.
Qed.

(** Changing what happens on [Err]. *)
Lemma good_unwrap w {A} (m : M A) : Good w m -> Good w (unwrap m).
Proof.
  intros G. split; unfold unwrap.
  - intros s r s' B E. destruct (m s) as [[a|e|p] s1] eqn:Em; inversion E; subst; eapply (g_fwd _ _ G); eauto.
  - intros W s B. pose proof (g_nofuel _ _ G W _ B). destruct (m s) as [[a|e|p] s1] eqn:Em; cbn in *; congruence.
  - intros s a s' B E N. destruct (m s) as [[a0|e|p] s1] eqn:Em; inversion E; subst.
    destruct (g_local _ _ G _ _ _ B Em N) as (u & U & L). exists u. split; [auto|].
    intros ext Be. now rewrite L by auto.
Qed.
Lemma fwd_map_err e s s' : fwd s s' -> fwd s (snd (map_err e s')).
Proof.
  intros [F [E (l & L & Ln)]]. split; cbn; [exact F|]. split.
  - intros N. specialize (E N). destruct (errs s'); congruence.
  - exists (l ++ [e]). rewrite L. split; [symmetry; apply app_assoc|]. destruct (errs s'); discriminate.
Qed.
Lemma good_unwrap_mapped w {A} (m : M A) : Good w m -> Good w (unwrap_mapped m).
Proof.
  intros G. split; unfold unwrap_mapped.
  - intros s r s' B E. destruct (m s) as [[a|e|p] s1] eqn:Em;
      pose proof (g_fwd _ _ G _ _ _ B Em); inversion E; subst; auto.
    now apply (fwd_map_err e).
  - intros W s B. pose proof (g_nofuel _ _ G W _ B). destruct (m s) as [[a|e|p] s1] eqn:Em; cbn in *; congruence.
  - intros s a s' B E N. destruct (m s) as [[a0|e|p] s1] eqn:Em; inversion E; subst.
    destruct (g_local _ _ G _ _ _ B Em N) as (u & U & L). exists u. split; [auto|].
    intros ext Be. now rewrite L by auto.
Qed.
Lemma good_ok_mapped w {A} (m : M A) : Good w m -> Good w (ok_mapped m).
Proof.
  intros G. split; unfold ok_mapped.
  - intros s r s' B E. destruct (m s) as [[a|e|p] s1] eqn:Em;
      pose proof (g_fwd _ _ G _ _ _ B Em); inversion E; subst; auto.
    now apply (fwd_map_err e).
  - intros W s B. pose proof (g_nofuel _ _ G W _ B). destruct (m s) as [[a|e|p] s1] eqn:Em; cbn in *; congruence.
  - intros s a s' B E N. destruct (m s) as [[a0|e|p] s1] eqn:Em; inversion E; subst.
    + destruct (g_local _ _ G _ _ _ B Em N) as (u & U & L). exists u. split; [auto|].
      intros ext Be. now rewrite L by auto.
    + cbn in N. destruct (errs s1); discriminate.
Qed.
Lemma good_ok w {A} (m : M A) : Good w m -> ErrRec m -> Good w (ok m).
Proof.
  intros G R. split; unfold ok.
  - intros s r s' B E. destruct (m s) as [[a|e|p] s1] eqn:Em;
      pose proof (g_fwd _ _ G _ _ _ B Em); inversion E; subst; auto.
  - intros W s B. pose proof (g_nofuel _ _ G W _ B). destruct (m s) as [[a|e|p] s1] eqn:Em; cbn in *; congruence.
  - intros s a s' B E N. destruct (m s) as [[a0|e|p] s1] eqn:Em; inversion E; subst.
    + destruct (g_local _ _ G _ _ _ B Em N) as (u & U & L). exists u. split; [auto|].
      intros ext Be. now rewrite L by auto.
    + exfalso. eapply R; eauto.
Qed.

Lemma good_for_loop w {A} n : forall i (body : Z -> A -> M A) acc,
  (forall i acc, Good w (body i acc)) -> Good w (for_loop n i body acc).
Proof.
  induction n; intros; cbn [for_loop]; [apply good_ret|]. apply good_bind; auto.
Qed.
Lemma good_for_range w {A} n (body : Z -> A -> M A) acc :
  (forall i acc, Good w (body i acc)) -> Good w (for_range n body acc).
Proof. intros; now apply good_for_loop. Qed.
Lemma good_vec_insert w {A} (l : list A) i x : Good w (vec_insert l i x).
Proof. apply good_expect. discriminate. Qed.

Lemma firstn_skipn_le {A} (l u : list A) ext n :
  firstn n l = u -> (n <= length l)%nat -> firstn n (u ++ ext) = u /\ skipn n (u ++ ext) = ext.
Proof.
  intros <- L. assert (length (firstn n l) = n) by (apply firstn_length_le; lia).
  split.
  - rewrite firstn_app, H, Nat.sub_diag. cbn. rewrite app_nil_r. apply firstn_all2. lia.
  - rewrite skipn_app, H, Nat.sub_diag, skipn_all2 by lia. reflexivity.
Qed.

Lemma good_read_bytes w n : 0 <= n -> Good w (read_bytes n).
Proof.
  intros Hn. split; unfold read_bytes.
  - intros s r s' _ E. destruct (Z.ltb_spec (zlen (d_buf s)) n); inversion E; subst; [apply fwd_refl|].
    split; cbn; auto. exists (firstn (Z.to_nat n) (d_buf s)). split; [now rewrite firstn_skipn|].
    unfold zlen in *. rewrite firstn_length_le by lia. lia.
  - intros _ s _. destruct (_ <? _); cbn; discriminate.
  - intros s a s' _ E _. destruct (Z.ltb_spec (zlen (d_buf s)) n); inversion E; subst.
    exists (firstn (Z.to_nat n) (d_buf s)). cbn [d_buf]. split; [now rewrite firstn_skipn|].
    intros ext Be. cbn [d_buf with_buf].
    destruct (firstn_skipn_le (d_buf s) _ ext (Z.to_nat n) eq_refl) as [F S]; [unfold zlen in *; lia|].
    rewrite F, S.
    destruct (Z.ltb_spec (zlen (firstn (Z.to_nat n) (d_buf s) ++ ext)) n).
    { rewrite zlen_app in *. pose proof (zlen_nonneg ext). unfold zlen in *.
      rewrite firstn_length_le in * by lia. lia. }
    reflexivity.
Qed.

Lemma good_decode_unsigned w n : 0 <= n -> Good w (decode_unsigned n).
Proof. intros. apply good_bind; [now apply good_read_bytes|]. intros; apply good_ret. Qed.
Lemma good_decode_signed w n : 0 <= n -> Good w (decode_signed n).
Proof. intros. apply good_bind; [now apply good_read_bytes|]. intros; apply good_ret. Qed.
Lemma good_u8 w : Good w decode_u8. Proof. apply good_decode_unsigned; lia. Qed.
Lemma good_i32 w : Good w decode_i32. Proof. apply good_decode_signed; lia. Qed.
Lemma good_f64 w : Good w decode_f64. Proof. apply good_decode_unsigned; lia. Qed.

Create HintDb good.
#[export] Hint Resolve good_ret good_get_pos good_get_code good_put_code good_throw good_record_error
  good_map_err good_check_error good_vec_insert good_u8 good_i32 good_f64 check_error_rec : good.

Ltac good1 :=
  match goal with
  | |- Good _ (bind _ _) => apply good_bind; [|intro]
  | |- Good _ (unwrap _) => apply good_unwrap
  | |- Good _ (unwrap_mapped _) => apply good_unwrap_mapped
  | |- Good _ (ok_mapped _) => apply good_ok_mapped
  | |- Good _ (ok _) => apply good_ok
  | |- Good _ (crash _) => apply good_crash; discriminate
  | |- Good _ (expect _ _) => apply good_expect; discriminate
  | |- Good _ (for_range _ _ _) => apply good_for_range; intros
  | |- Good _ (if ?b then _ else _) => destruct b
  | |- Good _ (match ?x with _ => _ end) => destruct x
  | |- Good _ (let x := _ in _) => cbv zeta
  | |- Good _ ((fun _ => _) _) => cbv beta
  | |- _ => solve [eauto with good]
  end.
Ltac good := repeat good1.

Lemma good_read_index w : Good w read_index. Proof. unfold read_index. good. Qed.
#[export] Hint Resolve good_read_index : good.
Lemma good_INDEX w : Good w INDEX. Proof. unfold INDEX. good. Qed.
#[export] Hint Resolve good_INDEX : good.
Lemma good_UINDEX w : Good w UINDEX. Proof. unfold UINDEX. good. Qed.
#[export] Hint Resolve good_UINDEX : good.

(** [unwrap]ed functions never return [Err]. *)
Lemma unwrap_noerr {A} (m : M A) s e s' : unwrap m s <> (Err e, s').
Proof. unfold unwrap. destruct (m s) as [[]]; discriminate. Qed.
Lemma UINDEX_noerr s e s' : UINDEX s <> (Err e, s').
Proof.
  unfold UINDEX, bind, unwrap_mapped. destruct (INDEX s) as [[i|e1|p] s1] eqn:E; try discriminate.
  destruct (i <? 0); discriminate.
Qed.
Lemma INDEX_rec : ErrRec INDEX. Proof. intros s e s' E. now apply unwrap_noerr in E. Qed.
Lemma UINDEX_rec : ErrRec UINDEX. Proof. intros s e s' E. now apply UINDEX_noerr in E. Qed.
#[export] Hint Resolve INDEX_rec UINDEX_rec : good.

Lemma good_to_i32 w x : Good w (to_i32 x). Proof. unfold to_i32. good. Qed.
Lemma good_i32_add w x y : Good w (i32_add x y). Proof. unfold i32_add. good. Qed.
#[export] Hint Resolve good_to_i32 good_i32_add : good.
Lemma good_read_string w : Good w read_string. Proof. unfold read_string. good. Qed.
Lemma good_read_ustring w : Good w read_ustring.
Proof.
  unfold read_ustring. good. apply good_lift. unfold get_ustring.
  repeat match goal with |- context [match ?x with _ => _ end] => destruct x end; discriminate.
Qed.
Lemma good_get_type w : Good w get_type. Proof. unfold get_type. good. Qed.
#[export] Hint Resolve good_read_string good_read_ustring good_get_type : good.
Lemma good_read_fields w n : Good w (read_fields n). Proof. unfold read_fields. good. Qed.
Lemma good_read_protos w n : Good w (read_protos n). Proof. unfold read_protos. good. Qed.
Lemma good_read_bindings w n : Good w (read_bindings n). Proof. unfold read_bindings. good. Qed.
Lemma good_read_type_refs w n : Good w (read_type_refs n). Proof. unfold read_type_refs. good. Qed.
#[export] Hint Resolve good_read_fields good_read_protos good_read_bindings good_read_type_refs : good.
Lemma good_read_constructs w n : Good w (read_constructs n). Proof. unfold read_constructs. good. Qed.
#[export] Hint Resolve good_read_constructs : good.
Lemma good_read_type w : Good w read_type. Proof. unfold read_type. good. Qed.
#[export] Hint Resolve good_read_type : good.

Lemma good_strings_loop w n : forall text cur ss ls, Good w (strings_loop n text cur ss ls).
Proof. induction n; intros; cbn [strings_loop]; good. Qed.
#[export] Hint Resolve good_strings_loop : good.

Lemma from_le_bound bs : bytes bs -> 0 <= from_le bs < 256 ^ Z.of_nat (length bs).
Proof.
  induction 1 as [|b r Hb _ IH]; [cbn; lia|]. cbn [from_le length].
  rewrite Nat2Z.inj_succ, Z.pow_succ_r by lia. unfold is_byte in Hb. nia.
Qed.
Lemma bytes_firstn n l : bytes l -> bytes (firstn n l).
Proof. intros B. rewrite <- (firstn_skipn n l) in B. now apply Forall_app in B. Qed.
Lemma bytes_skipn n l : bytes l -> bytes (skipn n l).
Proof. intros B. rewrite <- (firstn_skipn n l) in B. now apply Forall_app in B. Qed.

Lemma decode_i32_range s a s' : bytes (d_buf s) -> decode_i32 s = (Ok a, s') -> - 2 ^ 31 <= a < 2 ^ 31.
Proof.
  intros B E. unfold decode_i32, decode_signed, bind, read_bytes, ret in E.
  destruct (Z.ltb_spec (zlen (d_buf s)) 4); [discriminate|].
  pose proof (from_le_bound (firstn (Z.to_nat 4) (d_buf s)) (bytes_firstn _ _ B)) as R.
  rewrite firstn_length_le in R by (unfold zlen in *; lia).
  change (256 ^ Z.of_nat (Z.to_nat 4)) with 4294967296 in R.
  set (x := from_le (firstn (Z.to_nat 4) (d_buf s))) in *. clearbody x.
  assert (Ea : to_signed (8 * 4) x = a) by congruence. clear E. subst a.
  unfold to_signed. change (2 ^ (8 * 4 - 1)) with 2147483648. change (2 ^ (8 * 4)) with 4294967296.
  change (2 ^ 31) with 2147483648. destruct (Z.ltb_spec x 2147483648); lia.
Qed.

(** [good_bind] with knowledge about the value produced. *)
Lemma good_bind_val w {A B} (P : A -> Prop) (m : M A) (k : A -> M B) :
  (forall s a s', bytes (d_buf s) -> m s = (Ok a, s') -> P a) ->
  Good w m -> (forall a, P a -> Good w (k a)) -> Good w (bind m k).
Proof.
  intros V G K. split; unfold bind.
  - intros s r s' B0 E. destruct (m s) as [[a|e|p] s1] eqn:Em;
      pose proof (g_fwd _ _ G _ _ _ B0 Em) as F1.
    + eapply fwd_trans; [exact F1|]. eapply (g_fwd _ _ (K a (V _ _ _ B0 Em))); [|exact E]. eapply fwd_bytes; eauto.
    + inversion E; subst; auto.
    + inversion E; subst; auto.
  - intros W s B0. pose proof (g_nofuel _ _ G W _ B0) as F.
    destruct (m s) as [[a|e|p] s1] eqn:Em; cbn in *.
    + apply (g_nofuel _ _ (K a (V _ _ _ B0 Em)) W). eapply fwd_bytes; [eapply (g_fwd _ _ G)|]; eauto.
    + discriminate.
    + congruence.
  - intros s b s' B0 E N. destruct (m s) as [[a|e|p] s1] eqn:Em; try discriminate.
    pose proof (K a (V _ _ _ B0 Em)) as Ka.
    pose proof (g_fwd _ _ G _ _ _ B0 Em) as F1.
    assert (B1 : bytes (d_buf s1)) by (eapply fwd_bytes; eauto).
    pose proof (g_fwd _ _ Ka _ _ _ B1 E) as F2.
    assert (N1 : errs s1 = None).
    { destruct F2 as [_ F2]. destruct (errs s1); [|reflexivity]. exfalso. apply F2; congruence. }
    destruct (g_local _ _ G _ _ _ B0 Em N1) as (u1 & U1 & L1).
    destruct (g_local _ _ Ka _ _ _ B1 E N) as (u2 & U2 & L2).
    exists (u1 ++ u2). split; [now rewrite <- app_assoc, <- U2|].
    intros ext Be. rewrite <- app_assoc, L1; [now apply L2|].
    apply Forall_app; split; [|auto]. rewrite U2 in B1. now apply Forall_app in B1.
Qed.

(** Looking at the next [size] bytes, then consuming them. *)
Lemma slice_advance w {B} size (k : list Z -> M B) : 0 <= size -> (forall sl, Good w (k sl)) ->
  Good w (bind (fun s => if zlen (d_buf s) <? size then (Panic PSlice, s)
                       else (Ok (firstn (Z.to_nat size) (d_buf s)), s))
             (fun sl => advance size ;;; k sl)).
Proof.
  intros Hs K.
  set (m := bind (unwrap (read_bytes size)) k).
  assert (G : Good w m) by (unfold m; good; now apply good_read_bytes).
  assert (Q : forall s, zlen (d_buf s) <? size = false -> 
     bind (fun s => if zlen (d_buf s) <? size then (Panic PSlice, s)
                       else (Ok (firstn (Z.to_nat size) (d_buf s)), s))
             (fun sl => advance size ;;; k sl) s = m s).
  { intros s H. unfold m, bind, unwrap, advance, read_bytes. rewrite !H, ?H. reflexivity. }
  assert (Q' : forall s, zlen (d_buf s) <? size = true -> 
     bind (fun s => if zlen (d_buf s) <? size then (Panic PSlice, s)
                       else (Ok (firstn (Z.to_nat size) (d_buf s)), s))
             (fun sl => advance size ;;; k sl) s = (Panic PSlice, s)).
  { intros s H. unfold bind. rewrite H. reflexivity. }
  assert (Qm : forall s, zlen (d_buf s) <? size = true -> m s = (Panic PUnwrap, s)).
  { intros s H. unfold m, bind, unwrap, read_bytes. rewrite H. reflexivity. }
  split.
  - intros s r s' B0 E. destruct (zlen (d_buf s) <? size) eqn:H.
    + rewrite Q' in E by auto. inversion E; subst. apply fwd_refl.
    + rewrite Q in E by auto. eapply (g_fwd _ _ G); eauto.
  - intros W s B0. destruct (zlen (d_buf s) <? size) eqn:H.
    + rewrite Q' by auto. cbn. discriminate.
    + rewrite Q by auto. now apply (g_nofuel _ _ G W).
  - intros s a s' B0 E N. destruct (zlen (d_buf s) <? size) eqn:H.
    + rewrite Q' in E by auto. inversion E.
    + rewrite Q in E by auto. destruct (g_local _ _ G _ _ _ B0 E N) as (u & U & L).
      exists u. split; [auto|]. intros ext Be. specialize (L ext Be).
      rewrite Q; [exact L|].
      destruct (zlen (d_buf (with_buf s (u ++ ext))) <? size) eqn:H2; [|reflexivity].
      rewrite Qm in L by auto. discriminate.
Qed.

Lemma good_read_strings w n lens : Good w (read_strings n lens).
Proof.
  unfold read_strings. eapply good_bind_val with (P := fun a => 0 <= i32_as_usize a).
  - intros s a s' B E. unfold unwrap in E. destruct (decode_i32 s) as [[x|e|p] s1] eqn:D; inversion E; subst.
    apply decode_i32_range in D; auto. unfold i32_as_usize. destruct (Z.ltb_spec a 0); lia.
  - good.
  - intros a Ha. cbv zeta. apply (slice_advance w (i32_as_usize a)
      (fun sl => strings_loop (Z.to_nat n) (from_utf8_lossy sl) 0 [] lens)); auto with good.
Qed.
#[export] Hint Resolve good_read_strings : good.

Lemma good_read_extra w r n : Good w r -> Good w (read_extra r n). Proof. intros. unfold read_extra. good. Qed.
#[export] Hint Resolve good_read_extra : good.
Lemma good_read_opcode w : Good w read_opcode. Proof. unfold read_opcode. good. Qed.
#[export] Hint Resolve good_read_opcode : good.
Lemma good_read_function w : Good w read_function. Proof. unfold read_function. good. Qed.
Lemma good_debug_store w d i f l : Good w (debug_store d i f l). Proof. unfold debug_store. good. Qed.
#[export] Hint Resolve good_read_function good_debug_store : good.

Lemma good_crash_true {A} p : Good true (@crash A p).
Proof.
  split; unfold crash.
  - intros s r s' _ E; inversion E; subst; apply fwd_refl.
  - discriminate.
  - discriminate.
Qed.

Lemma good_debug_loop_true fuel : forall nops i cf cl d, Good true (debug_loop fuel nops i cf cl d).
Proof.
  induction fuel; intros; cbn [debug_loop]; [apply good_crash_true|]. good.
Qed.

(** Two runs agree up to running out of fuel. *)
Definition agree {A} (x y : res derr A * st) : Prop := fst x = Panic PFuel \/ y = x.
Lemma agree_bind {A B} (m : M A) (k k' : A -> M B) s :
  (forall a s, agree (k a s) (k' a s)) -> agree (bind m k s) (bind m k' s).
Proof. intros H. unfold bind. destruct (m s) as [[]]; [apply H|now right|now right]. Qed.

Lemma debug_loop_agree fuel : forall fuel' nops i cf cl d s, (fuel <= fuel')%nat ->
  agree (debug_loop fuel nops i cf cl d s) (debug_loop fuel' nops i cf cl d s).
Proof.
  induction fuel; intros fuel' nops i cf cl d s L; [left; reflexivity|].
  destruct fuel' as [|fuel']; [lia|]. cbn [debug_loop].
  destruct (i <? nops); [|now right].
  repeat match goal with
  | |- agree (bind _ _ _) (bind _ _ _) => apply agree_bind; intros
  | |- agree ((if ?b then _ else _) _) _ => destruct b
  | |- agree (debug_loop _ _ _ _ _ _ _) _ => apply IHfuel; lia
  end.
Qed.

Lemma u8_consumes s a s' : unwrap decode_u8 s = (Ok a, s') -> S (length (d_buf s')) = length (d_buf s).
Proof.
  unfold unwrap, decode_u8, decode_unsigned, bind, read_bytes.
  destruct (Z.ltb_spec (zlen (d_buf s)) 1); [discriminate|]. intros E.
  assert (X : s' = snd (read_bytes 1 s)).
  { unfold read_bytes. destruct (Z.ltb_spec (zlen (d_buf s)) 1); [lia|]. cbn [snd]. unfold ret in E. congruence. }
  rewrite X. unfold read_bytes. destruct (Z.ltb_spec (zlen (d_buf s)) 1); [lia|]. cbn [snd d_buf].
  rewrite skipn_length. unfold zlen in *. lia.
Qed.
Lemma fwd_length s s' : fwd s s' -> (length (d_buf s') <= length (d_buf s))%nat.
Proof. intros [(u & -> & _) _]. rewrite app_length. lia. Qed.

(** With at least as much fuel as bytes left, the debug loop does not run out. *)
Lemma nofuel_bind {A B} (m : M A) (k : A -> M B) s n :
  Good false m -> bytes (d_buf s) -> (length (d_buf s) < n)%nat ->
  (forall a s', bytes (d_buf s') -> (length (d_buf s') < n)%nat -> fst (k a s') <> Panic PFuel) ->
  fst (bind m k s) <> Panic PFuel.
Proof.
  intros G B0 L K. unfold bind. pose proof (g_nofuel _ _ G eq_refl _ B0) as F.
  destruct (m s) as [[a|e|p] s'] eqn:E; cbn in *; [|discriminate|congruence].
  pose proof (g_fwd _ _ G _ _ _ B0 E) as Fw. pose proof (fwd_length _ _ Fw).
  apply K; [eapply fwd_bytes; eauto|lia].
Qed.

Lemma debug_loop_nofuel fuel : forall nops i cf cl d s, bytes (d_buf s) ->
  (length (d_buf s) < fuel)%nat -> fst (debug_loop fuel nops i cf cl d s) <> Panic PFuel.
Proof.
  induction fuel; intros nops i cf cl d s B0 L; [lia|]. cbn [debug_loop].
  destruct (i <? nops); [|cbn; discriminate].
  unfold bind at 1.
  pose proof (g_nofuel _ _ (good_unwrap _ _ (good_u8 false)) eq_refl _ B0) as F.
  destruct (unwrap decode_u8 s) as [[c|e|p] s1] eqn:E; cbn [fst] in *; [|discriminate|congruence].
  pose proof (u8_consumes _ _ _ E).
  assert (B1 : bytes (d_buf s1)) by (eapply fwd_bytes; [eapply (g_fwd _ _ (good_unwrap _ _ (good_u8 false)))|]; eauto).
  assert (L1 : (length (d_buf s1) < fuel)%nat) by lia.
  clear E H L B0 s.
  repeat match goal with
  | |- fst (bind _ _ _) <> _ => apply (nofuel_bind _ _ _ fuel); [good|auto|auto|intros; clear dependent s1; rename s' into s1]
  | |- fst ((if ?b then _ else _) _) <> _ => destruct b
  | |- fst (debug_loop _ _ _ _ _ _ _) <> _ => apply IHfuel; auto
  end.
Qed.

Lemma good_debug_infos w nops : Good w (debug_infos nops).
Proof.
  split; unfold debug_infos.
  - intros s r s' B0 E. eapply (g_fwd _ _ (good_debug_loop_true _ _ _ _ _ _)); eauto.
  - intros _ s B0. apply debug_loop_nofuel; auto.
  - intros s a s' B0 E N.
    destruct (g_local _ _ (good_debug_loop_true _ _ _ _ _ _) _ _ _ B0 E N) as (u & U & L).
    exists u. split; [auto|]. intros ext Be. specialize (L ext Be).
    destruct (le_ge_dec (length (d_buf s)) (length (u ++ ext))) as [H|H].
    + destruct (debug_loop_agree (S (length (d_buf s))) (S (length (u ++ ext))) nops 0 (-1) 0
        (zrepeat 0 (2 * nops)) (with_buf s (u ++ ext))) as [X|X]; [lia| |].
      * rewrite L in X. cbn in X. discriminate.
      * cbn [d_buf with_buf]. rewrite X. exact L.
    + destruct (debug_loop_agree (S (length (u ++ ext))) (S (length (d_buf s))) nops 0 (-1) 0
        (zrepeat 0 (2 * nops)) (with_buf s (u ++ ext))) as [X|X]; [lia| |].
      * exfalso. revert X. apply debug_loop_nofuel; cbn [d_buf with_buf]; [|lia].
        apply Forall_app; split; [|auto]. rewrite U in B0. now apply Forall_app in B0.
      * cbn [d_buf with_buf]. rewrite <- X. exact L.
Qed.
#[export] Hint Resolve good_debug_infos : good.

Lemma good_read_magic w c : Good w (read_magic c). Proof. unfold read_magic. good. Qed.
Lemma good_read_count w f c : Good w (read_count f c). Proof. unfold read_count. good. Qed.
#[export] Hint Resolve good_read_magic good_read_count : good.
Lemma good_read_counts w c : Good w (read_counts c). Proof. unfold read_counts. good. Qed.
Lemma good_read_table w m n : Good w m -> Good w (read_table m n). Proof. intros. unfold read_table. good. Qed.
#[export] Hint Resolve good_read_counts good_read_table : good.
Lemma good_read_ints w c : Good w (read_ints c). Proof. unfold read_ints. good. Qed.
Lemma good_read_floats w c : Good w (read_floats c). Proof. unfold read_floats. good. Qed.
Lemma good_read_string_table w c : Good w (read_string_table c). Proof. unfold read_string_table. good. Qed.
Lemma good_read_bytes_section w c : Good w (read_bytes_section c).
Proof.
  unfold read_bytes_section. destruct (5 <=? c_version c); [|good].
  apply good_bind; [good|]. intros a.
  apply good_bind_val with (P := fun _ => 0 <= a).
  - intros s x s' _ E. destruct (Z.ltb_spec a 0); [discriminate|auto].
  - good.
  - intros _ Ha. good. now apply good_read_bytes.
Qed.
Lemma good_read_debugfiles w c : Good w (read_debugfiles c). Proof. unfold read_debugfiles. good. Qed.
Lemma good_read_types w c : Good w (read_types c). Proof. unfold read_types. good. Qed.
Lemma good_read_globals w c : Good w (read_globals c). Proof. unfold read_globals. good. Qed.
Lemma good_read_natives w c : Good w (read_natives c). Proof. unfold read_natives. good. Qed.
Lemma good_skip_assigns w : Good w skip_assigns. Proof. unfold skip_assigns. good. Qed.
#[export] Hint Resolve good_read_ints good_read_floats good_read_string_table good_read_bytes_section
  good_read_debugfiles good_read_types good_read_globals good_read_natives good_skip_assigns : good.
Lemma good_read_function_entry w i c : Good w (read_function_entry i c).
Proof. unfold read_function_entry. good. Qed.
#[export] Hint Resolve good_read_function_entry : good.
Lemma good_read_functions w c : Good w (read_functions c). Proof. unfold read_functions. good. Qed.
Lemma good_read_constants w c : Good w (read_constants c). Proof. unfold read_constants. good. Qed.
#[export] Hint Resolve good_read_functions good_read_constants : good.
Lemma good_code_read w : Good w code_read. Proof. unfold code_read. good. Qed.
