(** C36, exactly: what every sequence of name lookups denotes, in order or not. *)
From Verif Require Import Prelude StdModel BrassTypes DecoderModel CodeModel FormatSpec ReaderSpec GrammarSpec.
From Verif Require Import CodeGenericProofs FormatProofs StringsProofs GrammarNames PropsReader.
From Coq Require Import Lia ZifyBool.

Lemma slot_bounds have : forall ins p m, slot have ins p = Some m -> In m ins /\ m <= p.
Proof.
  induction ins as [|k ins IH]; intros p m H; cbn [slot] in H; [discriminate|].
  destruct (Z.ltb_spec p k). { apply IH in H. split; [now right|lia]. }
  destruct (Z.eqb_spec p k).
  - destruct (k <? have); [injection H as <-; split; [now left|lia]|discriminate].
  - apply IH in H. split; [now right|lia].
Qed.

(** One lookup, whatever was looked up before. *)
Lemma eats_lookup ss c ins n : c_strings c = ss -> 0 <= c_nstrings c <= I32_MAX -> c_ustrings c = cache_list ss (c_nstrings c) ins ->
  0 <= n < c_nstrings c -> n < 8192 ->
  let r := resolve (zlen ss) ins [n] in
  eats c read_ustring (enc_index n) (nm ss (hd 0 (fst r))) (set_ustrings (cache_list ss (c_nstrings c) (snd r)) c).
Proof.
  intros H1 H2 H3 H4 H5. cbv zeta. unfold read_ustring.
  eapply eats_bind_last. { apply eats_unwrap, eats_INDEX. unfold small. lia. }
  eapply eats_bind_nil; [apply eats_get_code|].
  eapply eats_bind_nil. { apply eats_to_i32. lia. }
  destruct (Z.ltb_spec n 0), (Z.leb_spec (c_nstrings c) n); try lia. cbn [orb].
  rewrite (get_ustring_slot ss (c_nstrings c) ins c n) by (auto; lia). cbn [resolve].
  assert (Hc : set_ustrings (cache_list ss (c_nstrings c) ins) c = c) by (rewrite <- H3; destruct c; reflexivity).
  destruct (slot (zlen ss) ins n) as [m|]; cbn [fst snd hd].
  - rewrite Hc. eapply eats_bind_nil; [apply eats_lift|]. cbn [fst snd]. eapply eats_bind_nil; [apply eats_put_code|]. apply eats_ret.
  - eapply eats_bind_nil; [apply eats_lift|]. cbn [fst snd]. eapply eats_bind_nil; [apply eats_put_code|]. apply eats_ret.
Qed.

(** Every sequence of lookups, from every history: name by name, the strings [resolve] says. *)
Theorem C36_exact : forall ns ins c,
  let ss := c_strings c in let N := c_nstrings c in
  0 <= N <= I32_MAX -> c_ustrings c = cache_list ss N ins -> Forall (fun n => 0 <= n < N /\ n < 8192) ns ->
  let r := resolve (zlen ss) ins ns in
  eats c (lookups ns) (flat_map enc_index ns) (map (fun m => nth (Z.to_nat m) ss []) (fst r)) (set_ustrings (cache_list ss N (snd r)) c).
Proof.
  induction ns as [|n ns IH]; intros ins c ss N HN HU F; cbv zeta.
  - cbn [resolve fst snd map flat_map lookups]. replace (set_ustrings _ c) with c by (rewrite <- HU; destruct c; reflexivity). apply eats_ret.
  - inversion F as [|? ? [F1 F2] F']; subst. pose proof (eats_lookup ss c ins n eq_refl HN HU F1 F2) as L. cbv zeta in L.
    cbn [lookups flat_map]. set (r1 := resolve (zlen ss) ins [n]) in *.
    specialize (IH (snd r1) (set_ustrings (cache_list ss N (snd r1)) c)). cbn zeta in IH. specialize (IH HN eq_refl F').
    eapply eats_bind; [exact L|].
    assert (R : resolve (zlen ss) ins (n :: ns) = (hd 0 (fst r1) :: fst (resolve (zlen ss) (snd r1) ns), snd (resolve (zlen ss) (snd r1) ns))).
    { subst r1. cbn [resolve]. destruct (slot (zlen ss) ins n) as [m|]; cbn [fst snd hd].
      - destruct (resolve (zlen ss) ins ns). reflexivity.
      - destruct (resolve (zlen ss) (n :: ins) ns). reflexivity. }
    rewrite R. cbn [fst snd map]. eapply eats_bind_last; [exact IH|]. apply eats_ret.
Qed.

(** A name never denotes a later string: it denotes its own or that of a smaller name looked up before. *)
Lemma resolve_cons have ins n ns : resolve have ins (n :: ns) =
  (let m := match slot have ins n with Some m => m | None => n end in
   let ins' := match slot have ins n with Some _ => ins | None => n :: ins end in
   (m :: fst (resolve have ins' ns), snd (resolve have ins' ns))).
Proof.
  cbn [resolve]. destruct (slot have ins n) as [m|]; cbv zeta.
  - destruct (resolve have ins ns). reflexivity.
  - destruct (resolve have (n :: ins) ns). reflexivity.
Qed.
Lemma resolve_within have : forall ns ins before, (forall m, In m ins -> In m before) ->
  forall k m, nth_error (fst (resolve have ins ns)) k = Some m ->
    exists n, nth_error ns k = Some n /\ (m = n \/ m < n /\ In m (before ++ firstn k ns)).
Proof.
  induction ns as [|n ns IH]; intros ins before S k m H.
  - destruct k; discriminate.
  - rewrite resolve_cons in H. cbv zeta in H. cbn [fst] in H. destruct k as [|k]; cbn [nth_error firstn] in *.
    + injection H as <-. exists n. split; [reflexivity|]. destruct (slot have ins n) as [m|] eqn:E; [|now left].
      apply slot_bounds in E as [I L]. destruct (Z.eq_dec m n); [now left|]. right. split; [lia|]. rewrite app_nil_r. auto.
    + set (ins' := match slot have ins n with Some _ => ins | None => n :: ins end) in *.
      destruct (IH ins' (before ++ [n])) with (k := k) (m := m) as (x & X & Y); auto.
      * intros y Hy. apply in_or_app. subst ins'. destruct (slot have ins n); [now left; auto|]. destruct Hy as [<-|Hy]; [right; now left|left; auto].
      * exists x. split; [exact X|]. destruct Y as [->|[L I]]; [now left|]. right. split; [exact L|]. now rewrite <- app_assoc in I.
Qed.
Theorem C36_earlier have ns k m : nth_error (fst (resolve have [] ns)) k = Some m ->
  exists n, nth_error ns k = Some n /\ (m = n \/ m < n /\ In m (firstn k ns)).
Proof. intros H. apply (resolve_within have ns [] []) in H; auto. Qed.

(** ** When is resolution right? *)
(** The places hold what their index says, for the names [seen] and possibly the last one. *)
Definition in_place (N : Z) (ins seen : list Z) : Prop :=
  (forall p, 0 <= p < N - 1 -> slot N ins p = if existsb (Z.eqb p) seen then Some p else None) /\
  (slot N ins (N - 1) = None \/ slot N ins (N - 1) = Some (N - 1)).
Lemma existsb_in p l : existsb (Z.eqb p) l = true <-> In p l.
Proof. rewrite existsb_exists. split; [intros (x & I & E); apply Z.eqb_eq in E; now subst|intros I; exists p; split; [auto|apply Z.eqb_refl]]. Qed.
Lemma in_place_at N ins seen n : in_place N ins seen -> 0 <= n < N -> slot N ins n = None \/ slot N ins n = Some n.
Proof.
  intros [H1 H2] Hn. destruct (Z.eq_dec n (N - 1)) as [->|]; [exact H2|]. rewrite H1 by lia. destruct (existsb _ _); auto.
Qed.
Lemma slot_cons N n ins p : n < N -> slot N (n :: ins) p = if p <? n then slot N ins p else if p =? n then Some n else slot N ins (p - 1).
Proof. intros H. cbn [slot]. destruct (Z.ltb_spec n N); [|lia]. reflexivity. Qed.
Definition step (N : Z) (ins : list Z) (n : Z) : list Z := match slot N ins n with Some _ => ins | None => n :: ins end.
Lemma in_place_last N ins seen : 0 < N -> in_place N ins seen -> in_place N (step N ins (N - 1)) seen.
Proof.
  intros HN [H1 H2]. unfold step. destruct H2 as [E|E]; rewrite E; [|split; auto]. split.
  - intros p Hp. rewrite slot_cons by lia. destruct (Z.ltb_spec p (N - 1)); [|lia]. auto.
  - right. rewrite slot_cons by lia. destruct (Z.ltb_spec (N - 1) (N - 1)); [lia|]. now rewrite Z.eqb_refl.
Qed.
Lemma in_place_old N ins seen n : in_place N ins seen -> 0 <= n < N - 1 -> In n seen -> in_place N (step N ins n) (n :: seen).
Proof.
  intros [H1 H2] Hn I. unfold step. rewrite H1 by lia. assert (X := I). apply existsb_in in X. rewrite X. split; auto.
  intros p Hp. rewrite H1 by lia. cbn [existsb]. destruct (Z.eqb_spec p n) as [->|]; [now rewrite X|]. reflexivity.
Qed.
Lemma in_place_new N ins seen n : in_place N ins seen -> 0 <= n < N - 1 -> ~ In n seen -> Forall (fun m => m < n) seen ->
  in_place N (step N ins n) (n :: seen).
Proof.
  intros [H1 H2] Hn I F. rewrite Forall_forall in F. unfold step.
  assert (B : forall p, n <= p -> existsb (Z.eqb p) seen = false).
  { intros p Hp. destruct (existsb (Z.eqb p) seen) eqn:E; [|reflexivity]. apply existsb_in in E. specialize (F _ E). cbn in F. lia. }
  rewrite H1 by lia. rewrite B by lia. split.
  - intros p Hp. rewrite slot_cons by lia. cbn [existsb]. destruct (Z.ltb_spec p n).
    + destruct (Z.eqb_spec p n); [lia|]. cbn [orb]. apply H1. lia.
    + destruct (Z.eqb_spec p n) as [->|]; [reflexivity|]. cbn [orb]. rewrite H1 by lia. now rewrite !B by lia.
  - left. rewrite slot_cons by lia. destruct (Z.ltb_spec (N - 1) n); [lia|]. destruct (Z.eqb_spec (N - 1) n); [lia|].
    rewrite H1 by lia. now rewrite B by lia.
Qed.
Lemma resolve_step N ins n ns : slot N ins n = None \/ slot N ins n = Some n ->
  fst (resolve N ins (n :: ns)) = n :: fst (resolve N (step N ins n) ns).
Proof. intros H. rewrite resolve_cons. unfold step. destruct H as [-> | ->]; reflexivity. Qed.
Definition lower (N : Z) := filter (fun n => n <? N - 1).

Lemma right_from N : 0 < N -> forall ns ins seen, in_place N ins seen -> Forall (fun n => 0 <= n < N) ns ->
  increasing_first_use seen (lower N ns) -> forall a b n, ns = a ++ b -> 0 <= n < N -> fst (resolve N ins (a ++ [n])) = a ++ [n].
Proof.
  intros HN ns ins seen P F I a. revert ns ins seen P F I. induction a as [|x a IH]; intros ns ins seen P F I b n -> Hn.
  - cbn [app]. rewrite resolve_step by (eapply in_place_at; eauto). reflexivity.
  - cbn [app] in *. inversion F as [|? ? Fx F']; subst. rewrite resolve_step by (eapply in_place_at; eauto). f_equal.
    unfold lower in I. cbn [filter] in I. destruct (Z.ltb_spec x (N - 1)).
    + cbn [increasing_first_use] in I. destruct I as [J I]. eapply IH; eauto.
      destruct (in_dec Z.eq_dec x seen) as [S|S]; [apply in_place_old; auto; lia|]. destruct J as [J|J]; [tauto|]. apply in_place_new; auto. lia.
    + replace x with (N - 1) in * by lia. eapply IH; eauto. now apply in_place_last.
Qed.
Lemma right_to N : 0 < N -> forall ns ins seen, in_place N ins seen -> Forall (fun n => 0 <= n < N) ns -> Forall (fun n => 0 <= n < N - 1) seen ->
  (forall a b n, ns = a ++ b -> 0 <= n < N -> fst (resolve N ins (a ++ [n])) = a ++ [n]) -> increasing_first_use seen (lower N ns).
Proof.
  intros HN. induction ns as [|x ns IH]; intros ins seen P F S H; [exact I|].
  inversion F as [|? ? Fx F']; subst. unfold lower. cbn [filter].
  assert (H' : forall a b n, ns = a ++ b -> 0 <= n < N -> fst (resolve N (step N ins x) (a ++ [n])) = a ++ [n]).
  { intros a b n E Hn. specialize (H (x :: a) b n ltac:(now rewrite E) Hn). cbn [app] in H. rewrite resolve_step in H by (eapply in_place_at; eauto). congruence. }
  destruct (Z.ltb_spec x (N - 1)).
  - cbn [increasing_first_use]. destruct (in_dec Z.eq_dec x seen) as [Y|Y].
    + split; [now left|]. eapply (IH (step N ins x)); eauto; [apply in_place_old; auto; lia|constructor; auto; lia].
    + destruct (Forall_dec (fun m => m < x) (fun m => Z_lt_dec m x) seen) as [L|L].
      * split; [now right|]. eapply (IH (step N ins x)); eauto; [apply in_place_new; auto; lia|constructor; auto; lia].
      * exfalso. apply neg_Forall_Exists_neg in L; [|intros m; apply Z_lt_dec]. apply Exists_exists in L as (i & Ii & Li).
        rewrite Forall_forall in S. specialize (S i Ii). cbn in S. assert (i <> x) by congruence.
        specialize (H' [] ns (i + 1) eq_refl ltac:(lia)). cbn [app] in H'. rewrite resolve_cons in H'. cbv zeta in H'. cbn [fst] in H'.
        destruct P as [P1 P2]. assert (Q : slot N (step N ins x) (i + 1) = Some i).
        { unfold step. rewrite P1 by lia. destruct (existsb (Z.eqb x) seen) eqn:E; [apply existsb_in in E; tauto|].
          rewrite slot_cons by lia. destruct (Z.ltb_spec (i + 1) x); [lia|]. destruct (Z.eqb_spec (i + 1) x); [lia|].
          replace (i + 1 - 1) with i by lia. rewrite P1 by lia. apply existsb_in in Ii. now rewrite Ii. }
        rewrite Q in H'. injection H' as H'. lia.
  - replace x with (N - 1) in * by lia. eapply (IH (step N ins (N - 1))); eauto. now apply in_place_last.
Qed.
(** At every moment of a sequence of lookups every name denotes its own string iff the names other than
    the last one of the table are first used in increasing order. *)
Lemma right_iff N ns : 0 < N -> Forall (fun n => 0 <= n < N) ns ->
  ((forall a b n, ns = a ++ b -> 0 <= n < N -> fst (resolve N [] (a ++ [n])) = a ++ [n]) <-> increasing_first_use [] (lower N ns)).
Proof.
  intros HN F. assert (P : in_place N [] []) by (split; [intros; reflexivity|now left]). split.
  - intros H. eapply right_to; eauto.
  - intros H. eapply right_from; eauto.
Qed.
Theorem C36_iff c ns : c_nstrings c = zlen (c_strings c) -> zlen (c_strings c) < 8192 -> c_ustrings c = zrepeat None (c_nstrings c) ->
  NoDup (c_strings c) -> c_strings c <> [] -> let N := zlen (c_strings c) in
  Forall (fun n => 0 <= n < N) ns ->
  ((forall a b n, ns = a ++ b -> 0 <= n < N ->
      exists c', eats c (lookups (a ++ [n])) (flat_map enc_index (a ++ [n])) (map (fun n => nth (Z.to_nat n) (c_strings c) []) (a ++ [n])) c') <->
   increasing_first_use [] (filter (fun n => n <? N - 1) ns)).
Proof.
  intros H1 H2 H3 D NE N F. assert (HN : 0 < N). { subst N. destruct (c_strings c); [congruence|]. rewrite zlen_cons. pose proof (zlen_nonneg l). lia. }
  assert (HU : c_ustrings c = cache_list (c_strings c) (c_nstrings c) []).
  { rewrite H3. unfold cache_list. cbn [slot option_map length]. rewrite Nat.add_0_r. unfold zrepeat. generalize (Z.to_nat (c_nstrings c)) as k. clear.
    intros k. generalize 0%nat as j. induction k as [|k IH]; intros j; [reflexivity|]. cbn [seq map repeat]. f_equal. apply IH. }
  pose proof (fun l => C36_exact l [] c) as X. cbv zeta in X. fold N in X.
  assert (G : forall l, Forall (fun n => 0 <= n < N) l -> 
    eats c (lookups l) (flat_map enc_index l) (map (fun m => nth (Z.to_nat m) (c_strings c) []) (fst (resolve N [] l)))
      (set_ustrings (cache_list (c_strings c) (c_nstrings c) (snd (resolve N [] l))) c)).
  { intros l Fl. apply X; [unfold I32_MAX; lia|exact HU|]. eapply Forall_impl; [|exact Fl]. intros n Hn. cbn in Hn. lia. }
  rewrite <- (right_iff N ns HN F). split.
  - intros H a b n E Hn. destruct (H a b n E Hn) as (c' & R). 
    assert (Fa : Forall (fun n => 0 <= n < N) (a ++ [n])). { apply Forall_app. rewrite E in F. apply Forall_app in F as [Fa _]. split; auto. }
    specialize (G _ Fa). specialize (R 0 []). specialize (G 0 []). rewrite R in G. injection G as G _.
    pose proof (C36_earlier N (a ++ [n])) as E1. set (out := fst (resolve N [] (a ++ [n]))) in *. clearbody out. clear - G Fa E1 D HN.
    assert (Fo : Forall (fun n => 0 <= n < N) out).
    { apply Forall_forall. intros m I. apply In_nth_error in I as (k & K). destruct (E1 _ _ K) as (x & Kx & [->|[L I]]).
      - apply nth_error_In in Kx. rewrite Forall_forall in Fa. auto.
      - rewrite Forall_forall in Fa. apply Fa. clear - I. revert k I. generalize (a ++ [n]). induction l as [|y l IH]; intros [|k] I; cbn in *; try tauto. destruct I; [now left|right; eauto]. }
    clear E1. revert out Fo G. generalize dependent (a ++ [n]). intros l Fa. induction l as [|x l IH]; intros [|y out] Fo G; cbn [map] in G; try discriminate; [reflexivity|].
    inversion Fa; inversion Fo; subst. injection G as G1 G2. f_equal; [|now apply IH].
    pose proof (proj1 (NoDup_nth (c_strings c) ([] : str)) D) as D1. cut (Z.to_nat x = Z.to_nat y); [lia|]. unfold N, zlen in *. apply D1; try lia. exact G1.
  - intros H a b n E Hn. eexists.
    assert (Fa : Forall (fun n => 0 <= n < N) (a ++ [n])). { apply Forall_app. rewrite E in F. apply Forall_app in F as [Fa _]. split; auto. }
    specialize (G _ Fa). rewrite (H a b n E Hn) in G. exact G.
Qed.

(** Three strings: 1, 0, 1 is read right, but name 2 would have been string 1 after the second lookup;
    2, 0, 1 (the last name first) never goes wrong. *)
Example C36_iff_ex : NoDup (c_strings ex_code) /\ c_nstrings ex_code = 3 /\ zlen (c_strings ex_code) = 3 /\ c_ustrings ex_code = zrepeat None 3 /\
  fst (resolve 3 [] [1; 0; 1]) = [1; 0; 1] /\ fst (resolve 3 [] [1; 0; 2]) = [1; 0; 1] /\
  ~ increasing_first_use [] (filter (fun n => n <? 2) [1; 0; 1]) /\ increasing_first_use [] (filter (fun n => n <? 2) [2; 0; 1; 2; 0]) /\
  fst (lookups [1; 0; 2] (mk [1; 0; 2] 0 ex_code)) = Ok [[98]; [97]; [98]].
Proof.
  split; [repeat constructor; cbn; intuition discriminate|]. do 3 (split; [reflexivity|]). do 2 (split; [reflexivity|]). split; [|split].
  - cbn. intros (_ & [[H|[]]|H] & _); [discriminate|]. inversion H; lia.
  - cbn. split; [right; constructor|]. split; [right; repeat constructor|]. split; [left; tauto|exact I].
  - vm_compute. reflexivity.
Qed.
