(** Comparing types is comparing what they consist of, item by item, up to the first difference. *)
From Verif Require Import Prelude StdModel BrassTypes DecoderModel CodeGenericProofs FormatProofs PropsSize HashProofs HashCostSpec.
From Verif Require HashModel.
From Verif Require Import HashCostModel HashCostProofs.
From Coq Require Import Lia ZifyBool.

Definition item_eq_dec (a b : item) : {a = b} + {a <> b}.
Proof. repeat decide equality. Defined.
Definition one (i : item) : Z := match i with AType => 1 | _ => 0 end.
(** the types in the common prefix *)
Fixpoint upto (a b : list item) : Z :=
  match a, b with
  | x :: a, y :: b => if item_eq_dec x y then one x + upto a b else 0
  | _, _ => 0
  end.
Definition follows (p : bool * Z) (x y : list item) : Prop := forall r r', upto (x ++ r) (y ++ r') = snd p + if fst p then upto r r' else 0.
Lemma fo_nil : follows (pure true) [] []. Proof. intros r r'. reflexivity. Qed.
Lemma fo_and p q x y x' y' : follows p x y -> follows q x' y' -> follows (p &&& q) (x ++ x') (y ++ y').
Proof. intros H I r r'. rewrite <- !app_assoc, H, I. unfold andc. destruct (fst p); cbn [fst snd]; lia. Qed.
Lemma fo_item b i j : i <> AType -> (b = true <-> i = j) -> follows (pure b) [i] [j].
Proof.
  intros N H r r'. cbn [app upto pure fst snd]. destruct (item_eq_dec i j) as [E|E].
  - assert (b = true) as -> by tauto. destruct i; cbn [one]; try lia. congruence.
  - destruct b; [tauto|lia].
Qed.
Lemma fo_type : follows (true, 1) [AType] [AType].
Proof. intros r r'. cbn [app upto fst snd]. destruct (item_eq_dec AType AType); [reflexivity|congruence]. Qed.
Lemma fo_list {A} (eqc : A -> A -> bool * Z) (fl : A -> list item) : forall a b, (forall x y, In x a -> follows (eqc x y) (fl x) (fl y)) ->
  follows (list_eqc eqc a b) (ALen (zlen a) :: flat_map fl a) (ALen (zlen b) :: flat_map fl b).
Proof.
  intros a b H. unfold list_eqc. destruct (Z.eqb_spec (zlen a) (zlen b)) as [L|L].
  - rewrite L. intros r r'. cbn [app upto]. destruct (item_eq_dec (ALen (zlen b)) (ALen (zlen b))) as [_|]; [|congruence]. cbn [one]. rewrite Z.add_0_l. revert r r'.
    change (follows ((fix go (a0 b0 : list A) {struct a0} : bool * Z := match a0 with [] => pure true | x :: a' => match b0 with [] => pure true | y :: b' => eqc x y &&& go a' b' end end) a b) (flat_map fl a) (flat_map fl b)).
    revert b L. induction a as [|x a IH]; intros [|y b] L; try (rewrite ?zlen_cons in L; change (zlen (@nil A)) with 0 in L; pose proof (zlen_nonneg a); lia); try (rewrite ?zlen_cons in L; change (zlen (@nil A)) with 0 in L; pose proof (zlen_nonneg b); lia); [apply fo_nil|].
    cbn [flat_map]. apply fo_and; [apply H; now left|]. apply IH; [intros; apply H; now right|]. rewrite !zlen_cons in L. lia.
  - intros r r'. cbn [app upto pure fst snd]. destruct (item_eq_dec (ALen (zlen a)) (ALen (zlen b))) as [E|_]; [congruence|reflexivity].
Qed.
Lemma fo_bad i j x y : i <> j -> follows (pure false) (i :: x) (j :: y).
Proof. intros N r r'. cbn [app upto pure fst snd]. destruct (item_eq_dec i j); [congruence|reflexivity]. Qed.
Lemma fo_skip p i x y : i <> AType -> follows p x y -> follows p (i :: x) (i :: y).
Proof. intros N H r r'. cbn [app upto]. destruct (item_eq_dec i i); [|congruence]. rewrite H. destruct i; cbn [one]; try lia. congruence. Qed.
Lemma fo_to p x y x' y' : follows p x y -> x = x' -> y = y' -> follows p x' y'. Proof. now intros H <- <-. Qed.
Lemma n_eq a b : (a =? b) = true <-> ANum a = ANum b. Proof. rewrite Z.eqb_eq. split; congruence. Qed.
Lemma s_eq a b : HashModel.str_eqb a b = true <-> AStr a = AStr b. Proof. rewrite str_eqb_eq. split; congruence. Qed.
Lemma ns_eq a b : HashModel.list_eqb Z.eqb a b = true <-> ANums a = ANums b. Proof. rewrite zlist_eqb_eq. split; congruence. Qed.
Lemma ps_eq a b : HashModel.list_eqb HashModel.proto_eqb a b = true <-> AProtos a = AProtos b. Proof. rewrite list_eqb_eq by (intros; apply proto_eqb_eq). split; congruence. Qed.
Lemma rt_eq a b : HashModel.option_eqb HashModel.unit_eqb a b = true <-> ARt a = ARt b. Proof. rewrite option_eqb_eq by (intros [] []; cbn; tauto). split; congruence. Qed.
Lemma nm_eq a b : HashModel.option_eqb HashModel.str_eqb a b = true <-> AName a = AName b. Proof. rewrite option_eqb_eq by (intros; apply str_eqb_eq). split; congruence. Qed.
Lemma b_eq a b : Bool.eqb a b = true <-> ABool a = ABool b. Proof. rewrite Bool.eqb_true_iff. split; congruence. Qed.
Lemma fo_item' b i j : (b = true <-> i = j) -> i <> AType -> follows (pure b) [i] [j]. Proof. intros. now apply fo_item. Qed.
Ltac fl := cbn [app]; repeat (rewrite <- app_assoc; cbn [app]); reflexivity.
Ltac item := eapply fo_item'; [match goal with |- (?f = true <-> _) => lazymatch f with (_ =? _) => apply n_eq | HashModel.str_eqb _ _ => apply s_eq | HashModel.list_eqb Z.eqb _ _ => apply ns_eq | HashModel.list_eqb HashModel.proto_eqb _ _ => apply ps_eq | HashModel.option_eqb HashModel.unit_eqb _ _ => apply rt_eq | HashModel.option_eqb HashModel.str_eqb _ _ => apply nm_eq | Bool.eqb _ _ => apply b_eq end end|discriminate].
Definition flat_field (f : obj_field vtype) : list item := match f with mkField x h t => AStr x :: ANum h :: flat t end.
Definition flat_con (c : enum_construct vtype) : list item :=
  match c with mkCon x np ps sz hp os => AStr x :: ANum np :: ALen (zlen ps) :: flat_map flat ps ++ [ANum sz; ABool hp; ANums os] end.
Lemma fo_vt a b : follows (vt_eqc a b) (flat a) (flat b).
Proof.
  enough (H : forall n a b, (vt_size a < n)%nat -> follows (vt_eqc a b) (flat a) (flat b)) by (apply (H (S (vt_size a))); lia).
  clear a b. induction n as [|n IH]; intros a b Hn; [lia|]. destruct a as [u nm p k], b as [u' nm' p' k']. cbn [vt_size] in Hn. cbn [vt_eqc flat].
  assert (FF : forall x y, (vt_size (fd_t x) < n)%nat -> follows (field_eqc vt_eqc x y) (flat_field x) (flat_field y)).
  { intros [a h t] [a' h' t'] L. cbn [field_eqc flat_field fd_t] in *. eapply fo_to; [apply fo_and; [apply fo_and; item|apply IH; exact L]|reflexivity|reflexivity]. }
  assert (FC : forall x y, (forall t, In t (ec_params x) -> (vt_size t < n)%nat) -> follows (construct_eqc vt_eqc x y) (flat_con x) (flat_con y)).
  { intros [a np ps sz hp os] [a' np' ps' sz' hp' os'] L. cbn [construct_eqc flat_con ec_params] in *.
    eapply fo_to; [apply fo_and; [apply fo_and; [apply fo_and; [apply fo_and; [apply fo_and; item|apply (fo_list vt_eqc flat); intros; apply IH; auto]|item]|item]|item]| |]; fl. }
  set (fu := fun u : vtu vtype => match u with
       | FuncType args m r => AVariant 0 :: ALen (zlen args) :: flat_map flat args ++ ANum m :: flat r
       | ObjType name s fs nf np nb ps bs gs rt => AVariant 1 :: AStr name :: flat s ++ ALen (zlen fs) :: flat_map flat_field fs ++ [ANum nf; ANum np; ANum nb; AProtos ps; ANums bs; ANums gs; ARt rt]
       | VirtualType nf fs => AVariant 2 :: ANum nf :: ALen (zlen fs) :: flat_map flat_field fs
       | EnumType name nc cs gs => AVariant 3 :: AStr name :: ANum nc :: ALen (zlen cs) :: flat_map flat_con cs ++ [ANums gs]
       | URef t => AVariant 4 :: flat t
       | UAbstract x => [AVariant 5; AStr x]
       | UNull => [AVariant 6]
       | UVoid => [AVariant 7]
       end).
  assert (Hu : follows (vtu_eqc vt_eqc u u') (fu u) (fu u')).
  { destruct u, u'; cbn [vtu_eqc]; unfold fu; try (apply fo_bad; discriminate); apply fo_skip; try discriminate; try apply fo_nil.
    - eapply fo_to; [apply fo_and; [apply fo_and; [apply (fo_list vt_eqc flat)|item]|apply IH]| |].
      + intros x y Hx. apply IH. pose proof (fold_size_in vt_size args (vt_size ret) x Hx). lia.
      + assert (forall l, (vt_size ret <= fold_right (fun x n => vt_size x + n)%nat (vt_size ret) l)%nat) by (induction l; cbn; lia). specialize (H args). lia.
      + fl.
      + fl.
    - eapply fo_to; [apply fo_and; [apply fo_and; [apply fo_and; [apply fo_and; [apply fo_and; [apply fo_and; [apply fo_and; [apply fo_and; [apply fo_and; [item|apply IH]|apply (fo_list _ flat_field)]|item]|item]|item]|item]|item]|item]|item]| |].
      + assert (forall l, (vt_size super_type <= fold_right (fun (f : obj_field vtype) n => (match f with mkField _ _ x => vt_size x end) + n)%nat (vt_size super_type) l)%nat) by (induction l; cbn; lia). specialize (H fields). lia.
      + intros x y Hx. apply FF. destruct x as [n1 h1 t1]. cbn [fd_t].
        pose proof (fold_size_in (fun f : obj_field vtype => match f with mkField _ _ x => vt_size x end) fields (vt_size super_type) _ Hx) as H. cbn in H. lia.
      + fl.
      + fl.
    - eapply fo_to; [apply fo_and; [item|apply (fo_list _ flat_field)]|reflexivity|reflexivity].
      intros x y Hx. apply FF. destruct x as [n1 h1 t1]. cbn [fd_t].
      pose proof (fold_size_in (fun f : obj_field vtype => match f with mkField _ _ x => vt_size x end) fields 0%nat _ Hx) as H. cbn in H. lia.
    - eapply fo_to; [apply fo_and; [apply fo_and; [apply fo_and; item|apply (fo_list _ flat_con)]|item]|fl|fl].
      intros x y Hx. apply FC. intros t Ht. destruct x as [n1 np1 ps1 sz1 hp1 os1]. cbn [ec_params] in Ht.
      pose proof (fold_size_in (fun c : enum_construct vtype => match c with mkCon _ _ ps _ _ _ => fold_right (fun x n => vt_size x + n)%nat 0%nat ps end) constructs 0%nat _ Hx) as H. cbn in H.
      pose proof (fold_size_in vt_size ps1 0%nat t Ht). lia.
    - apply IH. lia.
    - item. }
  assert (Hp : follows (option_eqc vt_eqc p p') (match p with Some q => AHas true :: flat q | None => [AHas false] end) (match p' with Some q => AHas true :: flat q | None => [AHas false] end)).
  { destruct p as [q|], p' as [q'|]; cbn [option_eqc].
    - apply fo_skip; [discriminate|]. apply IH. lia.
    - apply fo_bad. discriminate.
    - apply fo_bad. discriminate.
    - apply fo_skip; [discriminate|]. apply fo_nil. }
  eapply fo_to; [apply fo_and; [apply fo_and; [apply fo_and; [apply fo_and; [apply fo_type|exact Hu]|item]|exact Hp]|item]| |].
  - fl.
  - fl.
Qed.
Lemma upto_split l : forall x y, hd_error x <> hd_error y \/ (x = [] /\ y = []) -> upto (l ++ x) (l ++ y) = types_in l.
Proof.
  induction l as [|i l IH]; intros x y H; cbn [app upto].
  - change (types_in []) with 0. destruct x as [|a x], y as [|b y]; try reflexivity. cbn [upto]. destruct (item_eq_dec a b) as [->|]; [|reflexivity]. destruct H as [H|[H _]]; [now destruct H|discriminate].
  - destruct (item_eq_dec i i); [|congruence]. rewrite IH by exact H. unfold types_in. destruct i; cbn [filter one]; rewrite ?zlen_cons; lia.
Qed.
(** the cost of comparing *)
Lemma compare_prefix a b l x y : flat a = l ++ x -> flat b = l ++ y -> hd_error x <> hd_error y \/ (x = [] /\ y = []) -> snd (vt_eqc a b) = types_in l.
Proof.
  intros Ea Eb H. pose proof (fo_vt a b [] []) as F. rewrite !app_nil_r, Ea, Eb, (upto_split l x y H) in F. destruct (fst (vt_eqc a b)); cbn [upto] in F; lia.
Qed.
Lemma compare_split a b : exists l x y, flat a = l ++ x /\ flat b = l ++ y /\ (hd_error x <> hd_error y \/ (x = [] /\ y = [])).
Proof.
  generalize (flat a) (flat b). induction l as [|i l IH]; intros [|j m].
  - exists [], [], []. auto.
  - exists [], [], (j :: m). repeat split. left. discriminate.
  - exists [], (i :: l), []. repeat split. left. discriminate.
  - destruct (item_eq_dec i j) as [->|N].
    + destruct (IH m) as (p & x & y & -> & -> & H). exists (j :: p), x, y. auto.
    + exists [], (i :: l), (j :: m). repeat split. left. cbn. congruence.
Qed.
Lemma flat_values t : types_in (flat t) = values t.
Proof. rewrite <- (vt_eqc_same t). symmetry. apply (compare_prefix t t (flat t) [] []); rewrite ?app_nil_r; auto. Qed.
(** different types differ in an item *)
Lemma flat_differ a b : a <> b -> exists l i x j y, flat a = l ++ i :: x /\ flat b = l ++ j :: y /\ i <> j.
Proof.
  intros N. destruct (compare_split a b) as (l & x & y & Ea & Eb & H).
  assert (F : fst (vt_eqc a b) = false). { rewrite vt_eqc_ok. destruct (HashModel.vt_eqb a b) eqn:E; [now apply vt_eqb_eq in E|reflexivity]. }
  (* following items do not matter *)
  pose proof (fo_vt a b) as P. unfold follows in P. rewrite F in P. 
  assert (K : forall r r', upto (x ++ r) (y ++ r') = upto x y).
  { intros r r'. pose proof (P r r') as P1. pose proof (P [] []) as P2. rewrite !app_nil_r in P2. rewrite Ea, Eb in P1, P2. rewrite <- !app_assoc in P1.
    assert (C : forall l u v, upto (l ++ u) (l ++ v) = types_in l + upto u v).
    { clear. induction l as [|i l IH]; intros u v; [reflexivity|]. cbn [app upto]. destruct (item_eq_dec i i); [|congruence]. rewrite IH. unfold types_in. destruct i; cbn [filter one]; rewrite ?zlen_cons; lia. }
    rewrite C in P1, P2. lia. }
  destruct x as [|i x], y as [|j y].
  - specialize (K [AType] [AType]). cbn in K. discriminate.
  - exfalso. specialize (K ([j] ++ y ++ [AType]) [AType]). cbn [app upto] in K. 
    assert (Z : forall y, 1 <= upto (y ++ [AType]) (y ++ [AType])). { clear. induction y as [|i y IH]; cbn [app upto]; [destruct (item_eq_dec AType AType); [cbn; lia|congruence]|]. destruct (item_eq_dec i i); [|congruence]. destruct i; cbn [one]; lia. }
    destruct (item_eq_dec j j); [|congruence]. specialize (Z y). destruct j; cbn [one] in K; lia.
  - exfalso. specialize (K [AType] ([i] ++ x ++ [AType])). cbn [app upto] in K. 
    assert (Z : forall y, 1 <= upto (y ++ [AType]) (y ++ [AType])). { clear. induction y as [|i y IH]; cbn [app upto]; [destruct (item_eq_dec AType AType); [cbn; lia|congruence]|]. destruct (item_eq_dec i i); [|congruence]. destruct i; cbn [one]; lia. }
    destruct (item_eq_dec i i); [|congruence]. specialize (Z x). destruct i; cbn [one] in K; lia.
  - exists l, i, x, j, y. repeat split; auto. destruct H as [H|[H _]]; [|discriminate]. cbn in H. congruence.
Qed.
