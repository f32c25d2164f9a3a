(** Property C109: font info that can be written to UFO 3 can be written to an
    older UFO, and what the older UFO knows of it is read again as it was. *)
From Coq Require Import QArith Qabs Qround Lqa.
From Coq Require Import String NArith ZArith Bool Lia List Permutation.
From Coq.Floats Require Import SpecFloat.
From Verif Require Import Base PyVal PyText FloatRepr Xml FS Ufo UfoProofs PropUfo PropUfoFiles Plist PlistProofs PropPlist Etree EtreeProofs PropEtree PlistFiles PropSession Validators ValidatorsProofs PropValidators FontInfoTables FontInfo FontInfoProofs PropFontInfo PropFontInfoTypes PropFontInfoAccepts PropFontInfo2 PropInfoUpgrade InfoFile PropInfoFile.
Import ListNotations.
Local Open Scope string_scope.
Local Open Scope list_scope.

(** [info'] has the attributes of [names] that are set in [info], each with a
    value that is the [same], and no others *)
Definition kept (names : list str) (same : pyval -> pyval -> Prop) (info info' : infoT) : Prop :=
  (forall a v, In a names -> setTo info a v -> exists w, get a info' = Some w /\ same v w) /\
  (forall a w, get a info' = Some w -> In a names /\ exists v, setTo info a v /\ same v w).
(** equal in Python: a whole number may come back as an int *)
Definition equalTo (v w : pyval) : Prop := w = v \/ exists z, isWhole v z /\ w = PInt z.
(** the three that UFO 3 takes as any number and that are rounded *)
Definition wholeMetrics (info : infoT) : Prop := forall a v, In a nonNegativeIn3 -> setTo info a v -> exists z, isWhole v z.

(** ** The tables *)
Fixpoint list_beq {A} (f : A -> A -> bool) (l m : list A) : bool :=
  match l, m with [], [] => true | x :: l, y :: m => f x y && list_beq f l m | _, _ => false end.
Definition weaker (s2 : shape2) (s3 : shape) : bool :=
  match s2, s3 with
  | As3 Text, Text | As3 Integer, Integer | As3 Integer, NonNegative | As3 NonNegative, NonNegative
  | As3 Number, Number | As3 Number, Integer | As3 Number, NonNegative | As3 Number, NonNegativeNumber
  | As3 Boolean, Boolean | As3 DateTime, DateTime | As3 CharSet, CharSet | As3 FamilyClass, FamilyClass
  | TenIntegers, Panose => true
  | As3 (OneOf l), OneOf l' => list_beq String.eqb l l'
  | As3 (IntsFrom l), IntsFrom l' => list_beq Z.eqb l l'
  | As3 (Between a b), Between a' b' => (a =? a')%Z && (b =? b')%Z
  | As3 (Numbers n e), Numbers n' e' => Nat.eqb n n' && Bool.eqb e e'
  | _, _ => false
  end.
Lemma list_beq_eq {A} (f : A -> A -> bool) : (forall x y, f x y = true -> x = y) -> forall l m, list_beq f l m = true -> l = m.
Proof.
  intros H. induction l as [|x l IH]; intros [|y m] E; cbn in E; try discriminate; [reflexivity|]. apply andb_true_iff in E as (E1 & E2).
  rewrite (H _ _ E1), (IH _ E2). reflexivity.
Qed.
Lemma int_num v z : intOf v z -> isNum v.
Proof. intros [->|(b & -> & _)]; unfold isNum; eauto. Qed.
Lemma weaker_ok T s2 s3 v : weaker s2 s3 = true -> exactly3 T s3 v -> exactly2 T s2 v.
Proof.
  intros W X. destruct s2 as [s|].
  - destruct s, s3; try discriminate W; cbn [exactly2]; try exact X; cbn [exactly3 exactly ofShape] in *.
    + destruct X as (z & X & _). eauto.
    + destruct X as (z & X). exact (int_num _ _ X).
    + destruct X as (z & X & _). exact (int_num _ _ X).
    + exact (proj1 X).
    + cbn [weaker] in W. apply andb_true_iff in W as (W1 & W2). apply Z.eqb_eq in W1, W2. subst. exact X.
    + cbn [weaker] in W. apply list_beq_eq in W; [subst; exact X|]. intros x y. apply String.eqb_eq.
    + cbn [weaker] in W. apply list_beq_eq in W; [subst; exact X|]. intros x y. apply Z.eqb_eq.
    + cbn [weaker] in W. apply andb_true_iff in W as (W1 & W2). apply Nat.eqb_eq in W1. apply Bool.eqb_prop in W2. subst. exact X.
  - destruct s3; try discriminate W. cbn [exactly2 exactly3 exactly ofShape] in *. destruct X as (xs & S & L & H). exists xs. split; [exact S|]. split; [exact L|].
    intros x I. destruct (H x I) as (z & Hz & _). eauto.
Qed.
Lemma tables_fit : forallb (fun e => match shapeOf (u (fst e)) with Some s3 => weaker (snd e) s3 | None => false end) documented2 = true.
Proof. vm_compute. reflexivity. Qed.
Lemma shapeOf_In a sh : shapeOf a = Some sh -> exists name, a = u name /\ In (name, sh) documented.
Proof.
  unfold shapeOf. destruct (List.find _ documented) as [[n s]|] eqn:F; [|discriminate]. cbn [option_map snd]. intro E. injection E as <-.
  apply find_some in F as (F & E). cbn [fst] in E. apply (proj1 (eqb_eq _ _)) in E. exists n. auto.
Qed.
Lemma fits_older T info : fits3 T info -> fits2 T info.
Proof.
  intros F name sh v I S. pose proof tables_fit as A. rewrite forallb_forall in A. specialize (A _ I). cbn [fst snd] in A.
  destruct (shapeOf (u name)) as [s3|] eqn:E; [|discriminate]. apply shapeOf_In in E as (n & E & J). apply (weaker_ok T sh s3 v A). rewrite E in S. exact (F n s3 v J S).
Qed.

(** ** Numbers *)
Lemma whole_lt v z : isWhole v z -> num_lt v (PInt 0) = false -> (0 <= z)%Z.
Proof.
  intros W L. apply eq_whole in W. cbn [py_eq] in W. revert W L. unfold num_eq, num_lt, num_cmp.
  destruct (num v) as [e|] eqn:E; [|cbn; discriminate]. cbn [num]. destruct e as [m e| | |]; cbn [ext_compare]; try discriminate.
  cbv zeta. rewrite (Z.min_comm 0 e). set (a := (2 ^ (0 - Z.min e 0))%Z). set (b := (2 ^ (e - Z.min e 0))%Z). intros H L.
  assert (0 < a)%Z by (apply Z.pow_pos_nonneg; lia).
  destruct (Z.compare_spec (z * a) (m * b)) as [Q| |]; try discriminate. rewrite <- Q in L. rewrite Z.mul_0_l in L. destruct (Z.compare_spec (z * a) 0); try discriminate; nia.
Qed.
Lemma int_whole v z : intOf v z -> isWhole v z.
Proof. intros [->|(b & -> & ->)]; eexists; split; reflexivity. Qed.
Lemma exactly_whole T sh v z : sh <> Boolean -> exactly3 T sh v -> isWhole v z -> exactly3 T sh (PInt z).
Proof.
  intros NB X W.
  assert (NS : forall s, v <> PStr s) by (intros s ->; destruct W as (q & C & _); discriminate).
  assert (NL : forall l, v <> PList l) by (intros l ->; destruct W as (q & C & _); discriminate).
  assert (NT : forall l, v <> PTuple l) by (intros l ->; destruct W as (q & C & _); discriminate).
  assert (ND : forall l, v <> PDict l) by (intros l ->; destruct W as (q & C & _); discriminate).
  assert (NSeq : forall l, ~ seqOf v l) by (intros l [C|C]; [exact (NL _ C)|exact (NT _ C)]).
  destruct sh; cbn [exactly3 exactly ofShape] in *.
  - destruct X as (s & X). destruct (NS _ X).
  - exists z. left. reflexivity.
  - destruct X as (z' & X & L). apply int_whole in X. rewrite <- (isWhole_unique _ _ _ X W). exists z'. split; [left; reflexivity|exact L].
  - left. eauto.
  - destruct X as (_ & L). split; [left; eauto|]. rewrite num_lt_int. apply Z.ltb_ge. exact (whole_lt v z W L).
  - congruence.
  - destruct X as (s & X & _). destruct (NS _ X).
  - destruct X as (s & X & _). destruct (NL _ X).
  - destruct X as (s & p & X & _). destruct (NL _ X).
  - destruct X as (z' & X & L). apply int_whole in X. rewrite <- (isWhole_unique _ _ _ X W). exists z'. split; [left; reflexivity|exact L].
  - destruct X as (s & _ & X). destruct (NS _ X).
  - destruct X as (z' & L & X). exists z'. split; [exact L|]. assert (isWhole v z') as W' by (apply eq_whole; rewrite <- eq_sym_num; destruct v; exact X || discriminate X).
    rewrite (isWhole_unique _ _ _ W W'). unfold num_eq, num_cmp. cbn [num ext_compare]. rewrite Z.compare_refl. reflexivity.
  - destruct X as (xs & X & _). destruct (NSeq _ X).
  - destruct X as (xs & X & _). destruct (NSeq _ X).
  - destruct X as (xs & X & _). destruct (NSeq _ X).
  - destruct X as (a & b & x & y & X & _). destruct (NSeq _ X).
  - destruct X as (xs & X & _). destruct (NL _ X).
  - destruct X as (xs & X & _). destruct (ND _ X).
Qed.

(** ** Reading *)
Lemma readInfo_checked T perm ver d : readInfo T perm ver true (asDict d) = do info <- readInfo T perm ver false (asDict d); validateInfoVersion3Data T info.
Proof.
  unfold readInfo. cbn [asDict is_dict negb andb].
  destruct (if (ver =? 1)%Z then _ else _) as [x|e]; reflexivity.
Qed.
Definition exactNumber (a : str) (x : pyval) : Prop := numberIn3 a -> exists z, isWhole x z /\ (~ In a integerIn3 -> (0 <= z)%Z).
Lemma upgraded_same a v w : exactNumber a v -> (upgradedTo a v w <-> w = v).
Proof.
  intro E. unfold upgradedTo. split.
  - intros (H1 & H2 & H3 & H4). destruct (in_dec (list_eq_dec N.eq_dec) a integerIn3) as [I1|I1]; [|destruct (in_dec (list_eq_dec N.eq_dec) a nonNegativeIn3) as [I2|I2]; [|destruct (list_eq_dec N.eq_dec a (u "versionMinor")) as [I3|I3]]].
    + destruct (E (or_introl I1)) as (z & W & _). destruct (H1 I1) as (q & z' & A & Nq & K). destruct W as (q' & A' & W). rewrite A in A'. injection A' as <-.
      assert (z' = z) as -> by (apply (nearest_unique q); [exact Nq|unfold nearest; rewrite W; apply nearest_whole]).
      destruct K as [(_ & K)|(K & _)]; [exact K|destruct K; exists q; auto].
    + destruct (E (or_intror (or_introl I2))) as (z & W & L). specialize (L I1). destruct (H2 I2) as (q & z' & A & Nq & K). destruct W as (q' & A' & W). rewrite A in A'. injection A' as <-.
      assert (z' = z) as -> by (apply (nearest_unique q); [exact Nq|unfold nearest; rewrite W; apply nearest_whole]).
      rewrite Z.abs_eq in K by exact L. destruct K as [(_ & K)|(K & _)]; [exact K|destruct K; exists q; auto].
    + destruct (E (or_intror (or_intror I3))) as (z & W & L). specialize (L I1). destruct (H3 I3) as (q & z' & A & B1 & B2 & K). destruct W as (q' & A' & W). rewrite A in A'. injection A' as <-.
      assert (Qa : (Qabs q == inject_Z z)%Q) by (rewrite W; rewrite Qabs_pos; [reflexivity|change 0%Q with (inject_Z 0); rewrite <- Zle_Qle; exact L]).
      rewrite Qa in B1, B2. rewrite <- Zle_Qle in B1. rewrite <- Zlt_Qlt in B2. assert (z' = z) as -> by lia.
      destruct K as [(_ & K)|(K & _)]; [exact K|destruct K; exists q; auto].
    + exact (H4 I1 I2 I3).
  - intros ->. assert (KW : forall z, isWhole v z -> keptOr v z v) by (intros z W; left; auto). split; [|split; [|split]].
    + intro I. destruct (E (or_introl I)) as (z & W & _). pose proof W as (q & A & Q). exists q, z. split; [exact A|]. split; [unfold nearest; rewrite Q; apply nearest_whole|auto].
    + intro I. destruct (E (or_intror (or_introl I))) as (z & W & L). pose proof W as (q & A & Q). exists q, z. split; [exact A|]. split; [unfold nearest; rewrite Q; apply nearest_whole|].
      rewrite Z.abs_eq; [auto|]. apply L. intro J. assert (D : forallb (fun x => negb (mem x integerIn3)) nonNegativeIn3 = true) by (vm_compute; reflexivity).
      rewrite forallb_forall in D. apply D in I. apply mem_In in J. rewrite J in I. discriminate.
    + intro I. destruct (E (or_intror (or_intror I))) as (z & W & L). pose proof W as (q & A & Q). assert (L0 : (0 <= z)%Z).
      { apply L. intro J. assert (D : mem (u "versionMinor") integerIn3 = false) by (vm_compute; reflexivity). rewrite I in J. apply mem_In in J. congruence. }
      exists q, z. split; [exact A|]. assert (Qa : (Qabs q == inject_Z z)%Q) by (rewrite Q; rewrite Qabs_pos; [reflexivity|change 0%Q with (inject_Z 0); rewrite <- Zle_Qle; exact L0]).
      rewrite Qa, <- Zle_Qle, <- Zlt_Qlt. split; [lia|]. split; [lia|auto].
    + reflexivity.
Qed.
Lemma not_amount a v e : exactNumber a v -> numberIn3 a -> ~ notAmount v e.
Proof.
  intros E K A. destruct (E K) as (z & (q & Q & _) & _). unfold notAmount in A. destruct v as [| | |f| | | | | | |]; try (destruct A as (A & _); congruence).
  destruct f; try (destruct A as (A & _); congruence). discriminate Q.
Qed.
(** the dictionary of a UFO 2 *)
Definition readable2 (T : pytext) (d : infoT) : Prop :=
  forall a x, get a d = Some x -> In a namesIn2 /\ x <> PNone /\ valid3 T a x /\ exactNumber a x.
Lemma info_keys T perm ver d info : readInfo T perm ver false (asDict d) = Ok info -> ver = 1%Z \/ ver = 2%Z -> NoDup (keys info).
Proof.
  intros H [->| ->].
  - apply readInfo_1 in H as (d2 & _ & H). exact (conv23_dict _ [] _ (NoDup_nil _) H).
  - apply readInfo_2 in H. exact (conv23_dict _ [] _ (NoDup_nil _) H).
Qed.
Lemma read_2 T perm d : readable2 T d -> exists info, readInfo T perm 2 true (asDict d) = Ok info /\ forall a x, get a info = Some x <-> get a d = Some x.
Proof.
  intro F. destruct (readInfo T perm 2 false (asDict d)) as [info|e] eqn:R.
  - assert (G : forall a x, get a info = Some x <-> get a d = Some x).
    { intros a x. rewrite (C99_from_version_2 T perm false d info R a x). split.
      - intros (I & v & Gv & _ & U). apply upgraded_same in U; [subst; exact Gv|]. apply (F a v Gv).
      - intro Gx. destruct (F a x Gx) as (I & Nx & _ & E). split; [exact I|]. exists x. split; [exact Gx|]. split; [exact Nx|]. apply upgraded_same; [exact E|reflexivity]. }
    exists info. split; [|exact G]. rewrite readInfo_checked, R. cbn [bind]. assert (NK : NoDup (keys info)) by (apply (info_keys T perm 2 d); auto).
    apply validate_3_ok; [exact NK|]. apply Forall_forall. intros [a x] I. cbn [fst snd]. apply In_get in I; [|exact NK]. apply G in I. apply (F a x I).
  - exfalso. apply C99_from_version_2_refused in R as (a & v & I & Gv & Nv & K & A). destruct (F a v Gv) as (_ & _ & _ & E). exact (not_amount a v e E K A).
Qed.
(** ** Files *)
Lemma psame_keys d : forall e, Forall2 (fun a b : pyval * pyval => fst a = fst b /\ psame (snd a) (snd b)) (map (fun kv : str * pyval => (PStr (fst kv), snd kv)) d) e ->
  exists d', e = map (fun kv : str * pyval => (PStr (fst kv), snd kv)) d' /\ Forall2 (fun a b : str * pyval => fst a = fst b /\ psame (snd a) (snd b)) d d'.
Proof.
  induction d as [|[k v] d IH]; intros e H; inversion H as [|x y l m (E & S) R Q1 Q2]; subst; [exists []; split; [reflexivity|constructor]|].
  destruct (IH _ R) as (d' & -> & R'). destruct y as [k' v']. cbn [fst snd] in *. subst k'. exists ((k, v') :: d'). split; [reflexivity|]. constructor; [split; [reflexivity|exact S]|exact R'].
Qed.
Lemma psame_dict d w : dict_ok d -> psame (asDict d) w -> exists e, w = asDict e /\ dict_ok e /\
  (forall a x, get a e = Some x -> exists v, get a d = Some v /\ psame v x) /\ (forall a v, get a d = Some v -> exists x, get a e = Some x /\ psame v x).
Proof.
  intros D S. unfold asDict in S. inversion S as [| | |d0 e e' P F Q1 Q2]; subst; [discriminate|]. apply psame_keys in F as (d' & -> & F).
  apply Permutation_map_inv in P as (l & -> & P) || (apply Permutation_sym in P; apply Permutation_map_inv in P as (l & -> & P)).
  assert (K : keys d' = keys d).
  { clear -F. induction F as [|x y l m (E & _) _ IH]; [reflexivity|]. cbn [keys map]. unfold keys in IH. rewrite IH, E. reflexivity. }
  assert (D' : dict_ok d') by (unfold dict_ok in *; rewrite K; exact D).
  assert (Dl : dict_ok l) by (unfold dict_ok in *; apply (Permutation_NoDup (l := keys d')); [apply Permutation_map; exact P|exact D']).
  exists l. split; [reflexivity|]. split; [exact Dl|]. split.
  - intros a x G. apply get_In in G. apply (Permutation_in _ (Permutation_sym P)) in G. revert G. clear -F D. intro I.
    assert (exists v, In (a, v) d /\ psame v x) as (v & Iv & Sv).
    { induction F as [|[k1 v1] [k2 v2] l m (E & Sx) _ IH]; [destruct I|]. cbn [fst snd] in *. subst k2. destruct I as [I|I].
      - injection I as -> ->. exists v1. split; [left; reflexivity|exact Sx].
      - destruct IH as (v & Iv & Sv); [inversion D; assumption|exact I|]. exists v. split; [right; exact Iv|exact Sv]. }
    exists v. split; [apply In_get; assumption|exact Sv].
  - intros a v G. apply get_In in G.
    assert (exists x, In (a, x) d' /\ psame v x) as (x & Ix & Sx).
    { clear -F G. induction F as [|[k1 v1] [k2 v2] l m (E & Sx) _ IH]; [destruct G|]. cbn [fst snd] in *. subst k2. destruct G as [I|I].
      - injection I as -> ->. exists v2. split; [left; reflexivity|exact Sx].
      - destruct (IH I) as (x & Ix & Sx'). exists x. split; [right; exact Ix|exact Sx']. }
    exists x. split; [|exact Sx]. apply In_get; [exact Dl|]. exact (Permutation_in _ P Ix).
Qed.
Lemma names2_text a : In a namesIn2 -> textOk a.
Proof.
  assert (F : forallb (fun a => mem a (fontInfoAttributesVersion3 asciiText)) namesIn2 = true) by (vm_compute; reflexivity).
  rewrite forallb_forall in F. intro I. apply (attrs_text asciiText). apply mem_In. exact (F a I).
Qed.
Lemma names1_text a1 a : In (a1, a) namesIn1 -> textOk a1.
Proof.
  assert (F : forallb (fun e : str * str => forallb (fun c => (c =? 10) || ((32 <=? c) && (c <? 128)))%N (fst e)) namesIn1 = true) by (vm_compute; reflexivity).
  intro I. rewrite forallb_forall in F. apply text_check. exact (F _ I).
Qed.
Lemma number_shape a : numberIn3 a -> exists sh, shapeOf a = Some sh /\ (sh = Integer \/ sh = NonNegative /\ ~ In a nonNegativeIn3 \/ sh = NonNegativeNumber /\ In a nonNegativeIn3).
Proof.
  assert (F1 : forallb (fun a => match shapeOf a with Some Integer => true | _ => false end) integerIn3 = true) by (vm_compute; reflexivity).
  assert (F2 : forallb (fun a => match shapeOf a with Some NonNegativeNumber => true | _ => false end) nonNegativeIn3 = true) by (vm_compute; reflexivity).
  rewrite forallb_forall in F1, F2. intros [I|[I| ->]].
  - apply F1 in I. destruct (shapeOf a) as [[]|]; try discriminate. eauto.
  - pose proof (F2 _ I) as J. destruct (shapeOf a) as [[]|]; try discriminate. eauto 6.
  - exists NonNegative. split; [vm_compute; reflexivity|]. right. left. split; [reflexivity|]. intro C. apply mem_In in C. vm_compute in C. discriminate.
Qed.
Lemma fits_at T info a v sh : fits3 T info -> setTo info a v -> shapeOf a = Some sh -> exactly3 T sh v.
Proof. intros F S E. apply shapeOf_In in E as (n & -> & J). exact (F n sh v J S). Qed.
Lemma exact_number T info a v : fits3 T info -> wholeMetrics info \/ ~ In a nonNegativeIn3 -> setTo info a v -> exactNumber a v.
Proof.
  intros F WM S K. destruct (number_shape a K) as (sh & E & C). pose proof (fits_at T info a v sh F S E) as X.
  destruct C as [->|[(-> & N)|(-> & I)]]; cbn [exactly3 exactly ofShape] in X.
  - destruct X as (z & X). exists z. split; [exact (int_whole _ _ X)|]. intro NI. exfalso. destruct K as [I|[I| ->]]; [exact (NI I)| |].
    + assert (F2 : forallb (fun a => match shapeOf a with Some NonNegativeNumber => true | _ => false end) nonNegativeIn3 = true) by (vm_compute; reflexivity).
      rewrite forallb_forall in F2. apply F2 in I. rewrite E in I. discriminate.
    + assert (Q : shapeOf (u "versionMinor") = Some NonNegative) by (vm_compute; reflexivity). congruence.
  - destruct X as (z & X & L). exists z. split; [exact (int_whole _ _ X)|auto].
  - destruct WM as [WM|WM]; [|contradiction]. destruct (WM a v I S) as (z & W). exists z. split; [exact W|]. intros _. exact (whole_lt v z W (proj2 X)).
Qed.
Lemma valid_kept T a v x : plistable v -> psame v x -> valid3 T a v -> valid3 T a x.
Proof.
  intros P S V. unfold valid3, validateFontInfoVersion3ValueForAttribute, validateForAttribute in *.
  destruct (get a (fontInfoAttributesVersion3ValueData T)) as [f|] eqn:E; [|discriminate V]. exact (all_keep T a f E v x P S V).
Qed.
Lemma fits_valid T info a v : pytext_laws T -> onceEach info -> fits3 T info -> In a (fontInfoAttributesVersion3 T) -> setTo info a v -> valid3 T a v.
Proof.
  intros L O F I S. apply in_names3 in I as (n & sh & -> & J). apply C104_version_3; [exact L|exact (O _ _ (proj1 S))|]. exists n, sh. split; [reflexivity|]. split; [exact J|exact (F n sh v J S)].
Qed.
Lemma in3_of T a : In a namesIn2 -> In a (fontInfoAttributesVersion3 T).
Proof.
  assert (F : forallb (fun a => mem a (fontInfoAttributesVersion3 T)) namesIn2 = true) by (vm_compute; reflexivity).
  rewrite forallb_forall in F. intro I. apply mem_In. exact (F a I).
Qed.
Lemma atom_same v x : amount v <> None -> psame v x -> x = v.
Proof. intros A S. destruct v; cbn in A; try congruence; inversion S; reflexivity. Qed.

(** ** C109: UFO 2 *)
Theorem C109_to_2_partial : forall T R perm c s s' info d3, pytext_laws T -> repr_laws T R -> onceEach info ->
  (forall a v, setTo info a v -> plistFaithful v) ->
  writeInfo T 3 true info = Ok d3 -> wholeMetrics info ->
  exists d, writeInfo T 2 true info = Ok d /\
    (writeInfoFile (plistCodec T R) c (asDict d) s = (s', Ok tt) ->
     exists v info', readInfoFile (plistCodec T R) (tree s') true = Ok v /\ readInfo T perm 2 true v = Ok info' /\ kept namesIn2 psame info info').
Proof.
  intros T R perm c s s' info d3 L LR O PF W3 WM.
  assert (F : fits3 T info) by (apply (C104_write T info L O); eauto).
  destruct (proj2 (proj1 (proj2 (C104_write T info L O))) (fits_older T info F)) as (d & W). exists d. split; [exact W|]. intro H.
  pose proof (C36_written_to_2 T true info d W) as G. rewrite names2 in G.
  assert (Dd : dict_ok d) by (rewrite writeInfo_2 in W; cbv zeta in W; apply validate_2 in W as (-> & _); apply conv32_ok).
  assert (Fd : plistFaithful (asDict d)) by (apply asDict_faithful; [exact Dd|]; intros a v Ga; apply G in Ga as (I & S); split; [exact (names2_text a I)|exact (PF a v S)]).
  unfold writeInfoFile in H. destruct (read_stored _ _ _ _ _ _ _ (Some (PDict [])) (plist_codec_laws T R L LR) H Fd) as (w & Gw & Sw).
  pose proof (psame_asDict _ _ Sw) as ID. destruct (psame_dict d w Dd Sw) as (e & -> & De & E1 & E2).
  destruct (read_2 T perm e) as (info' & Ri & Gi).
  { intros a x Ga. destruct (E1 a x Ga) as (v & Gv & Sv). apply G in Gv as (I & S). split; [exact I|]. split; [|split].
    - intros ->. inversion Sv; subst. destruct S as (_ & S). congruence.
    - apply (valid_kept T a v x); [apply (PF a v S)|exact Sv|]. apply (fits_valid T info a v L O F); [apply in3_of; exact I|exact S].
    - intro K. pose proof (exact_number T info a v F (or_introl WM) S K) as (z & Wz & Lz). assert (x = v) as -> by (apply atom_same; [destruct Wz as (q & Q & _); congruence|exact Sv]). eauto. }
  exists (asDict e), info'. split; [|split; [exact Ri|]].
  - unfold readInfoFile. rewrite Gw. cbn [bind]. rewrite ID. cbn [negb]. rewrite andb_false_r. reflexivity.
  - split.
    + intros a v I S. destruct (E2 a v (proj2 (G a v) (conj I S))) as (x & Gx & Sx). exists x. split; [apply Gi; exact Gx|exact Sx].
    + intros a x Gx. apply Gi in Gx. destruct (E1 a x Gx) as (v & Gv & Sv). apply G in Gv as (I & S). split; [exact I|]. eauto.
Qed.
Print Assumptions C109_to_2_partial.

(** ** C109: UFO 1 *)
Definition namesOf1 : list str := map snd namesIn1.
Lemma of1 a : In a namesOf1 <-> exists a1, In (a1, a) namesIn1.
Proof. unfold namesOf1. rewrite in_map_iff. split; [intros ([a1 b] & E & I); cbn in E; subst; eauto|intros (a1 & I); exists (a1, a); auto]. Qed.
Lemma special1 a1 a : In (a1, a) namesIn1 ->
  (a1 = u "fontStyle" <-> a = u "styleMapStyleName") /\ (a1 = u "widthName" <-> a = u "openTypeOS2WidthClass") /\
  (a1 = u "msCharSet" <-> a = u "postscriptWindowsCharacterSet") /\ (a1 = u "weightValue" <-> a = u "openTypeOS2WeightClass").
Proof.
  intro I.
  assert (F : forall x y : str, forallb (fun e => Bool.eqb (eqb (fst e) x) (eqb (snd e) y)) namesIn1 = true -> (a1 = x <-> a = y)).
  { intros x y F. rewrite forallb_forall in F. specialize (F _ I). cbn [fst snd] in F. apply Bool.eqb_prop in F.
    split; intro E; [apply (proj1 (eqb_eq _ _)); rewrite <- F|apply (proj1 (eqb_eq _ _)); rewrite F]; subst; apply eqb_refl. }
  split; [|split; [|split]]; apply F; vm_compute; reflexivity.
Qed.
Lemma means_int a1 n v2 : means a1 (PInt n) v2 ->
  (a1 = u "fontStyle" -> exists s, In (n, s) fontStyles /\ v2 = PStr (u s)) /\
  (a1 = u "msCharSet" -> exists m, In (n, m) charSets /\ v2 = PInt m).
Proof.
  intros (x & Wx & M1 & _ & M3 & _). cbn [wholeAsInt] in Wx. subst x. split.
  - intro E. destruct (M1 E) as (n' & s & I & W & ->). apply isWhole_int in W as <-. eauto.
  - intro E. destruct (M3 E) as (n' & m & I & W & ->). apply isWhole_int in W as <-. eauto.
Qed.
Lemma style_back n s s' : In (n, s) oldStyles -> In (n, s') fontStyles -> s' = s.
Proof.
  assert (F : forallb (fun e : Z * string => forallb (fun e' : Z * string => negb (fst e =? fst e')%Z || String.eqb (snd e) (snd e')) fontStyles) oldStyles = true) by (vm_compute; reflexivity).
  intros I J. rewrite forallb_forall in F. specialize (F _ I). rewrite forallb_forall in F. specialize (F _ J). cbn [fst snd] in F. rewrite Z.eqb_refl in F. cbn in F. apply String.eqb_eq in F. auto.
Qed.
Lemma set_back n m m' : In (n, m) charSets -> In (n, m') charSets -> m' = m.
Proof.
  assert (F : forallb (fun e : Z * Z => forallb (fun e' : Z * Z => negb (fst e =? fst e')%Z || (snd e =? snd e')%Z) charSets) charSets = true) by (vm_compute; reflexivity).
  intros I J. rewrite forallb_forall in F. specialize (F _ I). rewrite forallb_forall in F. specialize (F _ J). cbn [fst snd] in F. rewrite Z.eqb_refl in F. cbn in F. apply Z.eqb_eq in F. auto.
Qed.
Lemma width_back s n s' n' : In (s, n) oldWidths -> In (s', n') widths -> u s' = u s -> n' = n.
Proof.
  assert (F : forallb (fun e : string * Z => forallb (fun e' : string * Z => negb (eqb (u (fst e')) (u (fst e))) || (snd e' =? snd e)%Z) widths) oldWidths = true) by (vm_compute; reflexivity).
  intros I J E. rewrite forallb_forall in F. specialize (F _ I). rewrite forallb_forall in F. specialize (F _ J). cbn [fst snd] in F. rewrite E, eqb_refl in F. cbn in F. apply Z.eqb_eq in F. auto.
Qed.
Lemma width_known s n : In (s, n) oldWidths -> In (s, n) widths.
Proof. intro I. unfold widths. repeat (destruct I as [I|I]; [injection I as <- <-; cbn; tauto|]). destruct I. Qed.
Lemma style_known n s : In (n, s) oldStyles -> In (n, s) fontStyles.
Proof. intro I. unfold fontStyles. repeat (destruct I as [I|I]; [injection I as <- <-; cbn; tauto|]). destruct I. Qed.
Lemma whole_finite v z : isWhole v z -> finiteValue v.
Proof. intros (q & A & _). split; [intros ->; discriminate|intros b ->; discriminate]. Qed.
Lemma float_whole f : (exists z, isWhole (PFloat f) z) \/ forall z, ~ isWhole (PFloat f) z.
Proof.
  destruct (amount (PFloat f)) as [q|] eqn:A; [|right; intros z (q & C & _); congruence].
  destruct (Qeq_dec q (inject_Z (Qround.Qfloor q))) as [E|E]; [left; exists (Qround.Qfloor q), q; auto|].
  right. intros z (q' & A' & W). rewrite A in A'. injection A' as <-. apply E. rewrite W at 2. rewrite Qround.Qfloor_Z. exact W.
Qed.
(** the value in the file of UFO 1 and what it means *)
Lemma through_1 T a1 a v w sh : In (a1, a) namesIn1 -> shapeOf a = Some sh -> exactly3 T sh v -> finiteValue v -> v <> PNone -> meansIn1 a v w ->
  w <> PNone /\ ~ (a1 = u "weightValue" /\ isWhole w (-1)) /\ finiteValue w /\ container w = false /\ (exists v2, means a1 w v2) /\ (forall v2, means a1 w v2 -> equalTo v v2).
Proof.
  intros I E X Fv Nv (M1 & M2 & M3 & M4). destruct (special1 a1 a I) as (S1 & S2 & S3 & S4).
  destruct (eqb_spec a (u "styleMapStyleName")) as [Ea|n1]; [|destruct (eqb_spec a (u "openTypeOS2WidthClass")) as [Ea|n2]; [|destruct (eqb_spec a (u "postscriptWindowsCharacterSet")) as [Ea|n3]]].
  - pose proof (proj2 S1 Ea) as E1. destruct (M1 Ea) as [(n & st & J & -> & ->)|(No & _)].
    + split; [discriminate|]. split; [intros (C & _); rewrite E1 in C; discriminate|]. split; [split; discriminate|]. split; [reflexivity|]. split.
      * exists (PStr (u st)). exists (PInt n). split; [reflexivity|]. rewrite E1. split; [intros _; exists n, st; split; [exact (style_known _ _ J)|split; [apply isWhole_int; reflexivity|reflexivity]]|].
        split; [discriminate|]. split; [discriminate|]. intro C. destruct (C eq_refl).
      * intros v2 M. apply means_int in M as (M & _). destruct (M E1) as (s' & J' & ->). left. rewrite (style_back _ _ _ J J'). reflexivity.
    + exfalso. rewrite Ea in E. assert (Q : shapeOf (u "styleMapStyleName") = Some (OneOf ["regular"; "italic"; "bold"; "bold italic"])) by (vm_compute; reflexivity).
      rewrite Q in E. injection E as <-. destruct X as (st & J & ->). destruct J as [<-|[<-|[<-|[<-|[]]]]].
      * apply (No 64%Z "regular"); cbn; auto.
      * apply (No 1%Z "italic"); cbn; auto.
      * apply (No 32%Z "bold"); cbn; auto.
      * apply (No 33%Z "bold italic"); cbn; auto.
  - pose proof (proj2 S2 Ea) as E1. destruct (M2 Ea) as [(st & n & J & Wn & ->)|(No & _)].
    + split; [discriminate|]. split; [intros (C & _); rewrite E1 in C; discriminate|]. split; [split; discriminate|]. split; [reflexivity|]. split.
      * exists (PInt n). exists (PStr (u st)). split; [reflexivity|]. rewrite E1. split; [discriminate|]. split; [intros _; exists st, n; split; [exact (width_known _ _ J)|auto]|].
        split; [discriminate|]. intros _ C. destruct (C eq_refl).
      * intros v2 (x & Wx & _ & M & _). cbn [wholeAsInt] in Wx. subst x. destruct (M E1) as (s' & n' & J' & Q & ->). right. exists n. split; [exact Wn|].
        injection Q as Q. rewrite (width_back _ _ _ _ J J' (eq_sym Q)). reflexivity.
    + exfalso. rewrite Ea in E. assert (Q : shapeOf (u "openTypeOS2WidthClass") = Some (Between 1 9)) by (vm_compute; reflexivity).
      rewrite Q in E. injection E as <-. destruct X as (z & Iz & Lz). apply int_whole in Iz.
      assert (exists st, In (st, z) oldWidths) as (st & J).
      { assert (z = 1 \/ z = 2 \/ z = 3 \/ z = 4 \/ z = 5 \/ z = 6 \/ z = 7 \/ z = 8 \/ z = 9)%Z as C by lia.
        repeat destruct C as [->|C]; try subst z; eexists; cbn; eauto 12. }
      exact (No st z J Iz).
  - pose proof (proj2 S3 Ea) as E1. destruct (M3 Ea) as [(n & m & J & Wn & ->)|(No & _)].
    + split; [discriminate|]. split; [intros (C & _); rewrite E1 in C; discriminate|]. split; [split; discriminate|]. split; [reflexivity|]. split.
      * exists (PInt m). exists (PInt n). split; [reflexivity|]. rewrite E1. split; [discriminate|]. split; [discriminate|].
        split; [intros _; exists n, m; split; [exact J|split; [apply isWhole_int; reflexivity|reflexivity]]|]. intros _ _ C. destruct (C eq_refl).
      * intros v2 M. apply means_int in M as (_ & M). destruct (M E1) as (m' & J' & ->). right. exists m. split; [exact Wn|]. rewrite (set_back _ _ _ J J'). reflexivity.
    + exfalso. rewrite Ea in E. assert (Q : shapeOf (u "postscriptWindowsCharacterSet") = Some CharSet) by (vm_compute; reflexivity).
      rewrite Q in E. injection E as <-. destruct X as (z & Lz & Ez). assert (isWhole v z) as W by (apply eq_whole; rewrite <- eq_sym_num; destruct v; exact Ez || discriminate Ez).
      assert (K : forallb (fun k => existsb (fun e : Z * Z => (snd e =? Z.of_nat k)%Z) charSets) (seq 1 20) = true) by (vm_compute; reflexivity).
      rewrite forallb_forall in K. specialize (K (Z.to_nat z)). rewrite existsb_exists in K. destruct K as ([n m] & J & Q'); [apply in_seq; lia|]. cbn [snd] in Q'. apply Z.eqb_eq in Q'.
      rewrite Z2Nat.id in Q' by lia. subst m. exact (No n z J W).
  - rewrite (M4 n1 n2 n3). assert (N1 : a1 <> u "fontStyle") by (intro C; apply S1 in C; contradiction). assert (N2 : a1 <> u "widthName") by (intro C; apply S2 in C; contradiction). assert (N3 : a1 <> u "msCharSet") by (intro C; apply S3 in C; contradiction).
    split; [exact Nv|]. split; [|split; [exact Fv|split; [|split]]].
    + intros (C & W). apply S4 in C. rewrite C in E. assert (Q : shapeOf (u "openTypeOS2WeightClass") = Some NonNegative) by (vm_compute; reflexivity).
      rewrite Q in E. injection E as <-. destruct X as (z & Iz & Lz). apply int_whole in Iz. pose proof (isWhole_unique _ _ _ Iz W). lia.
    + assert (F : forallb (fun a => match shapeOf a with Some (Text | Integer | NonNegative | Number | NonNegativeNumber | OneOf _ | Between _ _ | CharSet) => true | _ => false end) namesOf1 = true) by (vm_compute; reflexivity).
      rewrite forallb_forall in F. assert (Ia : In a namesOf1) by (apply of1; eauto). apply F in Ia. rewrite E in Ia.
      destruct sh; try discriminate Ia; cbn [exactly3 exactly ofShape] in X.
      * destruct X as (? & ->). reflexivity.
      * destruct X as (z & [->|(b & -> & _)]); reflexivity.
      * destruct X as (z & [->|(b & -> & _)] & _); reflexivity.
      * destruct X as [(? & ->)|[(? & ->)|(? & ->)]]; reflexivity.
      * destruct X as ([(? & ->)|[(? & ->)|(? & ->)]] & _); reflexivity.
      * destruct X as (z & [->|(b & -> & _)] & _); reflexivity.
      * destruct X as (? & _ & ->); reflexivity.
      * destruct X as (? & _ & X). destruct v; try discriminate X; reflexivity.
    + assert (exists x, wholeAsInt v x) as (x & Wx).
      { destruct v as [| | |f| | | | | | |]; try (eexists; reflexivity).
        destruct (float_whole f) as [(z & W)|No].
        - exists (PInt z). left. eauto.
        - exists (PFloat f). right. split; [|auto]. destruct Fv as (F1 & F2). destruct f; try discriminate; [destruct (F2 s eq_refl)|destruct (F1 eq_refl)]. }
      exists x, x. split; [exact Wx|]. split; [contradiction|]. split; [contradiction|]. split; [contradiction|]. reflexivity.
    + intros v2 (x & Wx & _ & _ & _ & M). rewrite (M N1 N2 N3). destruct v as [| | |f| | | | | | |]; cbn [wholeAsInt] in Wx; try (left; exact Wx).
      destruct Wx as [(z & W & ->)|(_ & _ & ->)]; [right; eauto|left; reflexivity].
Qed.

Lemma number1 a : In a namesOf1 -> ~ In a nonNegativeIn3.
Proof.
  assert (F : forallb (fun a => negb (mem a nonNegativeIn3)) namesOf1 = true) by (vm_compute; reflexivity).
  rewrite forallb_forall in F. intros I C. apply F in I. apply mem_In in C. rewrite C in I. discriminate.
Qed.
Lemma equal_valid T info a v v2 : pytext_laws T -> onceEach info -> fits3 T info -> In a namesOf1 -> setTo info a v -> equalTo v v2 -> valid3 T a v2 /\ exactNumber a v2.
Proof.
  intros L O F I S E.
  assert (I3 : In a (fontInfoAttributesVersion3 T)) by (apply of1 in I as (a1 & I); apply in3_of; exact (in2_of a1 a I)).
  pose proof (fits_valid T info a v L O F I3 S) as V. pose proof (exact_number T info a v F (or_intror (number1 a I)) S) as X.
  destruct E as [->|(z & W & ->)]; [auto|]. split.
  - apply in_names3 in I3 as (n & sh & -> & J). apply C104_version_3; [exact L|exact Logic.I|]. exists n, sh. split; [reflexivity|]. split; [exact J|].
    apply (exactly_whole T sh v z); [|exact (F n sh v J S)|exact W]. intros ->.
    assert (B : forallb (fun a => match shapeOf a with Some Boolean => false | _ => true end) namesOf1 = true) by (vm_compute; reflexivity).
    rewrite forallb_forall in B. apply B in I. rewrite (shape_unique n Boolean J) in I. discriminate.
  - intro K. destruct (X K) as (z' & W' & Lz). exists z'. split; [|exact Lz]. rewrite (isWhole_unique _ _ _ W W'). apply isWhole_int. reflexivity.
Qed.
Lemma conv21_dict d : forall acc r, NoDup (keys acc) -> convertData2To1 d acc = Ok r -> NoDup (keys r).
Proof.
  induction d as [|[k v] d IH]; intros acc r N H; cbn [convertData2To1] in H; [injection H as <-; exact N|].
  apply bind_Ok in H as ([b x] & _ & H). cbn [fst snd] in H. destruct (negb _); [exact (IH _ _ N H)|]. destruct (is_none v); [discriminate|].
  apply (IH _ _ (dict_ok_set _ _ _ N) H).
Qed.
Lemma conv21_total d : forall acc r a v, convertData2To1 d acc = Ok r -> In (a, v) d -> exists p, convertValue2To1 a v = Ok p.
Proof.
  induction d as [|[k x] d IH]; intros acc r a v H I; [destruct I|]. cbn [convertData2To1] in H. apply bind_Ok in H as (p & C & H).
  destruct I as [I|I]; [injection I as <- <-; eauto|]. destruct (negb _); [exact (IH _ _ a v H I)|]. destruct (is_none x); [discriminate|exact (IH _ _ a v H I)].
Qed.
Lemma writeInfo_1_dict T info d : writeInfo T 1 true info = Ok d -> NoDup (keys d).
Proof. intro H. apply writeInfo_1 in H. exact (conv21_dict _ [] _ (NoDup_nil _) H). Qed.
Lemma written_1_total T info d : writeInfo T 1 true info = Ok d -> forall a1 a v, In (a1, a) namesIn1 -> setTo info a v -> exists w, meansIn1 a v w.
Proof.
  intros H a1 a v I S. apply writeInfo_1 in H. assert (G : get a (convertData3To2 T (gather T info)) = Some v) by (apply data2_get; split; [exact (in2_of a1 a I)|exact S]).
  apply get_In in G. destruct (conv21_total _ _ _ _ _ H G) as ([b w] & C). clear H G.
  assert (N : is_none v = false) by (destruct S as (_ & S); clear -S; destruct v; congruence || reflexivity). exists w. exact (proj1 (proj2 (convert21_ok a v b w N C))).
Qed.
Lemma text_faithful s : textOk s -> plistFaithful (PStr s).
Proof. intro K. split; [constructor|]. split; [intros t J; inversion J; subst; exact K|intros d k x J; inversion J]. Qed.
Lemma number_faithful z : (- 2 ^ 63 <= z < 2 ^ 64)%Z -> plistFaithful (PInt z).
Proof. intro K. split; [constructor; exact K|]. split; [intros t J; inversion J|intros d k x J; inversion J]. Qed.
Lemma style_small n st : In (n, st) oldStyles -> (- 2 ^ 63 <= n < 2 ^ 64)%Z.
Proof. intro J. repeat (destruct J as [J|J]; [injection J as <- _; split; [discriminate|reflexivity]|]). destruct J. Qed.
Lemma set_small n m : In (n, m) charSets -> (- 2 ^ 63 <= n < 2 ^ 64)%Z.
Proof. intro J. repeat (destruct J as [J|J]; [injection J as <- _; split; [discriminate|reflexivity]|]). destruct J. Qed.
Lemma means1_faithful a v w : plistFaithful v -> meansIn1 a v w -> w <> PNone -> plistFaithful w.
Proof.
  intros P (M1 & M2 & M3 & M4) N.
  destruct (eqb_spec a (u "styleMapStyleName")) as [Ea|n1]; [|destruct (eqb_spec a (u "openTypeOS2WidthClass")) as [Ea|n2]; [|destruct (eqb_spec a (u "postscriptWindowsCharacterSet")) as [Ea|n3]]].
  - destruct (M1 Ea) as [(n & st & J & _ & ->)|(_ & C)]; [apply number_faithful; apply (style_small n st J)|contradiction].
  - destruct (M2 Ea) as [(st & n & J & _ & ->)|(_ & C)]; [|contradiction]. apply text_faithful. apply text_check.
    assert (F : forallb (fun e : string * Z => forallb (fun c => (c =? 10) || ((32 <=? c) && (c <? 128)))%N (u (fst e))) oldWidths = true) by (vm_compute; reflexivity).
    rewrite forallb_forall in F. exact (F _ J).
  - destruct (M3 Ea) as [(n & m & J & _ & ->)|(_ & C)]; [apply number_faithful; apply (set_small n m J)|contradiction].
  - rewrite (M4 n1 n2 n3). exact P.
Qed.
Theorem C109_to_1_partial : forall T R perm c s s' info d3, pytext_laws T -> repr_laws T R -> onceEach info ->
  Permutation (perm fontInfoAttributesVersion1) fontInfoAttributesVersion1 ->
  (forall a v, setTo info a v -> plistFaithful v) ->
  writeInfo T 3 true info = Ok d3 -> (forall a v, In a namesOf1 -> setTo info a v -> finiteValue v) ->
  exists d, writeInfo T 1 true info = Ok d /\
    (writeInfoFile (plistCodec T R) c (asDict d) s = (s', Ok tt) ->
     exists v info', readInfoFile (plistCodec T R) (tree s') true = Ok v /\ readInfo T perm 1 true v = Ok info' /\ kept namesOf1 equalTo info info').
Proof.
  intros T R perm c s s' info d3 L LR O PM PF W3 FV.
  assert (F : fits3 T info) by (apply (C104_write T info L O); eauto).
  destruct (proj2 (proj2 (proj2 (C104_write T info L O))) (fits_older T info F)) as (d & W). exists d. split; [exact W|]. intro H.
  pose proof (C99_to_version_1 T true info d W) as G.
  assert (TH : forall a1 a v w, In (a1, a) namesIn1 -> setTo info a v -> meansIn1 a v w ->
    w <> PNone /\ ~ (a1 = u "weightValue" /\ isWhole w (-1)) /\ finiteValue w /\ container w = false /\ (exists v2, means a1 w v2) /\ (forall v2, means a1 w v2 -> equalTo v v2)).
  { intros a1 a v w I S M. assert (I3 : In a (fontInfoAttributesVersion3 T)) by (apply in3_of; exact (in2_of a1 a I)).
    apply in_names3 in I3 as (n & sh & -> & J). apply (through_1 T a1 (u n) v w sh I (shape_unique n sh J) (F n sh v J S)); [|exact (proj2 S)|exact M].
    apply (FV (u n) v); [apply of1; eauto|exact S]. }
  assert (Dd : dict_ok d) by (apply writeInfo_1_dict in W; exact W).
  assert (Gd : forall a1 w, get a1 d = Some w -> exists a v, In (a1, a) namesIn1 /\ setTo info a v /\ meansIn1 a v w) by (intros a1 w; apply G).
  assert (Fd : plistFaithful (asDict d)).
  { apply asDict_faithful; [exact Dd|]. intros a1 w Ga. destruct (Gd a1 w Ga) as (a & v & I & S & M). split; [exact (names1_text a1 a I)|].
    exact (means1_faithful a v w (PF a v S) M (proj1 (TH a1 a v w I S M))). }
  unfold writeInfoFile in H. destruct (read_stored _ _ _ _ _ _ _ (Some (PDict [])) (plist_codec_laws T R L LR) H Fd) as (w & Gw & Sw).
  pose proof (psame_asDict _ _ Sw) as ID. destruct (psame_dict d w Dd Sw) as (e & -> & De & E1 & E2).
  assert (Ge : forall a1 x, get a1 e = Some x <-> get a1 d = Some x).
  { assert (At : forall a1 x y, get a1 d = Some x -> psame x y -> y = x) by (intros a1 x y Gx S; destruct (Gd a1 x Gx) as (a & v & I & St & M); apply (psame_atom _ _ S); apply (TH a1 a v x I St M)).
    intros a1 x. split; intro Gx.
    - destruct (E1 a1 x Gx) as (v & Gv & Sv). rewrite (At a1 v x Gv Sv). exact Gv.
    - destruct (E2 a1 x Gx) as (y & Gy & Sy). rewrite (At a1 x y Gx Sy) in Gy. exact Gy. }
  assert (Se : forall a1 a w, In (a1, a) namesIn1 -> (setIn1 e a1 w <-> exists v, setTo info a v /\ meansIn1 a v w)).
  { intros a1 a w I. unfold setIn1. rewrite Ge, (G a1 w). split.
    - intros ((a' & v & I' & S & M) & _). assert (a' = a) as -> by (apply names_table in I as (_ & ->); apply names_table in I' as (_ & ->); reflexivity). eauto.
    - intros (v & S & M). destruct (TH a1 a v w I S M) as (T1 & T2 & _). split; [eauto|]. split; [exact T1|exact T2]. }
  destruct (readInfo T perm 1 false (asDict e)) as [info'|ex] eqn:Ri.
  - pose proof (C99_from_version_1 T perm false e info' PM Ri) as Gi.
    assert (K : kept namesOf1 equalTo info info').
    { split.
      - intros a v I S. pose proof I as Ia. apply of1 in I as (a1 & I).
        assert (Me : exists w, meansIn1 a v w).
        { exact (written_1_total T info d W a1 a v I S). }
        destruct Me as (w & M). destruct (TH a1 a v w I S M) as (_ & _ & _ & _ & (v2 & M2) & Eq). specialize (Eq v2 M2).
        exists v2. split; [|exact Eq]. apply Gi. exists a1, w, v2. split; [exact I|]. split; [apply (Se a1 a w I); eauto|]. split; [exact M2|].
        apply upgraded_same; [|reflexivity]. apply (equal_valid T info a v v2 L O F Ia S Eq).
      - intros a x Gx. apply Gi in Gx as (a1 & w & v2 & I & Sw' & M2 & U). pose proof (proj2 (of1 a) (ex_intro _ a1 I)) as Ia. split; [exact Ia|].
        apply (Se a1 a w I) in Sw' as (v & S & M). destruct (TH a1 a v w I S M) as (_ & _ & _ & _ & _ & Eq). specialize (Eq v2 M2). exists v. split; [exact S|].
        apply upgraded_same in U; [subst; exact Eq|]. apply (equal_valid T info a v v2 L O F Ia S Eq). }
    exists (asDict e), info'. split; [|split; [|exact K]].
    + unfold readInfoFile. rewrite Gw. cbn [bind]. rewrite ID. cbn [negb]. rewrite andb_false_r. reflexivity.
    + rewrite readInfo_checked, Ri. cbn [bind]. assert (NK : NoDup (keys info')) by (apply (info_keys T perm 1 e); auto).
      apply validate_3_ok; [exact NK|]. apply Forall_forall. intros [a x] I. cbn [fst snd]. apply In_get in I; [|exact NK]. destruct K as (_ & K). destruct (K a x I) as (Ia & v & S & Eq).
      apply (equal_valid T info a v x L O F Ia S Eq).
  - exfalso. destruct (C99_from_version_1_refused T perm e PM) as (N1 & _). destruct (N1 ex Ri) as (a1 & a & w & I & Sw' & C). apply (Se a1 a w I) in Sw' as (v & S & M).
    destruct (TH a1 a v w I S M) as (_ & _ & Fw & _ & (v2 & M2) & Eq). destruct C as [C|(v2' & M2' & K & A)].
    + unfold refused in C. destruct Fw as (F1 & F2). destruct w as [| | |f| | | | | | |]; try (destruct C as (C & _); exact (C v2 M2)).
      destruct f; try (destruct C as (C & _); exact (C v2 M2)); [exact (F2 _ eq_refl)|exact (F1 eq_refl)].
    + specialize (Eq v2' M2'). destruct (equal_valid T info a v v2' L O F (proj2 (of1 a) (ex_intro _ a1 I)) S Eq) as (_ & X). exact (not_amount a v2' ex X K A).
Qed.
Print Assumptions C109_to_1_partial.

(** ** False without the conditions: UFO 3 takes 1.5, NaN and infinity where
    the conversion of the older UFOs rounds or raises *)
Theorem C109_to_2_refuted : forall T perm,
  (exists info d3 d info' v, writeInfo T 3 true info = Ok d3 /\ writeInfo T 2 true info = Ok d /\ readInfo T perm 2 true (asDict d) = Ok info' /\
     In (u "openTypeOS2WinAscent") namesIn2 /\ setTo info (u "openTypeOS2WinAscent") v /\ get (u "openTypeOS2WinAscent") info' = Some (PInt 2) /\ ~ equalTo v (PInt 2)) /\
  (exists info d3 d, writeInfo T 3 true info = Ok d3 /\ writeInfo T 2 true info = Ok d /\ readInfo T perm 2 true (asDict d) = Err UFOLibError).
Proof.
  intros T perm. split.
  - exists [(u "openTypeOS2WinAscent", PFloat (S754_finite false 3 (-1)))], [(u "openTypeOS2WinAscent", PFloat (S754_finite false 3 (-1)))], [(u "openTypeOS2WinAscent", PFloat (S754_finite false 3 (-1)))],
      [(u "openTypeOS2WinAscent", PInt 2)], (PFloat (S754_finite false 3 (-1))).
    split; [vm_compute; reflexivity|]. split; [vm_compute; reflexivity|]. split; [vm_compute; reflexivity|]. split; [apply mem_In; vm_compute; reflexivity|].
    split; [split; [reflexivity|discriminate]|]. split; [reflexivity|]. intros [C|(z & (q & Q & E) & C)]; [discriminate|]. injection Q as <-. injection C as <-. vm_compute in E. discriminate.
  - exists [(u "openTypeHeadLowestRecPPEM", PFloat S754_nan)], [(u "openTypeHeadLowestRecPPEM", PFloat S754_nan)], [(u "openTypeHeadLowestRecPPEM", PFloat S754_nan)].
    split; [vm_compute; reflexivity|]. split; vm_compute; reflexivity.
Qed.
Print Assumptions C109_to_2_refuted.
Theorem C109_to_1_refuted : forall T, exists info d3 d, writeInfo T 3 true info = Ok d3 /\ writeInfo T 1 true info = Ok d /\
  readInfo T (fun l => l) 1 true (asDict d) = Err OverflowError.
Proof.
  intro T. exists [(u "italicAngle", PFloat (S754_infinity false))], [(u "italicAngle", PFloat (S754_infinity false))], [(u "italicAngle", PFloat (S754_infinity false))].
  split; [vm_compute; reflexivity|]. split; vm_compute; reflexivity.
Qed.
Print Assumptions C109_to_1_refuted.

(** a panose given as a tuple, a whole float and a guideline that only UFO 3 has *)
Definition someInfo : infoT :=
  [(u "styleMapStyleName", PStr (u "bold")); (u "openTypeOS2WidthClass", PInt 7); (u "unitsPerEm", PFloat (S754_finite false 1000 0));
   (u "postscriptWindowsCharacterSet", PInt 4); (u "openTypeOS2WeightClass", PInt 700); (u "versionMinor", PInt 2); (u "openTypeHheaAscender", PInt 750);
   (u "openTypeOS2Panose", PTuple (map PInt [2; 0; 5; 3; 6; 0; 0; 2; 0; 4]%Z));
   (u "guidelines", PList [PDict [(PStr (u "x"), PInt 100)]])].
Example C109_case :
  (exists d3, writeInfo asciiText 3 true someInfo = Ok d3 /\ length d3 = 9%nat) /\ wholeMetrics someInfo /\
  (exists d i, writeInfo asciiText 2 true someInfo = Ok d /\ length d = 8%nat /\ readInfo asciiText (fun l => l) 2 true (asDict d) = Ok i /\
     get (u "openTypeHheaAscender") i = Some (PInt 750) /\ get (u "guidelines") i = None) /\
  (exists d i, writeInfo asciiText 1 true someInfo = Ok d /\
     get (u "fontStyle") d = Some (PInt 32) /\ get (u "widthName") d = Some (PStr (u "Expanded")) /\ get (u "msCharSet") d = Some (PInt 77) /\
     readInfo asciiText (fun l => l) 1 true (asDict d) = Ok i /\ length i = 6%nat /\
     get (u "styleMapStyleName") i = Some (PStr (u "bold")) /\ get (u "unitsPerEm") i = Some (PInt 1000) /\ get (u "postscriptWindowsCharacterSet") i = Some (PInt 4)).
Proof.
  split; [eexists; split; vm_compute; reflexivity|]. split.
  - intros a v I (G & _). exfalso. destruct I as [<-|[<-|[<-|[]]]]; vm_compute in G; discriminate.
  - split; (eexists; eexists; split; [vm_compute; reflexivity|]; repeat split; vm_compute; reflexivity).
Qed.
