(** Property C95: what has the documented form is accepted.  The validators of
    font info values, guidelines, anchors and images accept every value of the
    documented type and range; with C38 and C74 they decide these forms. *)
From Coq Require Import String NArith ZArith Bool Lia List Sorted.
From Coq.Floats Require Import SpecFloat.
From Verif Require Import Base PyVal PyText Validators ValidatorsProofs PropValidators FontInfoTables FontInfo FontInfoProofs PropFontInfoTypes.
Import ListNotations.
Local Open Scope string_scope.
Local Open Scope list_scope.

(** ** the statements *)
(** no dictionary in the value has a key twice (every Python value is like this) *)
Fixpoint keysOnce (v : pyval) : Prop :=
  match v with
  | PList l | PTuple l => (fix go l := match l with [] => True | x :: r => keysOnce x /\ go r end) l
  | PDict d => NoDup (map fst d) /\ (fix go d := match d with [] => True | (_, x) :: r => keysOnce x /\ go r end) d
  | _ => True
  end.
(** a text of four components, each a number from 0 to 1 (or NaN, see C42) *)
Definition colour (T : pytext) (v : pyval) : Prop :=
  exists s, v = PStr s /\
    isColor (fun p => unitComponent T p \/ (let q := strip (isSpace T) p in parseInt T q = None /\ parseFloat T q = Some S754_nan)) s.
Definition identifier (v : pyval) : Prop :=
  exists s, v = PStr s /\ 1 <= length s <= 100 /\ forall c, In c s -> (32 <= c <= 126)%N.
Definition orNone (P : pyval -> Prop) (v : pyval) : Prop := v = PNone \/ P v.
Definition text (v : pyval) : Prop := exists s, v = PStr s.
Definition onlyKeys (l : list string) (v : pyval) : Prop :=
  exists d, v = PDict d /\ forall k x, In (k, x) d -> exists s, In s l /\ k = PStr (u s).
Definition goodGuideline (T : pytext) (g : pyval) : Prop :=
  onlyKeys ["x"; "y"; "angle"; "name"; "color"; "identifier"] g /\ lineShape g /\
  orNone text (at_ "name" g) /\ orNone identifier (at_ "identifier" g) /\ orNone (colour T) (at_ "color" g).
Definition goodAnchor (T : pytext) (a : pyval) : Prop :=
  onlyKeys ["x"; "y"; "name"; "color"; "identifier"] a /\ isNum (at_ "x" a) /\ isNum (at_ "y" a) /\
  orNone text (at_ "name" a) /\ orNone identifier (at_ "identifier" a) /\ orNone (colour T) (at_ "color" a).
Definition goodImage (T : pytext) (i : pyval) : Prop :=
  onlyKeys ["fileName"; "xScale"; "xyScale"; "yxScale"; "yScale"; "xOffset"; "yOffset"; "color"] i /\
  (exists s, at_ "fileName" i = PStr s /\ s <> []) /\
  (forall k, In k ["xScale"; "xyScale"; "yxScale"; "yScale"; "xOffset"; "yOffset"] -> orNone isNum (at_ k i)) /\
  orNone (colour T) (at_ "color" i).
(** the two shapes of C38 that say less than the documentation *)
Definition exactly (T : pytext) (sh : shape) (v : pyval) : Prop :=
  match sh with
  | DateTime => exists s, v = PStr s /\ realDate s
  | GuideLines => exists l, v = PList l /\ NoDup (identifiersOf l) /\ Forall (goodGuideline T) l
  | _ => ofShape T sh v
  end.

(** ** proofs *)
Lemma keys_in d k x : keysOnce (PDict d) -> In (k, x) d -> keysOnce x.
Proof.
  intros (_ & H). induction d as [|[k' y] r IH]; [intros []|]. destruct H as (A & B). intros [E|J]; [inversion E; subst; exact A|apply IH; assumption].
Qed.
Lemma keys_list l x : keysOnce (PList l) -> In x l -> keysOnce x.
Proof.
  cbn. induction l as [|y r IH]; [intros _ []|]. intros (A & B) [<-|J]; [exact A|apply IH; assumption].
Qed.
Lemma once_dget d k x : NoDup (map fst d) -> In (PStr k, x) d -> dget k d = Some x.
Proof.
  induction d as [|[k' y] r IH]; [intros _ []|]. cbn [map fst]. intro ND. inversion ND as [|? ? N1 N2]; subst. intros [E|J].
  - inversion E; subst. cbn [dget]. rewrite eqb_refl. reflexivity.
  - specialize (IH N2 J). cbn [dget]. destruct k'; try exact IH. destruct (eqb_spec k s) as [->|]; [|exact IH].
    exfalso. apply N1. apply in_map_iff. exists (PStr s, x). auto.
Qed.
(** the values of a dictionary that only has known keys *)
Lemma generic_intro (p : proto) d : NoDup (map fst d) ->
  (forall k x, In (k, x) d -> exists s, In s (map fst p) /\ k = PStr s) ->
  NoDup (map fst p) ->
  (forall k t r, In (k, (t, r)) p ->
     match dget k d with None => r = false | Some x => (x = PNone /\ r = false) \/ isinstance x t = true end) ->
  genericDictValidator (PDict d) p = true.
Proof.
  intros ND K NP V. apply genericDict_spec. exists d. split; [reflexivity|]. split.
  - intros k t J. apply V in J. unfold vhas. cbn [items]. destruct (dget k d); [reflexivity|discriminate].
  - intros k x J. destruct (K k x J) as (s & S & ->). apply in_map_iff in S as ((s' & t & r) & E & S). cbn in E. subst s'.
    exists s, t, r. split; [reflexivity|]. split; [apply In_get; [exact NP|exact S]|]. pose proof (V _ _ _ S) as W. rewrite (once_dget d s x ND J) in W. exact W.
Qed.
Lemma orNone_spec (f : pyval -> bool) (P : pyval -> Prop) v : (forall v, f v = true <-> P v) -> (is_none v || f v = true <-> orNone P v).
Proof.
  intro E. unfold orNone. rewrite orb_true_iff, E. split; intros [H|H]; auto.
  - left. destruct v; try discriminate. reflexivity.
  - left. subst. reflexivity.
Qed.
Lemma idOk_spec v : optionalIdentifierOk v = true <-> orNone identifier (at_ "identifier" v).
Proof. apply (orNone_spec identifierValidator). intro w. apply C41_identifier_rule. Qed.
Lemma colOk_spec T v : optionalColorOk T v = true <-> orNone (colour T) (at_ "color" v).
Proof. apply (orNone_spec (colorValidator T)). intro w. apply C42_colors_partial. Qed.
Lemma num_isNum v : isNum v -> is_number v = true.
Proof. intros [(z & ->)|[(b & ->)|(f & ->)]]; reflexivity. Qed.
Lemma number_iff v : is_number v = true <-> isNum v.
Proof. split; [apply isNum_number|apply num_isNum]. Qed.
Lemma str_iff v : is_str v = true <-> text v.
Proof. split; [destruct v; try discriminate; unfold text; eauto|intros (s & ->); reflexivity]. Qed.
Lemma optional_value (f : pyval -> bool) (P : pyval -> Prop) k d : (forall v, f v = true <-> P v) -> orNone P (at_ k (PDict d)) ->
  match dget (u k) d with None => false = false | Some x => (x = PNone /\ false = false) \/ f x = true end.
Proof.
  intros E H. unfold at_, vget in H. cbn [items] in H. destruct (dget (u k) d); [|reflexivity]. destruct H as [H|H]; [left; auto|right; apply E; exact H].
Qed.
Lemma keys_intro l (p : proto) (d : list (pyval * pyval)) : map fst p = map u l -> (forall k x, In (k, x) d -> exists s, In s l /\ k = PStr (u s)) ->
  forall k x, In (k, x) d -> exists s, In s (map fst p) /\ k = PStr s.
Proof. intros E H k x J. destruct (H k x J) as (s & S & ->). exists (u s). split; [rewrite E; apply in_map; exact S|reflexivity]. Qed.
Lemma keys_elim l (p : proto) v : map fst p = map u l -> genericDictValidator v p = true -> onlyKeys l v.
Proof.
  intros E G. apply genericDict_spec in G as (d & -> & _ & U). exists d. split; [reflexivity|]. intros k x J. apply U in J as (s & t & r & -> & Gs & _).
  apply get_In in Gs. apply (in_map fst) in Gs. rewrite E in Gs. cbn [fst] in Gs. apply in_map_iff in Gs as (n & Q & Hn). exists n. rewrite <- Q. auto.
Qed.
Lemma orNone_num v k p : genericDictValidator v p = true -> get (u k) p = Some (TNumber, false) -> orNone isNum (at_ k v).
Proof. intros D G. destruct (optGet v p (u k) TNumber D G) as [H|H]; [left; exact H|right; apply number_iff; exact H]. Qed.
Lemma orNone_text v k p : genericDictValidator v p = true -> get (u k) p = Some (TStr, false) -> orNone text (at_ k v).
Proof. intros D G. destruct (optGet v p (u k) TStr D G) as [H|H]; [left; exact H|right; apply str_iff; exact H]. Qed.
Lemma orNone_weak (P Q : pyval -> Prop) v : (forall v, P v -> Q v) -> orNone P v -> orNone Q v.
Proof. intros W [H|H]; [left|right]; auto. Qed.
Lemma colour_text T v : colour T v -> text v.
Proof. intros (s & -> & _). exists s. reflexivity. Qed.
Lemma identifier_text v : identifier v -> text v.
Proof. intros (s & -> & _). exists s. reflexivity. Qed.
Lemma line_nums g : lineShape g -> orNone isNum (at_ "x" g) /\ orNone isNum (at_ "y" g) /\ orNone isNum (at_ "angle" g).
Proof. unfold lineShape, orNone. tauto. Qed.
Ltac nodupp := apply nodup_dec; vm_compute; reflexivity.
Ltac pick J := cbn [In] in J; repeat (destruct J as [J|J]; [inversion J; subst; clear J|]); [..|destruct J].

Theorem C95_guidelines : forall T g, keysOnce g -> (guidelineValidator T g = true <-> goodGuideline T g).
Proof.
  intros T g K. split.
  - intro H. pose proof (C74_guideline_shape T g H) as (L & Nm & _). unfold guidelineValidator in H.
    destruct (genericDictValidator g guidelineProto) eqn:D; [|discriminate]. cbn [negb] in H. cbv zeta in H.
    repeat match type of H with (if ?c then false else _) = true => destruct c eqn:?; [discriminate|] end.
    split; [eapply keys_elim; [|exact D]; reflexivity|]. split; [exact L|]. split; [exact Nm|]. split; [apply idOk_spec; apply negb_false_iff; assumption|apply colOk_spec; exact H].
  - intros ((d & -> & KS) & L & Nm & Id & Co). destruct (line_nums _ L) as (X & Y & A). unfold guidelineValidator.
    rewrite (generic_intro guidelineProto d); [|exact (proj1 K)|eapply keys_intro; [|exact KS]; reflexivity|nodupp|].
    + cbn [negb]. cbv zeta. rewrite (proj2 (idOk_spec _) Id). cbn [negb]. rewrite (proj2 (colOk_spec T _) Co).
      unfold lineShape, at_ in L. destruct L as [(L1 & L2 & L3)|[(L1 & L2 & L3)|(L1 & L2 & L3 & L4 & L5)]].
      * rewrite L2, L3. cbn. destruct (vget (u "x") (PDict d)); try reflexivity. destruct L1 as [(? & Q)|[(? & Q)|(? & Q)]]; discriminate Q.
      * rewrite L1, L3. cbn. destruct (vget (u "y") (PDict d)); try reflexivity. destruct L2 as [(? & Q)|[(? & Q)|(? & Q)]]; discriminate Q.
      * rewrite L4, L5. assert (Z : forall w, isNum w -> is_none w = false) by (intros w [(? & ->)|[(? & ->)|(? & ->)]]; reflexivity).
        rewrite (Z _ L1), (Z _ L2), (Z _ L3). reflexivity.
    + intros k t r J. unfold guidelineProto in J. pick J.
      * exact (optional_value is_number isNum "x" d number_iff X).
      * exact (optional_value is_number isNum "y" d number_iff Y).
      * exact (optional_value is_number isNum "angle" d number_iff A).
      * exact (optional_value is_str text "name" d str_iff Nm).
      * exact (optional_value is_str text "color" d str_iff (orNone_weak _ _ _ (colour_text T) Co)).
      * exact (optional_value is_str text "identifier" d str_iff (orNone_weak _ _ _ identifier_text Id)).
Qed.
Print Assumptions C95_guidelines.
Lemma none_or (P : pyval -> Prop) v : (forall w, P w -> w <> PNone) -> is_none v = false -> orNone P v -> P v.
Proof. intros _ N [->|H]; [discriminate|exact H]. Qed.
Theorem C95_anchors : forall T a, keysOnce a -> (anchorValidator T a = true <-> goodAnchor T a).
Proof.
  intros T g K. assert (NN : forall w, isNum w -> w <> PNone) by (intros w [(? & ->)|[(? & ->)|(? & ->)]]; discriminate). split.
  - intro H. unfold anchorValidator in H. destruct (genericDictValidator g anchorProto) eqn:D; [|discriminate]. cbn [negb] in H.
    destruct (is_none (vget (u "x") g) || is_none (vget (u "y") g)) eqn:XY; [discriminate|]. apply orb_false_iff in XY as (X & Y).
    destruct (optionalIdentifierOk g) eqn:Id; [|discriminate]. cbn [negb] in H.
    split; [eapply keys_elim; [|exact D]; reflexivity|]. split; [exact (none_or _ _ NN X (orNone_num g "x" _ D eq_refl))|]. split; [exact (none_or _ _ NN Y (orNone_num g "y" _ D eq_refl))|].
    split; [exact (orNone_text g "name" _ D eq_refl)|]. split; [apply idOk_spec; assumption|apply colOk_spec; exact H].
  - intros ((d & -> & KS) & X & Y & Nm & Id & Co). unfold anchorValidator.
    rewrite (generic_intro anchorProto d); [|exact (proj1 K)|eapply keys_intro; [|exact KS]; reflexivity|nodupp|].
    + cbn [negb]. rewrite (proj2 (idOk_spec _) Id), (proj2 (colOk_spec T _) Co). cbn [negb].
      assert (Z : forall w, isNum w -> is_none w = false) by (intros w [(? & ->)|[(? & ->)|(? & ->)]]; reflexivity).
      unfold at_ in X, Y. rewrite (Z _ X), (Z _ Y). reflexivity.
    + intros k t r J. unfold anchorProto in J. pick J.
      * exact (optional_value is_number isNum "x" d number_iff (or_intror X)).
      * exact (optional_value is_number isNum "y" d number_iff (or_intror Y)).
      * exact (optional_value is_str text "name" d str_iff Nm).
      * exact (optional_value is_str text "color" d str_iff (orNone_weak _ _ _ (colour_text T) Co)).
      * exact (optional_value is_str text "identifier" d str_iff (orNone_weak _ _ _ identifier_text Id)).
Qed.
Print Assumptions C95_anchors.
Theorem C95_images : forall T i, keysOnce i -> (imageValidator T i = true <-> goodImage T i).
Proof.
  intros T g K. split.
  - intro H. unfold imageValidator in H. destruct (genericDictValidator g imageProto) eqn:D; [|discriminate]. cbn [negb] in H.
    split; [eapply keys_elim; [|exact D]; reflexivity|].
    assert (F : exists s, at_ "fileName" g = PStr s).
    { destruct (genericDict_get g imageProto (u "fileName") TStr true D eq_refl) as [(_ & _ & Q)|(_ & [(_ & Q)|Q])]; [discriminate|discriminate|]. apply str_iff. exact Q. }
    destruct F as (s & F). unfold at_ in F. rewrite F in H. split; [|split].
    + exists s. split; [exact F|]. intros ->. discriminate H.
    + intros k J. pick J; eapply orNone_num; try exact D; reflexivity.
    + apply colOk_spec. destruct s; [discriminate|exact H].
  - intros ((d & -> & KS) & (s & F & NE) & Nu & Co). unfold imageValidator.
    rewrite (generic_intro imageProto d); [|exact (proj1 K)|eapply keys_intro; [|exact KS]; reflexivity|nodupp|].
    + cbn [negb]. unfold at_ in F. rewrite F. rewrite (proj2 (colOk_spec T _) Co). destruct s; [contradiction|reflexivity].
    + intros k t r J. unfold imageProto in J. pick J;
        try (apply (optional_value is_number isNum _ d number_iff); apply Nu; cbn; tauto).
      * unfold at_, vget in F. cbn [items] in F. destruct (dget (u "fileName") d); [|discriminate]. right. subst. reflexivity.
      * exact (optional_value is_str text "color" d str_iff (orNone_weak _ _ _ (colour_text T) Co)).
Qed.
Print Assumptions C95_images.

(** ** font info *)
Section Complete.
Variable T : pytext.
Hypothesis laws : pytext_laws T.
Definition complete (f : pyval -> res bool) (sh : shape) : Prop := forall v, keysOnce v -> exactly T sh v -> f v = Ok true.
Lemma OkB (b : bool) : b = true -> Ok b = Ok true.
Proof. congruence. Qed.
Lemma intOf_int v z : intOf v z -> is_int v = true.
Proof. intros [->|(b & -> & _)]; reflexivity. Qed.
Lemma c_text : complete (fun v => Ok (genericTypeValidator v TStr)) Text.
Proof. intros v _ (s & ->). reflexivity. Qed.
Lemma c_int : complete (fun v => Ok (genericTypeValidator v TInt)) Integer.
Proof. intros v _ (z & Z). apply OkB. exact (intOf_int v z Z). Qed.
Lemma c_number : complete (fun v => Ok (genericTypeValidator v TNumber)) Number.
Proof. intros v _ H. apply OkB. apply number_iff. exact H. Qed.
Lemma c_bool : complete (fun v => Ok (genericTypeValidator v TBool)) Boolean.
Proof. intros v _ (b & ->). reflexivity. Qed.
Lemma nonneg_c v z : intOf v z -> (0 <= z)%Z -> genericNonNegativeIntValidator v = true.
Proof. intros Z P. unfold genericNonNegativeIntValidator. rewrite (intOf_int v z Z), (lt_int v z 0 Z). destruct (Z.ltb_spec z 0); [lia|reflexivity]. Qed.
Lemma c_nonneg : complete (fun v => Ok (genericNonNegativeIntValidator v)) NonNegative.
Proof. intros v _ (z & Z & P). apply OkB. exact (nonneg_c v z Z P). Qed.
Lemma c_weight : complete (fun v => Ok (fontInfoOpenTypeOS2WeightClassValidator v)) NonNegative.
Proof. intros v _ (z & Z & P). apply OkB. exact (nonneg_c v z Z P). Qed.
Lemma c_nonnegnum : complete (fun v => Ok (genericNonNegativeNumberValidator v)) NonNegativeNumber.
Proof. intros v _ (Nu & P). apply OkB. unfold genericNonNegativeNumberValidator. rewrite (proj2 (number_iff v) Nu), P. reflexivity. Qed.
Lemma c_width : complete (fun v => Ok (fontInfoOpenTypeOS2WidthClassValidator v)) (Between 1 9).
Proof.
  intros v _ (z & Z & P). apply OkB. unfold fontInfoOpenTypeOS2WidthClassValidator. rewrite (intOf_int v z Z), (lt_int v z 1 Z), (gt_int v z 9 Z).
  destruct (Z.ltb_spec z 1), (Z.ltb_spec 9 z); try lia. reflexivity.
Qed.
Lemma isin_c s l : In s l -> isin (PStr (u s)) (strs l) = true.
Proof. intro H. unfold isin. apply existsb_exists. exists (PStr (u s)). split; [unfold strs; apply in_map_iff; eauto|]. cbn [py_eq]. apply eqb_refl. Qed.
Lemma c_style : complete (fun v => Ok (fontInfoStyleMapStyleNameValidator v)) (OneOf ["regular"; "italic"; "bold"; "bold italic"]).
Proof. intros v _ (s & H & ->). apply OkB. apply isin_c. exact H. Qed.
Lemma c_charset : complete (fun v => Ok (fontInfoPostscriptWindowsCharacterSetValidator v)) CharSet.
Proof.
  intros v _ (z & P & E). apply OkB. unfold fontInfoPostscriptWindowsCharacterSetValidator, isin. apply existsb_exists. exists (PInt z). split.
  - apply in_map_iff. exists (Z.to_nat z). split; [f_equal; lia|apply in_seq; lia].
  - destruct v; try discriminate; exact E.
Qed.
Lemma seqOf_seq v l : seqOf v l -> is_seq v = true /\ elems v = l.
Proof. intros [->| ->]; split; reflexivity. Qed.
Lemma intList_c v l xs : seqOf v xs -> (forall x, In x xs -> exists z, intOf x z /\ In z l) -> genericIntListValidator v l = Ok true.
Proof.
  intros S H. apply seqOf_seq in S as (S & E). unfold genericIntListValidator. rewrite S, E. cbn [negb].
  rewrite (proj2 (forallb_forall hashable xs)); [cbn [negb]|intros x J; destruct (H x J) as (z & [->|(b & -> & _)] & _); reflexivity].
  rewrite (proj2 (forallb_forall (fun v0 => isin v0 (map PInt l)) xs)); [cbn [negb]|].
  - apply OkB. apply forallb_forall. intros x J. destruct (H x J) as (z & Z & _). exact (intOf_int x z Z).
  - intros x J. destruct (H x J) as (z & Z & I). unfold isin. apply existsb_exists. exists (PInt z). split; [apply in_map; exact I|].
    pose proof (eq_int x z z Z) as Q. rewrite Z.eqb_refl in Q. destruct Z as [->|(b & -> & _)]; exact Q.
Qed.
Lemma c_intlist l : complete (fun v => genericIntListValidator v l) (IntsFrom l).
Proof. intros v _ (xs & S & H). exact (intList_c v l xs S H). Qed.
Lemma numbers_c n e v : ofShape T (Numbers n e) v -> numberList n e v = true.
Proof.
  intros (xs & S & L & E & F). apply seqOf_seq in S as (S & Q). unfold numberList. rewrite S, Q. cbn [negb].
  destruct (Nat.ltb_spec n (length xs)); [lia|].
  assert (e && Nat.odd (length xs) = false) as ->.
  { destruct e; [|reflexivity]. cbn. specialize (E eq_refl). apply Nat.even_spec in E. rewrite <- Nat.negb_even, E. reflexivity. }
  apply forallb_forall. rewrite Forall_forall in F. intros x J. apply number_iff. apply F. exact J.
Qed.
Lemma c_blues : complete (fun v => Ok (fontInfoPostscriptBluesValidator v)) (Numbers 14 true).
Proof. intros v _ H. apply OkB. apply numbers_c. exact H. Qed.
Lemma c_otherblues : complete (fun v => Ok (fontInfoPostscriptOtherBluesValidator v)) (Numbers 10 true).
Proof. intros v _ H. apply OkB. apply numbers_c. exact H. Qed.
Lemma c_stems : complete (fun v => Ok (fontInfoPostscriptStemsValidator v)) (Numbers 12 false).
Proof. intros v _ H. apply OkB. apply numbers_c. exact H. Qed.
Lemma c_panose : complete (fun v => Ok (fontInfoVersion3OpenTypeOS2PanoseValidator v)) Panose.
Proof.
  intros v _ (xs & S & L & H). apply OkB. apply seqOf_seq in S as (S & Q). unfold fontInfoVersion3OpenTypeOS2PanoseValidator. rewrite S, Q, L. cbn [negb Nat.eqb].
  apply forallb_forall. intros x J. destruct (H x J) as (z & Z & P). exact (nonneg_c x z Z P).
Qed.
Lemma c_family : complete (fun v => Ok (fontInfoOpenTypeOS2FamilyClassValidator v)) FamilyClass.
Proof.
  intros v _ (a & b & x & y & S & X & Y & Px & Py). apply OkB. apply seqOf_seq in S as (S & Q). unfold fontInfoOpenTypeOS2FamilyClassValidator. rewrite S, Q. cbn [negb forallb].
  rewrite (intOf_int a x X), (intOf_int b y Y). cbn [andb negb]. rewrite (lt_int a x 0 X), (gt_int a x 14 X), (lt_int b y 0 Y), (gt_int b y 15 Y).
  destruct (Z.ltb_spec x 0), (Z.ltb_spec 14 x), (Z.ltb_spec y 0), (Z.ltb_spec 15 y); try lia. reflexivity.
Qed.
Lemma digits_plain n s c : digits n s -> In c s -> (48 <= c <= 57)%N.
Proof. intros (_ & F). rewrite Forall_forall in F. apply F. Qed.
Lemma realDate_plain s : realDate s -> plainDate s.
Proof.
  intros (y & m & d & h & mi & se & days & -> & Y & M & D & H & Mi & Se & _). intros c J. unfold dateString in J. rewrite !in_app_iff in J. cbn [In] in *.
  repeat match type of J with _ \/ _ => destruct J as [J|J] end; try (left; eapply digits_plain; [|exact J]; eassumption); subst; try tauto.
Qed.
Lemma c_date : complete (fun v => Ok (fontInfoOpenTypeHeadCreatedValidator T v)) DateTime.
Proof. intros v _ (s & -> & R). apply OkB. apply C40_real_dates_partial; [exact laws|apply realDate_plain; exact R|exact R]. Qed.
Lemma c_guidelines : complete (fun v => Ok (fst (guidelinesValidator T v []))) GuideLines.
Proof.
  intros v K (l & -> & ND & F). apply OkB. apply C44_complete; [exact ND|intros s _ []|]. apply Forall_forall. rewrite Forall_forall in F. intros g J.
  apply C95_guidelines; [eapply keys_list; eassumption|apply F; exact J].
Qed.
(** records *)
Definition simpleField (f : string * need * shape) : bool :=
  match snd f with Text | OneOf _ | Integer | NonNegative | ListOf _ _ => true | _ => false end.
Lemma simple_type f x : simpleField f = true -> ofShape T (snd f) x -> isinstance x (typeOf (snd f)) = true.
Proof.
  unfold simpleField. destruct (snd f); try discriminate; intros _ H; cbn [typeOf isinstance]; cbn [ofShape] in H.
  - destruct H as (s & ->). reflexivity.
  - destruct H as (z & Z). exact (intOf_int x z Z).
  - destruct H as (z & Z & _). exact (intOf_int x z Z).
  - destruct H as (s & _ & ->). reflexivity.
  - destruct H as (xs & -> & _). reflexivity.
Qed.
Lemma record_field fs v f : ofShape T (Record fs) v -> In f fs -> itemOk (ofShape T (snd f)) (snd (fst f)) (dget (u (fst (fst f))) (items v)).
Proof.
  cbn [ofShape]. intros (d & -> & _ & H) J. cbn [items]. revert H J. induction fs as [|[[n nd] s] r IH]; [intros _ []|]. intros (A & B) [<-|J]; [exact A|apply IH; assumption].
Qed.
Lemma record_generic fs v : NoDup (map (fun f => u (fst (fst f))) fs) -> forallb simpleField fs = true -> keysOnce v -> ofShape T (Record fs) v ->
  genericDictValidator v (protoOf fs) = true.
Proof.
  intros ND S K H. pose proof (fun f => record_field fs v f H) as RF. destruct H as (d & -> & KS & _). cbn [items] in RF. apply generic_intro.
  - exact (proj1 K).
  - intros k x J. destruct (KS k x J) as (n & Hn & ->). exists (u n). split; [|reflexivity]. unfold protoOf. rewrite map_map. cbn [fst].
    apply in_map_iff in Hn as (f & <- & Hf). apply in_map_iff. exists f. auto.
  - unfold protoOf. rewrite map_map. exact ND.
  - intros k t r J. unfold protoOf in J. apply in_map_iff in J as (f & E & Hf). inversion E; subst. specialize (RF f Hf). rewrite forallb_forall in S. specialize (S f Hf).
    destruct (dget (u (fst (fst f))) d) as [x|]; cbn [itemOk] in RF.
    + destruct RF as [RF|(Q & ->)]; [right; apply simple_type; assumption|left; rewrite Q; auto].
    + destruct (snd (fst f)); try reflexivity. contradiction.
Qed.
Lemma dir_c fs v : ofShape T (Record fs) v -> In dir_ fs -> badDir v = false.
Proof.
  intros H J. apply (record_field fs v dir_ H) in J. cbn [dir_ fst snd] in J. unfold badDir, vhas, vget. destruct (dget (u "dir") (items v)) as [x|]; [|reflexivity].
  cbn [andb]. destruct J as [J|(Q & _)]; [|discriminate]. destruct J as (s & Hs & ->). rewrite (isin_c s _ Hs). reflexivity.
Qed.
Lemma list_c fs v n nd least sh : ofShape T (Record fs) v -> In (n, nd, ListOf least sh) fs -> nd <> Optional ->
  (vhas (u n) v = false /\ nd <> Required) \/ (exists xs, vget (u n) v = PList xs /\ vhas (u n) v = true /\ least <= length xs /\ Forall (ofShape T sh) xs).
Proof.
  intros H J O. apply (record_field fs v _ H) in J. cbn [fst snd] in J. unfold vhas, vget. destruct (dget (u n) (items v)) as [x|]; cbn [itemOk] in J.
  - right. destruct J as [(xs & -> & L & F)|(Q & _)]; [|contradiction]. exists xs. auto.
  - left. auto.
Qed.
Lemma list_r fs v n least sh : ofShape T (Record fs) v -> In (n, Required, ListOf least sh) fs ->
  exists xs, vget (u n) v = PList xs /\ least <= length xs /\ Forall (ofShape T sh) xs.
Proof. intros H J. destruct (list_c fs v n Required least sh H J ltac:(discriminate)) as [(_ & Q)|(xs & E & _ & L & F)]; [contradiction|eauto]. Qed.
Lemma keys_item v n l : keysOnce v -> vget (u n) v = PList l -> forall x, In x l -> keysOnce x.
Proof.
  intros K E x J. destruct v; try (discriminate E). unfold vget in E. cbn [items] in E. destruct (dget (u n) d) as [y|] eqn:D; [|discriminate]. subst y.
  apply dget_In in D. eapply keys_list; [|exact J]. eapply keys_in; eassumption.
Qed.
Lemma all_c f sh l : (forall v, keysOnce v -> ofShape T sh v -> f v = true) -> (forall x, In x l -> keysOnce x) -> Forall (ofShape T sh) l -> forallb f l = true.
Proof. intros C K F. apply forallb_forall. rewrite Forall_forall in F. intros x J. apply C; auto. Qed.
Ltac gen K H := refine (record_generic _ _ _ _ K H); [nodupp|reflexivity].
Lemma text_c v : keysOnce v -> ofShape T textRecord v -> fontInfoWOFFMetadataTextValue v = true.
Proof.
  intros K H. unfold fontInfoWOFFMetadataTextValue. assert (G : genericDictValidator v textProto = true) by gen K H.
  rewrite G, (dir_c _ v H ltac:(cbn; tauto)). reflexivity.
Qed.
Lemma c_uniqueID : complete (fun v => Ok (fontInfoWOFFMetadataUniqueIDValidator v)) (Record [("id", Required, Text)]).
Proof. intros v K H. apply OkB. gen K H. Qed.
Lemma c_vendor : complete (fun v => Ok (fontInfoWOFFMetadataVendorValidator v)) (Record [("name", Required, Text); ("url", Optional, Text); dir_; class_]).
Proof.
  intros v K H. apply OkB. unfold fontInfoWOFFMetadataVendorValidator.
  assert (G : genericDictValidator v [req "name" TStr; opt "url" TStr; opt "dir" TStr; opt "class" TStr] = true) by gen K H.
  rewrite G, (dir_c _ v H ltac:(cbn; tauto)). reflexivity.
Qed.
Lemma c_licensee : complete (fun v => Ok (fontInfoWOFFMetadataLicenseeValidator v)) (Record [("name", Required, Text); dir_; class_]).
Proof.
  intros v K H. apply OkB. unfold fontInfoWOFFMetadataLicenseeValidator.
  assert (G : genericDictValidator v [req "name" TStr; opt "dir" TStr; opt "class" TStr] = true) by gen K H.
  rewrite G, (dir_c _ v H ltac:(cbn; tauto)). reflexivity.
Qed.
Lemma c_credits : complete (fun v => Ok (fontInfoWOFFMetadataCreditsValidator v)) (Record [("credits", Required, ListOf 1 (Record
       [("name", Required, Text); ("url", Optional, Text); ("role", Optional, Text); dir_; class_]))]).
Proof.
  intros v K H. apply OkB. unfold fontInfoWOFFMetadataCreditsValidator. cbn [exactly] in H.
  assert (G : genericDictValidator v [req "credits" TList] = true) by gen K H.
  rewrite G. cbn [negb]. destruct (list_r _ v "credits" _ _ H ltac:(left; reflexivity)) as (xs & E & L & F). pose proof (keys_item v "credits" xs K E) as KX. rewrite E. cbn [elems].
  destruct xs as [|x xs]; [cbn in L; lia|]. eapply all_c; [|exact KX|exact F]. cbv beta. intros w Kw Hw.
  assert (Gw : genericDictValidator w creditProto = true) by gen Kw Hw.
  rewrite Gw, (dir_c _ w Hw ltac:(cbn; tauto)). reflexivity.
Qed.
Lemma c_description : complete (fun v => Ok (fontInfoWOFFMetadataDescriptionValidator v)) (Record [("url", Optional, Text); ("text", Required, ListOf 0 textRecord)]).
Proof.
  intros v K H. apply OkB. unfold fontInfoWOFFMetadataDescriptionValidator. cbn [exactly] in H.
  assert (G : genericDictValidator v [opt "url" TStr; req "text" TList] = true) by gen K H.
  rewrite G. cbn [negb]. destruct (list_r _ v "text" _ _ H ltac:(right; left; reflexivity)) as (xs & E & L & F). pose proof (keys_item v "text" xs K E) as KX. rewrite E. cbn [elems].
  eapply all_c; [exact text_c|exact KX|exact F].
Qed.
Lemma c_trademark : complete (fun v => Ok (fontInfoWOFFMetadataTrademarkValidator v)) (Record [("text", Required, ListOf 0 textRecord)]).
Proof.
  intros v K H. apply OkB. unfold fontInfoWOFFMetadataTrademarkValidator. cbn [exactly] in H.
  assert (G : genericDictValidator v [req "text" TList] = true) by gen K H.
  rewrite G. cbn [negb]. destruct (list_r _ v "text" _ _ H ltac:(left; reflexivity)) as (xs & E & L & F). pose proof (keys_item v "text" xs K E) as KX. rewrite E. cbn [elems].
  eapply all_c; [exact text_c|exact KX|exact F].
Qed.
Lemma c_license : complete fontInfoWOFFMetadataLicenseValidator (Record [("url", Optional, Text); ("text", OptionalNotNone, ListOf 0 textRecord); ("id", Optional, Text)]).
Proof.
  intros v K H. unfold fontInfoWOFFMetadataLicenseValidator. cbn [exactly] in H.
  assert (G : genericDictValidator v [opt "url" TStr; opt "text" TList; opt "id" TStr] = true) by gen K H.
  rewrite G. cbn [negb]. destruct (list_c _ v "text" _ _ _ H ltac:(right; left; reflexivity) ltac:(discriminate)) as [(E & _)|(xs & E & V & L & F)].
  - rewrite E. reflexivity.
  - pose proof (keys_item v "text" xs K E) as KX. rewrite V, E. cbn [iter bind]. apply OkB. eapply all_c; [exact text_c|exact KX|exact F].
Qed.
Lemma c_names : complete (fun v => Ok (fontInfoOpenTypeNameRecordsValidator v)) (ListOf 0 (Record [("nameID", Required, Integer); ("platformID", Required, Integer);
       ("encodingID", Required, Integer); ("languageID", Required, Integer); ("string", Required, Text)])).
Proof.
  intros v K (xs & -> & _ & F). apply OkB. unfold fontInfoOpenTypeNameRecordsValidator. cbn [is_list negb elems].
  eapply all_c; [|intros x J; eapply keys_list; eassumption|exact F]. intros w Kw Hw. gen Kw Hw.
Qed.
Lemma item_c v : keysOnce v -> ofShape T (Record [("id", Optional, Text); ("names", Required, ListOf 0 textRecord); ("values", Required, ListOf 0 textRecord)]) v ->
  fontInfoWOFFMetadataExtensionItemValidator v = true.
Proof.
  intros K H. unfold fontInfoWOFFMetadataExtensionItemValidator.
  assert (G : genericDictValidator v [opt "id" TStr; req "names" TList; req "values" TList] = true) by gen K H.
  rewrite G. cbn [negb]. destruct (list_r _ v "names" _ _ H ltac:(right; left; reflexivity)) as (xs & E & _ & F).
  destruct (list_r _ v "values" _ _ H ltac:(right; right; left; reflexivity)) as (ys & E' & _ & F'). rewrite E, E'. cbn [elems].
  unfold fontInfoWOFFMetadataExtensionNameValidator, fontInfoWOFFMetadataExtensionValueValidator.
  rewrite (all_c _ _ xs text_c (keys_item v "names" xs K E) F), (all_c _ _ ys text_c (keys_item v "values" ys K E') F'). reflexivity.
Qed.
Lemma extension_c v : keysOnce v -> ofShape T (Record
       [("names", OptionalNotNone, ListOf 0 textRecord);
        ("items", Required, ListOf 0 (Record [("id", Optional, Text); ("names", Required, ListOf 0 textRecord); ("values", Required, ListOf 0 textRecord)]));
        ("id", Optional, Text)]) v -> fontInfoWOFFMetadataExtensionValidator v = Ok true.
Proof.
  intros K H. unfold fontInfoWOFFMetadataExtensionValidator.
  assert (G : genericDictValidator v [opt "names" TList; req "items" TList; opt "id" TStr] = true) by gen K H.
  rewrite G. cbn [negb]. destruct (list_r _ v "items" _ _ H ltac:(right; left; reflexivity)) as (ys & E' & _ & F'). rewrite E'. cbn [elems].
  rewrite (all_c _ _ ys item_c (keys_item v "items" ys K E') F').
  destruct (list_c _ v "names" _ _ _ H ltac:(left; reflexivity) ltac:(discriminate)) as [(E & _)|(xs & E & V & L & F)].
  - rewrite E. reflexivity.
  - rewrite V, E. cbn [iter bind]. unfold fontInfoWOFFMetadataExtensionNameValidator. rewrite (all_c _ _ xs text_c (keys_item v "names" xs K E) F). reflexivity.
Qed.
Lemma c_extensions : complete fontInfoWOFFMetadataExtensionsValidator (ListOf 1 (Record
       [("names", OptionalNotNone, ListOf 0 textRecord);
        ("items", Required, ListOf 0 (Record [("id", Optional, Text); ("names", Required, ListOf 0 textRecord); ("values", Required, ListOf 0 textRecord)]));
        ("id", Optional, Text)])).
Proof.
  intros v K (xs & -> & L & F). unfold fontInfoWOFFMetadataExtensionsValidator. cbn [is_list negb elems]. destruct xs as [|x xs]; [cbn in L; lia|].
  assert (KX : forall y, In y (x :: xs) -> keysOnce y) by (intros y J; eapply keys_list; eassumption). clear K L. induction F as [|y l Hy _ IH]; [reflexivity|]. cbn [allM].
  rewrite (extension_c y (KX y ltac:(left; reflexivity)) Hy). cbn [bind]. apply IH. intros z J. apply KX. right. exact J.
Qed.
Lemma zsort_id l : LocallySorted Z.le l -> zsort l = l.
Proof.
  intro S. induction S as [|a|a b m S IH L]; [reflexivity..|]. change (zsort (a :: b :: m)) with (zinsert a (zsort (b :: m))). rewrite IH. cbn [zinsert].
  destruct (Z.leb_spec a b); [reflexivity|lia].
Qed.
Lemma gasp_c r z : keysOnce r -> gaspRange r z -> gaspRecord r = Ok true /\ zval (vget (u "rangeMaxPPEM") r) = z.
Proof.
  intros K (Z & P & (l & E & B) & KS). unfold at_ in *. assert (exists d, r = PDict d) as (d & ->).
  { destruct r; try (discriminate E). eauto. }
  split; [|destruct Z as [->|(b & -> & ->)]; [reflexivity|destruct b; reflexivity]]. unfold gaspRecord.
  rewrite (generic_intro gaspProto d (proj1 K)); [cbn [negb]| |nodupp|].
  - rewrite (nonneg_c _ z Z P). cbn [negb]. apply (intList_c _ _ l); [left; exact E|]. intros x J. destruct (B x J) as (w & W & Q). exists w. split; [exact W|]. cbn. lia.
  - intros k x J. destruct (KS k x J) as [->| ->]; eexists; (split; [|reflexivity]); cbn; tauto.
  - intros k t rq J. unfold gaspProto in J. unfold vget in E, Z. cbn [items] in E, Z. pick J.
    + destruct (dget (u "rangeMaxPPEM") d); [right; exact (intOf_int _ z Z)|]. destruct Z as [Q|(b & Q & _)]; discriminate Q.
    + destruct (dget (u "rangeGaspBehavior") d); [right; subst; reflexivity|discriminate E].
Qed.
Lemma c_gasp : complete fontInfoOpenTypeGaspRangeRecordsValidator Gasp.
Proof.
  intros v K (l & ppems & -> & F & S). unfold fontInfoOpenTypeGaspRangeRecordsValidator. cbn [is_list negb elems].
  assert (KX : forall y, In y l -> keysOnce y) by (intros y J; eapply keys_list; eassumption). clear K.
  assert (allM gaspRecord l = Ok true /\ map (fun r => zval (vget (u "rangeMaxPPEM") r)) l = ppems) as (A & B).
  { clear S. induction F as [|r z l zs Hr _ IH]; [split; reflexivity|]. destruct (gasp_c r z (KX r ltac:(left; reflexivity)) Hr) as (G1 & G2).
    destruct IH as (I1 & I2); [intros y J; apply KX; right; exact J|]. cbn [allM map]. rewrite G1, G2, I2. split; [exact I1|reflexivity]. }
  destruct l as [|r l]; [reflexivity|]. rewrite A. cbn [bind negb]. cbv zeta. rewrite B, (zsort_id _ S). apply OkB. apply eqb_refl.
Qed.
Ltac entry := cbn [fst snd];
  match goal with |- match shapeOf ?a with _ => _ end =>
    let r := eval vm_compute in (shapeOf a) in change (shapeOf a) with r; cbv iota end;
  first [apply c_text|apply c_int|apply c_number|apply c_bool|apply c_nonneg|apply c_weight|apply c_nonnegnum|apply c_width|apply c_style|apply c_charset
    |apply c_intlist|apply c_blues|apply c_otherblues|apply c_stems|apply c_panose|apply c_family|apply c_date|apply c_guidelines|apply c_gasp
    |apply c_names|apply c_uniqueID|apply c_vendor|apply c_credits|apply c_description|apply c_license|apply c_trademark|apply c_licensee|apply c_extensions].
Lemma all_complete attr f : get attr (fontInfoAttributesVersion3ValueData T) = Some f ->
  match shapeOf attr with Some sh => complete f sh | None => False end.
Proof.
  apply (table3 T (fun attr f => match shapeOf attr with Some sh => complete f sh | None => False end)).
  - unfold version3Update. repeat (apply Forall_cons; [entry|]). apply Forall_nil.
  - unfold fontInfoAttributesVersion2ValueData. repeat (apply Forall_cons; [first [left; vm_compute; reflexivity|right; entry]|]). apply Forall_nil.
Qed.
End Complete.

Lemma shape_unique name sh : In (name, sh) documented -> shapeOf (u name) = Some sh.
Proof.
  intro J. assert (ND : NoDup (map (fun e => u (fst e)) documented)) by nodupp. unfold shapeOf.
  revert ND J. generalize documented as l. induction l as [|[n s] r IH]; [intros _ []|]. cbn [map fst]. intro ND. inversion ND as [|? ? N1 N2]; subst. intros [E|J].
  - inversion E; subst. cbn [List.find fst]. rewrite eqb_refl. reflexivity.
  - cbn [List.find fst]. destruct (eqb_spec (u n) (u name)) as [E|]; [|apply IH; assumption]. exfalso. apply N1. apply in_map_iff. exists (name, sh). split; [symmetry; exact E|exact J].
Qed.
(** every value of the documented form is accepted *)
Theorem C95_fontinfo_accepts : forall T name sh v, pytext_laws T -> keysOnce v ->
  In (name, sh) documented -> exactly T sh v -> accepted T (u name) v.
Proof.
  intros T name sh v laws K J H. unfold accepted, validateFontInfoVersion3ValueForAttribute, validateForAttribute.
  assert (I : In (u name) (fontInfoAttributesVersion3 T)).
  { assert (A : forallb (fun e => mem (u (fst e)) (fontInfoAttributesVersion3 T)) documented = true) by (vm_compute; reflexivity).
    rewrite forallb_forall in A. apply mem_In. exact (A _ J). }
  destruct (get (u name) (fontInfoAttributesVersion3ValueData T)) as [f|] eqn:G; [|apply get_None in G; contradiction].
  apply (all_complete T laws) in G. rewrite (shape_unique name sh J) in G. exact (G v K H).
Qed.
Print Assumptions C95_fontinfo_accepts.
(** partial: and only these, if the date is made of digits, slashes, colons and
    spaces.  Missing: the other dates, see C40_real_dates_refuted. *)
Theorem C95_fontinfo_exact_partial : forall T attr v, pytext_laws T -> keysOnce v ->
  (attr = u "openTypeHeadCreated" -> forall s, v = PStr s -> plainDate s) ->
  (accepted T attr v <-> exists name sh, attr = u name /\ In (name, sh) documented /\ exactly T sh v).
Proof.
  intros T attr v laws K D. split.
  - intro H. destruct (C38_documented_types_partial T attr v laws H) as (name & sh & -> & J & S). exists name, sh. split; [reflexivity|]. split; [exact J|].
    assert (Dt : sh = DateTime -> name = "openTypeHeadCreated").
    { intros ->. assert (A : Forall (fun e => snd e = DateTime -> fst e = "openTypeHeadCreated") documented).
      { unfold documented. cbn [map app]. repeat (apply Forall_cons; [cbn [fst snd]; first [discriminate|reflexivity|idtac]|]). apply Forall_nil. }
      rewrite Forall_forall in A. exact (A _ J eq_refl). }
    assert (Gl : sh = GuideLines -> name = "guidelines").
    { intros ->. assert (A : Forall (fun e => snd e = GuideLines -> fst e = "guidelines") documented).
      { unfold documented. cbn [map app]. repeat (apply Forall_cons; [cbn [fst snd]; first [discriminate|reflexivity|idtac]|]). apply Forall_nil. }
      rewrite Forall_forall in A. exact (A _ J eq_refl). }
    destruct sh; try exact S.
    + destruct S as (s & -> & S). exists s. split; [reflexivity|]. apply S. apply (D (f_equal u (Dt eq_refl)) s eq_refl).
    + destruct S as (l & -> & ND & S). exists l. split; [reflexivity|]. split; [exact ND|]. apply Forall_forall. intros g Jg.
      apply C95_guidelines; [eapply keys_list; eassumption|]. rewrite (Gl eq_refl) in H.
      assert (Q : fst (guidelinesValidator T (PList l) []) = true) by exact (OkTrue H).
      destruct (guidelinesValidator T (PList l) []) as [b ids] eqn:E. cbn [fst] in Q. subst b. apply C44_guidelines_unique in E as (l' & Q & F & _). inversion Q; subst l'.
      rewrite Forall_forall in F. apply F. exact Jg.
  - intros (name & sh & -> & J & H). exact (C95_fontinfo_accepts T name sh v laws K J H).
Qed.
Print Assumptions C95_fontinfo_exact_partial.
(** lists of guidelines and anchors: exactly the good ones with identifiers
    that are distinct and not in use *)
Theorem C95_lists : forall T v used, keysOnce v ->
  (fst (guidelinesValidator T v used) = true <->
     exists l, v = PList l /\ Forall (goodGuideline T) l /\ NoDup (identifiersOf l) /\ forall s, In s (identifiersOf l) -> ~ In s used) /\
  (fst (anchorsValidator T v used) = true <->
     exists l, v = PList l /\ Forall (goodAnchor T) l /\ NoDup (identifiersOf l) /\ forall s, In s (identifiersOf l) -> ~ In s used).
Proof.
  intros T v used K. split; split.
  - intro H. destruct (guidelinesValidator T v used) as [b ids] eqn:E. cbn [fst] in H. subst b. apply C44_guidelines_unique in E as (l & -> & F & ND & D & _).
    exists l. split; [reflexivity|]. split; [|auto]. apply Forall_forall. rewrite Forall_forall in F. intros g J. apply C95_guidelines; [eapply keys_list; eassumption|auto].
  - intros (l & -> & F & ND & D). apply C44_complete; [exact ND|exact D|]. apply Forall_forall. rewrite Forall_forall in F. intros g J. apply C95_guidelines; [eapply keys_list; eassumption|auto].
  - intro H. destruct (anchorsValidator T v used) as [b ids] eqn:E. cbn [fst] in H. subst b. apply C44_anchors_unique in E as (l & -> & F & ND & D & _).
    exists l. split; [reflexivity|]. split; [|auto]. apply Forall_forall. rewrite Forall_forall in F. intros g J. apply C95_anchors; [eapply keys_list; eassumption|auto].
  - intros (l & -> & F & ND & D). apply C44_complete; [exact ND|exact D|]. apply Forall_forall. rewrite Forall_forall in F. intros g J. apply C95_anchors; [eapply keys_list; eassumption|auto].
Qed.
Print Assumptions C95_lists.
Example C95_case :
  accepted asciiText (u "guidelines") (PList [dictOf [("x", PInt 1); ("color", PStr (u "1,0,.5,1")); ("identifier", PStr (u "a"))]; dictOf [("y", PInt 7)]]) /\
  ~ accepted asciiText (u "guidelines") (PList [dictOf [("x", PInt 1); ("color", PStr (u "1,0,5"))]]) /\
  imageValidator asciiText (dictOf [("fileName", PStr (u "a.png")); ("xScale", PFloat (S754_finite false 1 (-1)))]) = true /\
  imageValidator asciiText (dictOf [("fileName", PStr [])]) = false /\
  anchorValidator asciiText (dictOf [("x", PInt 1)]) = false.
Proof. unfold accepted. repeat split; vm_compute; try reflexivity; discriminate. Qed.

(** ** Libs *)
Definition goodFontLib (v : pyval) : Prop :=
  exists d, v = PDict d /\ forall k x, In (k, x) d -> text k /\
    (k = PStr (u "public.glyphOrder") -> exists l, (x = PList l \/ x = PTuple l) /\ forall g, In g l -> text g).
Definition goodGlyphLib (T : pytext) (v : pyval) : Prop :=
  exists d, v = PDict d /\ forall k x, In (k, x) d -> text k /\ (k = PStr (u "public.markColor") -> colour T x).
Lemma allM_true {A} (f : A -> res bool) l : allM f l = Ok true <-> forall x, In x l -> f x = Ok true.
Proof.
  induction l as [|a l IH]; cbn [allM]; [split; [intros _ x []|reflexivity]|]. split.
  - intro H. apply bind_Ok in H as (b & Hb & H). destruct b; [|discriminate H]. intros x [<-|J]; [exact Hb|]. apply IH; assumption.
  - intro H. rewrite (H a) by (left; reflexivity). cbn [bind]. apply IH. intros x J. apply H. right. exact J.
Qed.
Theorem C95_libs : forall T v,
  (fontLibValidator v = true <-> goodFontLib v) /\ (glyphLibValidator T v = Ok true <-> goodGlyphLib T v).
Proof.
  intros T v. split; split.
  - intro H. apply andb_true_iff in H as [D H]. destruct v; try discriminate D. exists d. split; [reflexivity|]. intros k x J. rewrite forallb_forall in H. specialize (H _ J). cbn beta iota in H.
    destruct k; try discriminate H. split; [eexists; reflexivity|]. intro E. injection E as ->. rewrite eqb_refl in H. apply andb_true_iff in H as [S H]. rewrite forallb_forall in H.
    destruct x as [| | | | | | |l|l| |]; try discriminate S; (exists l; split; [auto|intros g G; apply str_iff, H, G]).
  - intros (d & -> & H). apply andb_true_iff. split; [reflexivity|]. apply forallb_forall. intros [k x] J. destruct (H k x J) as [(s & ->) G]. destruct (eqb_spec s (u "public.glyphOrder")) as [->|]; [|reflexivity].
    destruct (G eq_refl) as (l & [-> | ->] & L); (apply andb_true_iff; split; [reflexivity|]; apply forallb_forall; intros g I; apply str_iff, L, I).
  - intro H. unfold glyphLibValidator in H. destruct (is_dict v) eqn:D; [|discriminate H]. destruct v; try discriminate D. exists d. split; [reflexivity|]. cbn [negb items] in H.
    intros k x J. pose proof (proj1 (allM_true _ _) H _ J) as G. cbn beta iota in G. destruct k as [| | | |s| | | |[|? [|]]| |]; try discriminate G. split; [eexists; reflexivity|].
    intro E. injection E as ->. rewrite eqb_refl in G. apply C42_colors_partial. injection G as G. exact G.
  - intros (d & -> & H). unfold glyphLibValidator. cbn [is_dict negb items]. apply allM_true. intros [k x] J. destruct (H k x J) as [(s & ->) G].
    destruct (eqb_spec s (u "public.markColor")) as [->|]; [|reflexivity]. f_equal. apply C42_colors_partial. apply G. reflexivity.
Qed.
Print Assumptions C95_libs.
Example C95_libs_case :
  fontLibValidator (dictOf [("public.glyphOrder", PList [PStr (u "A")]); ("x", PInt 1)]) = true /\
  fontLibValidator (dictOf [("public.glyphOrder", PList [PInt 1])]) = false /\ fontLibValidator (dictOf [("public.glyphOrder", PStr (u "A"))]) = false /\
  glyphLibValidator asciiText (dictOf [("public.markColor", PStr (u "1,0,0,1"))]) = Ok true /\ glyphLibValidator asciiText (dictOf [("public.markColor", PStr (u "1,0,0"))]) = Ok false.
Proof. vm_compute. repeat split. Qed.

(** ** Layer info: validation refuses exactly what has not the documented form *)
From Verif Require Import FS Ufo.
Definition goodLayerInfo (T : pytext) (l : list (pyval * pyval)) : Prop :=
  forall k x, In (k, x) l -> (k = PStr (u "color") /\ colour T x) \/ (k = PStr (u "lib") /\ exists d, x = PDict d).
Lemma layerInfo_spec T l : layerInfoOk T l = true <-> goodLayerInfo T l.
Proof.
  unfold layerInfoOk. rewrite forallb_forall. split.
  - intros H k x J. specialize (H _ J). cbn beta iota in H. destruct k; try discriminate H. destruct (eqb_spec s (u "color")) as [->|]; [left; split; [reflexivity|apply C42_colors_partial; exact H]|].
    destruct (eqb_spec s (u "lib")) as [->|]; [|discriminate H]. right. split; [reflexivity|]. destruct x; try discriminate H. eexists. reflexivity.
  - intros H [k x] J. destruct (H k x J) as [[-> G]|[-> (d & ->)]]; [|reflexivity]. rewrite eqb_refl. apply C42_colors_partial. exact G.
Qed.
Theorem C95_layer_info : forall C T,
  (forall t l, readLayerInfo C T t false = Ok l ->
     readLayerInfo C T t true = Ok l /\ goodLayerInfo T l \/ readLayerInfo C T t true = Err GlifLibError /\ ~ goodLayerInfo T l) /\
  (forall prev info s, let given a (P : pyval -> Prop) := forall x : pyval, get (u a) info = Some x -> x <> PNone -> P x in
     let good := given "color" (colour T) /\ given "lib" (fun x => truthy x = true -> exists d, x = PDict d) in
     good /\ writeLayerInfo C T 3 prev info true s = writeLayerInfo C T 3 prev info false s \/
     ~ good /\ writeLayerInfo C T 3 prev info true s = raise GlifLibError s).
Proof.
  intros C T. split.
  - intros t l H. unfold readLayerInfo in *. apply bind_Ok in H as (d & Ed & H). rewrite Ed. cbn [bind]. destruct d; try discriminate H. injection H as ->.
    pose proof (layerInfo_spec T l) as S. destruct (layerInfoOk T l); [left; split; [reflexivity|apply S; reflexivity]|right]. split; [reflexivity|]. intro G. apply S in G. discriminate G.
  - intros prev info s given good.
    assert (B : layerInfoOk T (items (infoVal (gatherLayerInfo info))) = true <-> good).
    { rewrite layerInfo_spec. unfold goodLayerInfo, good, given, gatherLayerInfo, infoVal, layerAttrs. cbn [flat_map items]. rewrite app_nil_r. split.
      - intro H. split.
        + intros x G N. destruct (H (PStr (u "color")) x) as [[_ K]|[K _]]; [|exact K|discriminate K].
          rewrite G. destruct x; try congruence; cbn [andb eqb]; left; reflexivity.
        + intros x G N V. destruct (H (PStr (u "lib")) x) as [[K _]|[_ K]]; [|discriminate K|exact K].
          rewrite map_app. apply in_or_app. right. rewrite G, V. destruct x; try congruence; cbn [andb negb map]; rewrite ?andb_false_r; left; reflexivity.
      - intros [H1 H2] k x J. rewrite map_app in J. apply in_app_or in J as [J|J].
        + left. destruct (get (u "color") info) as [w|] eqn:G; [|destruct J]. specialize (H1 w eq_refl). destruct w; cbn in J; try contradiction; (destruct J as [J|[]]; injection J as <- <-; split; [reflexivity|apply H1; discriminate]).
        + right. destruct (get (u "lib") info) as [w|] eqn:G; [|destruct J]. specialize (H2 w eq_refl). destruct w; try contradiction; (match type of J with context [truthy ?w] => destruct (truthy w) eqn:V; cbn in J; try contradiction end; destruct J as [J|[]]; injection J as <- <-; split; [reflexivity|apply H2; [discriminate|reflexivity]]). }
    unfold writeLayerInfo. change (3 <? 3)%Z with false. cbv iota. destruct (layerInfoOk T (items (infoVal (gatherLayerInfo info)))) eqn:L.
    + left. split; [apply B; reflexivity|]. destruct (gatherLayerInfo info) as [|p l]; [reflexivity|]. cbn [andb negb]. rewrite L. reflexivity.
    + right. split; [intro G; apply B in G; discriminate G|]. destruct (gatherLayerInfo info) as [|p l]; [discriminate L|]. cbn [andb]. rewrite L. reflexivity.
Qed.
Print Assumptions C95_layer_info.
Example C95_layer_info_case : layerInfoOk asciiText [(PStr (u "color"), PStr (u "1,0,0,1")); (PStr (u "lib"), PDict [])] = true /\ layerInfoOk asciiText [(PStr (u "name"), PInt 1)] = false /\ layerInfoOk asciiText [(PStr (u "color"), PStr (u "red"))] = false.
Proof. vm_compute. repeat split. Qed.
