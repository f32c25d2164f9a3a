(** Properties C38 and C39: the types of the font info attributes. *)
From Coq Require Import String NArith ZArith Bool Lia List Sorted.
From Coq.Floats Require Import SpecFloat.
From Verif Require Import Base PyVal PyText Validators ValidatorsProofs PropValidators FontInfoTables FontInfo FontInfoProofs.
Import ListNotations.
Local Open Scope string_scope.
Local Open Scope list_scope.

Definition accepted (T : pytext) (a : str) (v : pyval) : Prop := validateFontInfoVersion3ValueForAttribute T a v = Ok true.

(** ** the documented types (UFO 3 specification of fontinfo.plist) *)
Inductive need := Required | Optional | OptionalNotNone.
Inductive shape :=
| Text | Integer | NonNegative | Number | NonNegativeNumber | Boolean | DateTime | GuideLines | Gasp
| Between (lo hi : Z)
| OneOf (l : list string)
| CharSet
| IntsFrom (l : list Z)
| Numbers (most : nat) (even : bool)
| Panose | FamilyClass
| ListOf (least : nat) (s : shape)
| Record (fields : list (string * need * shape)).
(** the value denotes the integer [z]; Python's bools are ints *)
Definition intOf (v : pyval) (z : Z) : Prop := v = PInt z \/ exists b, v = PBool b /\ z = if b then 1%Z else 0%Z.
Definition seqOf (v : pyval) (l : list pyval) : Prop := v = PList l \/ v = PTuple l.
Definition plainDate (s : str) : Prop := forall c, In c s -> (48 <= c <= 57)%N \/ In c [47; 58; 32]%N.
(** the item of a record, if there is one *)
Definition itemOk (P : pyval -> Prop) (n : need) (o : option pyval) : Prop :=
  match o with
  | Some x => P x \/ (n = Optional /\ x = PNone)
  | None => n <> Required
  end.
Definition gaspRange (r : pyval) (ppem : Z) : Prop :=
  intOf (at_ "rangeMaxPPEM" r) ppem /\ (0 <= ppem)%Z /\
  (exists l, at_ "rangeGaspBehavior" r = PList l /\ forall x, In x l -> exists z, intOf x z /\ (0 <= z <= 3)%Z) /\
  forall k x, In (k, x) (items r) -> k = PStr (u "rangeMaxPPEM") \/ k = PStr (u "rangeGaspBehavior").
Fixpoint ofShape (T : pytext) (sh : shape) (v : pyval) : Prop :=
  match sh with
  | Text => exists s, v = PStr s
  | Integer => exists z, intOf v z
  | NonNegative => exists z, intOf v z /\ (0 <= z)%Z
  | Number => isNum v
  | NonNegativeNumber => isNum v /\ num_lt v (PInt 0) = false
  | Boolean => exists b, v = PBool b
  | DateTime => exists s, v = PStr s /\ (plainDate s -> realDate s)
  | GuideLines => exists l, v = PList l /\ NoDup (identifiersOf l) /\
      Forall (fun g => lineShape g /\
        (forall s, at_ "identifier" g = PStr s -> 1 <= length s <= 100 /\ forall c, In c s -> (32 <= c <= 126)%N)) l
  | Gasp => exists l ppems, v = PList l /\ Forall2 gaspRange l ppems /\ LocallySorted Z.le ppems
  | Between lo hi => exists z, intOf v z /\ (lo <= z <= hi)%Z
  | OneOf l => exists s, In s l /\ v = PStr (u s)
  | CharSet => exists z, (1 <= z <= 20)%Z /\ num_eq v (PInt z) = true
  | IntsFrom l => exists xs, seqOf v xs /\ forall x, In x xs -> exists z, intOf x z /\ In z l
  | Numbers most even => exists xs, seqOf v xs /\ length xs <= most /\ (even = true -> Nat.Even (length xs)) /\ Forall isNum xs
  | Panose => exists xs, seqOf v xs /\ length xs = 10 /\ forall x, In x xs -> exists z, intOf x z /\ (0 <= z)%Z
  | FamilyClass => exists a b x y, seqOf v [a; b] /\ intOf a x /\ intOf b y /\ (0 <= x <= 14)%Z /\ (0 <= y <= 15)%Z
  | ListOf least s => exists xs, v = PList xs /\ least <= length xs /\ Forall (ofShape T s) xs
  | Record fs =>
    exists d, v = PDict d /\
      (forall k x, In (k, x) d -> exists n, In n (map (fun f => fst (fst f)) fs) /\ k = PStr (u n)) /\
      (fix go fs := match fs with
                    | [] => True
                    | (name, n, s) :: r => itemOk (ofShape T s) n (dget (u name) d) /\ go r
                    end) fs
  end.
Definition dir_ : string * need * shape := ("dir", OptionalNotNone, OneOf ["ltr"; "rtl"]).
Definition class_ : string * need * shape := ("class", Optional, Text).
Definition textRecord : shape := Record [("text", Required, Text); ("language", Optional, Text); dir_; class_].
Definition documented : list (string * shape) :=
  map (fun a => (a, Text))
    ["familyName"; "styleName"; "styleMapFamilyName"; "copyright"; "trademark"; "note";
     "openTypeNameDesigner"; "openTypeNameDesignerURL"; "openTypeNameManufacturer"; "openTypeNameManufacturerURL";
     "openTypeNameLicense"; "openTypeNameLicenseURL"; "openTypeNameVersion"; "openTypeNameUniqueID"; "openTypeNameDescription";
     "openTypeNamePreferredFamilyName"; "openTypeNamePreferredSubfamilyName"; "openTypeNameCompatibleFullName";
     "openTypeNameSampleText"; "openTypeNameWWSFamilyName"; "openTypeNameWWSSubfamilyName"; "openTypeOS2VendorID";
     "postscriptFontName"; "postscriptFullName"; "postscriptWeightName"; "postscriptDefaultCharacter"; "macintoshFONDName"] ++
  map (fun a => (a, Integer))
    ["versionMajor"; "year"; "openTypeHheaAscender"; "openTypeHheaDescender"; "openTypeHheaLineGap"; "openTypeHheaCaretSlopeRise";
     "openTypeHheaCaretSlopeRun"; "openTypeHheaCaretOffset"; "openTypeOS2TypoAscender"; "openTypeOS2TypoDescender"; "openTypeOS2TypoLineGap";
     "openTypeOS2SubscriptXSize"; "openTypeOS2SubscriptYSize"; "openTypeOS2SubscriptXOffset"; "openTypeOS2SubscriptYOffset";
     "openTypeOS2SuperscriptXSize"; "openTypeOS2SuperscriptYSize"; "openTypeOS2SuperscriptXOffset"; "openTypeOS2SuperscriptYOffset";
     "openTypeOS2StrikeoutSize"; "openTypeOS2StrikeoutPosition"; "openTypeVheaVertTypoAscender"; "openTypeVheaVertTypoDescender";
     "openTypeVheaVertTypoLineGap"; "openTypeVheaCaretSlopeRise"; "openTypeVheaCaretSlopeRun"; "openTypeVheaCaretOffset";
     "postscriptUniqueID"; "macintoshFONDFamilyID"] ++
  map (fun a => (a, NonNegative)) ["versionMinor"; "openTypeOS2WeightClass"; "woffMajorVersion"; "woffMinorVersion"] ++
  map (fun a => (a, Number))
    ["descender"; "xHeight"; "capHeight"; "ascender"; "italicAngle"; "postscriptSlantAngle"; "postscriptUnderlineThickness";
     "postscriptUnderlinePosition"; "postscriptBlueFuzz"; "postscriptBlueShift"; "postscriptBlueScale";
     "postscriptDefaultWidthX"; "postscriptNominalWidthX"] ++
  (* the last three are documented as non-negative integers *)
  map (fun a => (a, NonNegativeNumber)) ["unitsPerEm"; "openTypeHeadLowestRecPPEM"; "openTypeOS2WinAscent"; "openTypeOS2WinDescent"] ++
  map (fun a => (a, Boolean)) ["postscriptIsFixedPitch"; "postscriptForceBold"] ++
  [ ("styleMapStyleName", OneOf ["regular"; "italic"; "bold"; "bold italic"]);
    ("openTypeHeadCreated", DateTime);
    ("openTypeHeadFlags", IntsFrom (map Z.of_nat (seq 0 15)));
    ("openTypeOS2Selection", IntsFrom [1; 2; 3; 4; 7; 8; 9]%Z);
    ("openTypeOS2UnicodeRanges", IntsFrom (map Z.of_nat (seq 0 128)));
    ("openTypeOS2CodePageRanges", IntsFrom (map Z.of_nat (seq 0 64)));
    ("openTypeOS2Type", IntsFrom [0; 1; 2; 3; 8; 9]%Z);
    ("openTypeOS2WidthClass", Between 1 9);
    ("openTypeOS2Panose", Panose);
    ("openTypeOS2FamilyClass", FamilyClass);
    ("postscriptBlueValues", Numbers 14 true); ("postscriptOtherBlues", Numbers 10 true);
    ("postscriptFamilyBlues", Numbers 14 true); ("postscriptFamilyOtherBlues", Numbers 10 true);
    ("postscriptStemSnapH", Numbers 12 false); ("postscriptStemSnapV", Numbers 12 false);
    ("postscriptWindowsCharacterSet", CharSet);
    ("openTypeGaspRangeRecords", Gasp);
    ("openTypeNameRecords", ListOf 0 (Record [("nameID", Required, Integer); ("platformID", Required, Integer);
       ("encodingID", Required, Integer); ("languageID", Required, Integer); ("string", Required, Text)]));
    ("woffMetadataUniqueID", Record [("id", Required, Text)]);
    ("woffMetadataVendor", Record [("name", Required, Text); ("url", Optional, Text); dir_; class_]);
    ("woffMetadataCredits", Record [("credits", Required, ListOf 1 (Record
       [("name", Required, Text); ("url", Optional, Text); ("role", Optional, Text); dir_; class_]))]);
    ("woffMetadataDescription", Record [("url", Optional, Text); ("text", Required, ListOf 0 textRecord)]);
    ("woffMetadataLicense", Record [("url", Optional, Text); ("text", OptionalNotNone, ListOf 0 textRecord); ("id", Optional, Text)]);
    ("woffMetadataCopyright", Record [("text", Required, ListOf 0 textRecord)]);
    ("woffMetadataTrademark", Record [("text", Required, ListOf 0 textRecord)]);
    ("woffMetadataLicensee", Record [("name", Required, Text); dir_; class_]);
    ("woffMetadataExtensions", ListOf 1 (Record
       [("names", OptionalNotNone, ListOf 0 textRecord);
        ("items", Required, ListOf 0 (Record [("id", Optional, Text); ("names", Required, ListOf 0 textRecord); ("values", Required, ListOf 0 textRecord)]));
        ("id", Optional, Text)]));
    ("guidelines", GuideLines) ].

(** ** C38: false as documented: bools pass for integers, floats for the three
    non-negative integers and for the character set, and NaN passes *)
Theorem C38_documented_types_refuted : forall T,
  accepted T (u "year") (PBool true) /\
  accepted T (u "openTypeOS2WinAscent") (PFloat (S754_finite false 3 (-1))) /\
  accepted T (u "postscriptWindowsCharacterSet") (PFloat (S754_finite false 1 0)) /\
  accepted T (u "unitsPerEm") (PFloat S754_nan).
Proof. intro T. repeat split; vm_compute; reflexivity. Qed.
Print Assumptions C38_documented_types_refuted.

Section Proofs.
Variable T : pytext.
Hypothesis laws : pytext_laws T.
Lemma OkTrue {b} : Ok b = Ok true -> b = true.
Proof. congruence. Qed.
Lemma int_intOf v : is_int v = true -> exists z, intOf v z.
Proof. destruct v; try discriminate; intros _; [exists (if b then 1 else 0)%Z; right; eauto|exists z; left; reflexivity]. Qed.
Lemma intOf_num v z : intOf v z -> num v = Some (Fin z 0).
Proof. intros [->|(b & -> & ->)]; [reflexivity|destruct b; reflexivity]. Qed.
Lemma cmp_int v z w : intOf v z -> num_cmp v (PInt w) = Some (Z.compare z w).
Proof.
  intro H. unfold num_cmp. rewrite (intOf_num v z H). cbn [num ext_compare]. cbv zeta. change (2 ^ (0 - Z.min 0 0))%Z with 1%Z. rewrite !Z.mul_1_r. reflexivity.
Qed.
Lemma lt_int v z w : intOf v z -> num_lt v (PInt w) = (z <? w)%Z.
Proof. intro H. unfold num_lt. rewrite (cmp_int v z w H). destruct (Z.compare_spec z w), (Z.ltb_spec z w); try reflexivity; lia. Qed.
Lemma gt_int v z w : intOf v z -> num_gt v (PInt w) = (w <? z)%Z.
Proof. intro H. unfold num_gt. rewrite (cmp_int v z w H). destruct (Z.compare_spec z w), (Z.ltb_spec w z); try reflexivity; lia. Qed.
Lemma eq_int v z w : intOf v z -> num_eq v (PInt w) = (z =? w)%Z.
Proof. intro H. unfold num_eq. rewrite (cmp_int v z w H). destruct (Z.compare_spec z w), (Z.eqb_spec z w); try reflexivity; lia. Qed.

Definition sound (f : pyval -> res bool) (sh : shape) : Prop := forall v, f v = Ok true -> ofShape T sh v.
Lemma s_text : sound (fun v => Ok (genericTypeValidator v TStr)) Text.
Proof. intros v H. apply OkTrue in H. destruct v; try discriminate. cbn. eauto. Qed.
Lemma s_int : sound (fun v => Ok (genericTypeValidator v TInt)) Integer.
Proof. intros v H. apply OkTrue in H. apply int_intOf. exact H. Qed.
Lemma s_number : sound (fun v => Ok (genericTypeValidator v TNumber)) Number.
Proof. intros v H. apply OkTrue in H. apply isNum_number. exact H. Qed.
Lemma s_bool : sound (fun v => Ok (genericTypeValidator v TBool)) Boolean.
Proof. intros v H. apply OkTrue in H. destruct v; try discriminate. cbn. eauto. Qed.
Lemma nonneg_int v : genericNonNegativeIntValidator v = true -> exists z, intOf v z /\ (0 <= z)%Z.
Proof.
  unfold genericNonNegativeIntValidator. destruct (is_int v) eqn:I; [|discriminate]. cbn [negb]. destruct (int_intOf v I) as (z & Z). rewrite (lt_int v z 0 Z).
  destruct (Z.ltb_spec z 0); [discriminate|]. eauto.
Qed.
Lemma s_nonneg : sound (fun v => Ok (genericNonNegativeIntValidator v)) NonNegative.
Proof. intros v H. apply OkTrue in H. apply nonneg_int. exact H. Qed.
Lemma s_weight : sound (fun v => Ok (fontInfoOpenTypeOS2WeightClassValidator v)) NonNegative.
Proof. intros v H. apply OkTrue in H. apply nonneg_int. exact H. Qed.
Lemma s_nonnegnum : sound (fun v => Ok (genericNonNegativeNumberValidator v)) NonNegativeNumber.
Proof.
  intros v H. apply OkTrue in H. unfold genericNonNegativeNumberValidator in H. destruct (is_number v) eqn:I; [|discriminate]. cbn [negb] in H.
  cbn. split; [apply isNum_number; exact I|]. destruct (num_lt v (PInt 0)); [discriminate|reflexivity].
Qed.
Lemma s_width : sound (fun v => Ok (fontInfoOpenTypeOS2WidthClassValidator v)) (Between 1 9).
Proof.
  intros v H. apply OkTrue in H. unfold fontInfoOpenTypeOS2WidthClassValidator in H. destruct (is_int v) eqn:I; [|discriminate]. cbn [negb] in H.
  destruct (int_intOf v I) as (z & Z). rewrite (lt_int v z 1 Z), (gt_int v z 9 Z) in H.
  destruct (Z.ltb_spec z 1); [discriminate|]. destruct (Z.ltb_spec 9 z); [discriminate|]. exists z. split; [exact Z|lia].
Qed.
Lemma isin_strs v l : isin v (strs l) = true -> exists s, In s l /\ v = PStr (u s).
Proof.
  unfold isin, strs. rewrite existsb_exists. intros (x & Hx & E). apply in_map_iff in Hx as (s & <- & Hs). exists s. split; [exact Hs|].
  destruct v; try discriminate. cbn [py_eq] in E. apply (proj1 (eqb_eq _ _)) in E. subst. reflexivity.
Qed.
Lemma s_style : sound (fun v => Ok (fontInfoStyleMapStyleNameValidator v)) (OneOf ["regular"; "italic"; "bold"; "bold italic"]).
Proof. intros v H. apply OkTrue in H. apply isin_strs. exact H. Qed.
Lemma s_charset : sound (fun v => Ok (fontInfoPostscriptWindowsCharacterSetValidator v)) CharSet.
Proof.
  intros v H. apply OkTrue in H. unfold fontInfoPostscriptWindowsCharacterSetValidator, isin in H. apply existsb_exists in H as (x & Hx & E).
  apply in_map_iff in Hx as (n & <- & Hn). apply in_seq in Hn. exists (Z.of_nat n). split; [lia|]. destruct v; try discriminate; exact E.
Qed.
Lemma seq_seqOf v : is_seq v = true -> seqOf v (elems v).
Proof. destruct v; try discriminate; intros _; [left|right]; reflexivity. Qed.
Lemma intList_ok v l : genericIntListValidator v l = Ok true -> seqOf v (elems v) /\ forall x, In x (elems v) -> exists z, intOf x z /\ In z l.
Proof.
  intro H. unfold genericIntListValidator in H. destruct (is_seq v) eqn:S; [|discriminate]. cbn [negb] in H.
  destruct (forallb hashable (elems v)); [|discriminate]. cbn [negb] in H. destruct (forallb (fun v0 => isin v0 (map PInt l)) (elems v)) eqn:F; [|discriminate].
  cbn [negb] in H. apply OkTrue in H. rewrite forallb_forall in F, H. split; [apply seq_seqOf; exact S|]. intros x Hx.
  destruct (int_intOf x (H x Hx)) as (z & Z). exists z. split; [exact Z|]. specialize (F x Hx). unfold isin in F. apply existsb_exists in F as (y & Hy & E).
  apply in_map_iff in Hy as (w & <- & Hw). assert (num_eq x (PInt w) = true) as E' by (destruct Z as [->|(b & -> & _)]; exact E).
  rewrite (eq_int x z w Z) in E'. apply Z.eqb_eq in E'. subst. exact Hw.
Qed.
Lemma s_intlist l : sound (fun v => genericIntListValidator v l) (IntsFrom l).
Proof. intros v H. apply intList_ok in H. exists (elems v). exact H. Qed.
Lemma numbers_ok n e v : numberList n e v = true -> ofShape T (Numbers n e) v.
Proof.
  unfold numberList. destruct (is_seq v) eqn:S; [|discriminate]. cbn [negb]. destruct (Nat.ltb_spec n (length (elems v))) as [|L]; [discriminate|].
  destruct (e && Nat.odd (length (elems v))) eqn:E; [discriminate|]. intro F. exists (elems v). split; [apply seq_seqOf; exact S|]. split; [exact L|]. split.
  - intros ->. cbn in E. apply Nat.even_spec. rewrite <- Nat.negb_odd, E. reflexivity.
  - rewrite forallb_forall in F. apply Forall_forall. intros x Hx. apply isNum_number. apply F. exact Hx.
Qed.
Lemma s_blues : sound (fun v => Ok (fontInfoPostscriptBluesValidator v)) (Numbers 14 true).
Proof. intros v H. apply OkTrue in H. apply numbers_ok. exact H. Qed.
Lemma s_otherblues : sound (fun v => Ok (fontInfoPostscriptOtherBluesValidator v)) (Numbers 10 true).
Proof. intros v H. apply OkTrue in H. apply numbers_ok. exact H. Qed.
Lemma s_stems : sound (fun v => Ok (fontInfoPostscriptStemsValidator v)) (Numbers 12 false).
Proof. intros v H. apply OkTrue in H. apply numbers_ok. exact H. Qed.
Lemma s_panose : sound (fun v => Ok (fontInfoVersion3OpenTypeOS2PanoseValidator v)) Panose.
Proof.
  intros v H. apply OkTrue in H. unfold fontInfoVersion3OpenTypeOS2PanoseValidator in H. destruct (is_seq v) eqn:S; [|discriminate]. cbn [negb] in H.
  destruct (Nat.eqb_spec (length (elems v)) 10) as [L|]; [|discriminate]. cbn [negb] in H. exists (elems v). split; [apply seq_seqOf; exact S|]. split; [exact L|].
  rewrite forallb_forall in H. intros x Hx. apply nonneg_int. apply H. exact Hx.
Qed.
Lemma s_family : sound (fun v => Ok (fontInfoOpenTypeOS2FamilyClassValidator v)) FamilyClass.
Proof.
  intros v H. apply OkTrue in H. unfold fontInfoOpenTypeOS2FamilyClassValidator in H. destruct (is_seq v) eqn:S; [|discriminate]. cbn [negb] in H.
  apply seq_seqOf in S. destruct (elems v) as [|a [|b [|]]]; try discriminate. cbn [forallb] in H.
  destruct (is_int a) eqn:Ia; [|discriminate]. destruct (is_int b) eqn:Ib; [|discriminate]. cbn [andb negb] in H.
  destruct (int_intOf a Ia) as (x & X), (int_intOf b Ib) as (y & Y). rewrite (lt_int a x 0 X), (gt_int a x 14 X), (lt_int b y 0 Y), (gt_int b y 15 Y) in H.
  exists a, b, x, y. destruct (Z.ltb_spec x 0), (Z.ltb_spec 14 x), (Z.ltb_spec y 0), (Z.ltb_spec 15 y); try discriminate. repeat split; try assumption; lia.
Qed.
Lemma s_date : sound (fun v => Ok (fontInfoOpenTypeHeadCreatedValidator T v)) DateTime.
Proof.
  intros v H. apply OkTrue in H. destruct v; try discriminate. exists s. split; [reflexivity|]. intro P. apply (C40_real_dates_partial T s laws P). exact H.
Qed.
Lemma s_guidelines : sound (fun v => Ok (fst (guidelinesValidator T v []))) GuideLines.
Proof.
  intros v H. apply OkTrue in H. destruct (guidelinesValidator T v []) as [b ids] eqn:E. cbn in H. subst b.
  apply C44_guidelines_unique in E as (l & -> & F & ND & _). exists l. split; [reflexivity|]. split; [exact ND|].
  eapply Forall_impl; [|exact F]. cbv beta. intros g G. apply C74_guideline_shape in G as (L & _ & I & _). split; [exact L|].
  intros s Hs. rewrite Hs in I. destruct I as [I|I]; [discriminate|]. apply C41_identifier_rule in I as (s' & Q & R). inversion Q; subst. exact R.
Qed.
(** records *)
Definition typeOf (sh : shape) : pytype :=
  match sh with Text | OneOf _ => TStr | Integer | NonNegative => TInt | _ => TList end.
Definition isReq (n : need) : bool := match n with Required => true | _ => false end.
Definition protoOf (fs : list (string * need * shape)) : proto := map (fun f => (u (fst (fst f)), (typeOf (snd f), isReq (snd (fst f))))) fs.
Definition fieldFact (v : pyval) (f : string * need * shape) : Prop :=
  forall x, dget (u (fst (fst f))) (items v) = Some x ->
    (isinstance x (typeOf (snd f)) = true -> ofShape T (snd f) x) /\ (snd (fst f) = OptionalNotNone -> x <> PNone).
Lemma record_intro fs v : NoDup (map (fun f => u (fst (fst f))) fs) -> genericDictValidator v (protoOf fs) = true ->
  Forall (fieldFact v) fs -> ofShape T (Record fs) v.
Proof.
  intros ND G F. apply genericDict_spec in G as (d & -> & R & U). exists d. split; [reflexivity|]. split.
  - intros k x Hin. apply U in Hin as (s & t & r & -> & Gs & _). apply get_In in Gs. unfold protoOf in Gs. apply in_map_iff in Gs as (f & E & Hf). inversion E; subst.
    exists (fst (fst f)). split; [apply in_map_iff; exists f; auto|reflexivity].
  - assert (S : forall f, In f fs -> get (u (fst (fst f))) (protoOf fs) = Some (typeOf (snd f), isReq (snd (fst f)))).
    { intros f Hf. apply In_get; [unfold dict_ok, keys, protoOf; rewrite map_map; exact ND|]. unfold protoOf. apply in_map_iff. exists f. auto. }
    assert (S' : forall f, In f fs -> snd (fst f) = Required -> vhas (u (fst (fst f))) (PDict d) = true).
    { intros f Hf Q. apply (R _ (typeOf (snd f))). unfold protoOf. apply in_map_iff. exists f. rewrite Q. auto. }
    revert S S' F. clear R ND. set (p := protoOf fs) in *. clearbody p. induction fs as [|[[n nd] s] fs IH]; intros S S' F; [exact I|]. inversion F as [|? ? F1 F2]; subst.
    split; [|apply IH; [intros f Hf; apply S; right; exact Hf|intros f Hf; apply S'; right; exact Hf|exact F2]].
    specialize (S _ ltac:(left; reflexivity)). specialize (S' _ ltac:(left; reflexivity)). cbn [fst snd] in *. unfold itemOk. destruct (dget (u n) d) as [x|] eqn:Q.
    + destruct (F1 x Q) as (A & B). cbn [fst snd] in A, B. apply dget_In in Q. apply U in Q as (s' & t & r & Es & Gs & C). inversion Es; subst. rewrite S in Gs. inversion Gs; subst.
      destruct C as [(-> & C)|C]; [|left; apply A; exact C]. destruct nd; [discriminate|right; auto|exfalso; apply B; reflexivity].
    + intros ->. specialize (S' eq_refl). unfold vhas in S'. cbn [items] in S'. rewrite Q in S'. discriminate.
Qed.
Lemma f_text v n nd : nd <> OptionalNotNone -> fieldFact v (n, nd, Text).
Proof. intros H x _. cbn. split; [destruct x; try discriminate; eauto|contradiction]. Qed.
Lemma f_int v n : fieldFact v (n, Required, Integer).
Proof. intros x _. cbn. split; [apply int_intOf|discriminate]. Qed.
Lemma f_dir v : badDir v = false -> fieldFact v dir_.
Proof.
  intros H x Q. unfold badDir, vhas, vget in H. cbn [fst snd dir_] in Q. rewrite Q in H. cbn [andb] in H. apply negb_false_iff in H. apply isin_strs in H as (s & Hs & ->).
  split; [intros _; exists s; auto|intros _ E; discriminate].
Qed.
Lemma f_list v n nd least sh : vhas (u n) v = false \/ (vget (u n) v <> PNone /\ least <= length (elems (vget (u n) v)) /\ Forall (ofShape T sh) (elems (vget (u n) v))) \/
   (nd <> OptionalNotNone /\ least <= length (elems (vget (u n) v)) /\ Forall (ofShape T sh) (elems (vget (u n) v))) ->
  fieldFact v (n, nd, ListOf least sh).
Proof.
  intros H x Q. cbn [fst snd] in *. unfold vhas, vget in H. rewrite Q in H. destruct H as [H|[(N & L & F)|(N & L & F)]]; [discriminate| |];
  (split; [intro I; destruct x; try discriminate; cbn [ofShape]; eauto|]); [intros _; exact N|intro E; congruence].
Qed.
Ltac nodup := apply nodup_dec; vm_compute; reflexivity.
Ltac fields := repeat (apply Forall_cons; [first [apply f_text; discriminate|apply f_int|apply f_dir; assumption|idtac]|]); try apply Forall_nil.
Lemma sub_forall f sh l : (forall v, f v = true -> ofShape T sh v) -> forallb f l = true -> Forall (ofShape T sh) l.
Proof. intros S F. apply Forall_forall. rewrite forallb_forall in F. intros x Hx. apply S. apply F. exact Hx. Qed.
Lemma text_ok v : fontInfoWOFFMetadataTextValue v = true -> ofShape T textRecord v.
Proof.
  unfold fontInfoWOFFMetadataTextValue. destruct (genericDictValidator v textProto) eqn:G; [|discriminate]. cbn [negb]. destruct (badDir v) eqn:B; [discriminate|]. intros _.
  apply record_intro; [nodup|exact G|]. fields.
Qed.
Lemma s_uniqueID : sound (fun v => Ok (fontInfoWOFFMetadataUniqueIDValidator v)) (Record [("id", Required, Text)]).
Proof. intros v H. apply OkTrue in H. apply record_intro; [nodup|exact H|fields]. Qed.
Lemma s_vendor : sound (fun v => Ok (fontInfoWOFFMetadataVendorValidator v)) (Record [("name", Required, Text); ("url", Optional, Text); dir_; class_]).
Proof.
  intros v H. apply OkTrue in H. unfold fontInfoWOFFMetadataVendorValidator in H. destruct (genericDictValidator v _) eqn:G in H; [|discriminate]. cbn [negb] in H.
  destruct (badDir v) eqn:B; [discriminate|]. apply record_intro; [nodup|exact G|fields].
Qed.
Lemma s_licensee : sound (fun v => Ok (fontInfoWOFFMetadataLicenseeValidator v)) (Record [("name", Required, Text); dir_; class_]).
Proof.
  intros v H. apply OkTrue in H. unfold fontInfoWOFFMetadataLicenseeValidator in H. destruct (genericDictValidator v _) eqn:G in H; [|discriminate]. cbn [negb] in H.
  destruct (badDir v) eqn:B; [discriminate|]. apply record_intro; [nodup|exact G|fields].
Qed.
Lemma s_credits : sound (fun v => Ok (fontInfoWOFFMetadataCreditsValidator v)) (Record [("credits", Required, ListOf 1 (Record
       [("name", Required, Text); ("url", Optional, Text); ("role", Optional, Text); dir_; class_]))]).
Proof.
  intros v H. apply OkTrue in H. unfold fontInfoWOFFMetadataCreditsValidator in H. destruct (genericDictValidator v _) eqn:G in H; [|discriminate]. cbn [negb] in H.
  apply record_intro; [nodup|exact G|fields]. apply f_list. right. right. split; [discriminate|].
  destruct (elems (vget (u "credits") v)) as [|c l]; [discriminate|]. split; [cbn; lia|].
  eapply sub_forall; [|exact H]. cbv beta. intros w W. destruct (genericDictValidator w creditProto) eqn:Gw; [|discriminate]. cbn [negb] in W. destruct (badDir w) eqn:B; [discriminate|].
  apply record_intro; [nodup|exact Gw|fields].
Qed.
Lemma s_description : sound (fun v => Ok (fontInfoWOFFMetadataDescriptionValidator v)) (Record [("url", Optional, Text); ("text", Required, ListOf 0 textRecord)]).
Proof.
  intros v H. apply OkTrue in H. unfold fontInfoWOFFMetadataDescriptionValidator in H. destruct (genericDictValidator v _) eqn:G in H; [|discriminate]. cbn [negb] in H.
  apply record_intro; [nodup|exact G|fields]. apply f_list. right. right. split; [discriminate|]. split; [lia|]. eapply sub_forall; [exact text_ok|exact H].
Qed.
Lemma s_trademark : sound (fun v => Ok (fontInfoWOFFMetadataTrademarkValidator v)) (Record [("text", Required, ListOf 0 textRecord)]).
Proof.
  intros v H. apply OkTrue in H. unfold fontInfoWOFFMetadataTrademarkValidator in H. destruct (genericDictValidator v _) eqn:G in H; [|discriminate]. cbn [negb] in H.
  apply record_intro; [nodup|exact G|fields]. apply f_list. right. right. split; [discriminate|]. split; [lia|]. eapply sub_forall; [exact text_ok|exact H].
Qed.
Lemma iter_elems v l : iter v = Ok l -> v <> PNone /\ elems v = l.
Proof. destruct v; try discriminate; intro E; inversion E; subst; split; try discriminate; reflexivity. Qed.
Lemma s_license : sound fontInfoWOFFMetadataLicenseValidator (Record [("url", Optional, Text); ("text", OptionalNotNone, ListOf 0 textRecord); ("id", Optional, Text)]).
Proof.
  intros v H. unfold fontInfoWOFFMetadataLicenseValidator in H. destruct (genericDictValidator v _) eqn:G in H; [|discriminate]. cbn [negb] in H.
  apply record_intro; [nodup|exact G|fields]. apply f_list. destruct (vhas (u "text") v); [|left; reflexivity]. right. left.
  apply bind_Ok in H as (l & I & H). apply iter_elems in I as (N & ->). apply OkTrue in H. split; [exact N|]. split; [lia|]. eapply sub_forall; [exact text_ok|exact H].
Qed.
Lemma s_names : sound (fun v => Ok (fontInfoOpenTypeNameRecordsValidator v)) (ListOf 0 (Record [("nameID", Required, Integer); ("platformID", Required, Integer);
       ("encodingID", Required, Integer); ("languageID", Required, Integer); ("string", Required, Text)])).
Proof.
  intros v H. apply OkTrue in H. unfold fontInfoOpenTypeNameRecordsValidator in H. destruct (is_list v) eqn:L; [|discriminate]. cbn [negb] in H.
  destruct v; try discriminate. exists l. split; [reflexivity|]. split; [lia|]. eapply sub_forall; [|exact H]. intros r G. apply record_intro; [nodup|exact G|fields].
Qed.
Lemma item_ok v : fontInfoWOFFMetadataExtensionItemValidator v = true ->
  ofShape T (Record [("id", Optional, Text); ("names", Required, ListOf 0 textRecord); ("values", Required, ListOf 0 textRecord)]) v.
Proof.
  unfold fontInfoWOFFMetadataExtensionItemValidator. destruct (genericDictValidator v _) eqn:G; [|discriminate]. cbn [negb].
  destruct (forallb _ (elems (vget (u "names") v))) eqn:F1; [|discriminate]. cbn [negb]. intro F2.
  apply record_intro; [nodup|exact G|fields]; apply f_list; right; right; (split; [discriminate|split; [lia|]]); (eapply sub_forall; [exact text_ok|assumption]).
Qed.
Lemma extension_ok : sound fontInfoWOFFMetadataExtensionValidator (Record
       [("names", OptionalNotNone, ListOf 0 textRecord);
        ("items", Required, ListOf 0 (Record [("id", Optional, Text); ("names", Required, ListOf 0 textRecord); ("values", Required, ListOf 0 textRecord)]));
        ("id", Optional, Text)]).
Proof.
  intros v H. unfold fontInfoWOFFMetadataExtensionValidator in H. destruct (genericDictValidator v _) eqn:G in H; [|discriminate]. cbn [negb] in H.
  apply bind_Ok in H as (b & B & H). destruct b; [|discriminate]. cbn [negb] in H. apply OkTrue in H.
  apply record_intro; [nodup|exact G|fields]; apply f_list.
  - destruct (vhas (u "names") v); [|left; reflexivity]. right. left. apply bind_Ok in B as (l & I & B). apply iter_elems in I as (N & ->). apply OkTrue in B.
    split; [exact N|]. split; [lia|]. eapply sub_forall; [exact text_ok|exact B].
  - right. right. split; [discriminate|]. split; [lia|]. eapply sub_forall; [exact item_ok|exact H].
Qed.
Lemma allM_forall f sh l : sound f sh -> allM f l = Ok true -> Forall (ofShape T sh) l.
Proof.
  intro S. induction l as [|x r IH]; intro H; [constructor|]. cbn [allM] in H. apply bind_Ok in H as (b & B & H). destruct b; [|discriminate].
  constructor; [apply S; exact B|apply IH; exact H].
Qed.
Lemma s_extensions : sound fontInfoWOFFMetadataExtensionsValidator (ListOf 1 (Record
       [("names", OptionalNotNone, ListOf 0 textRecord);
        ("items", Required, ListOf 0 (Record [("id", Optional, Text); ("names", Required, ListOf 0 textRecord); ("values", Required, ListOf 0 textRecord)]));
        ("id", Optional, Text)])).
Proof.
  intros v H. unfold fontInfoWOFFMetadataExtensionsValidator in H. destruct (is_list v) eqn:L; [|discriminate]. cbn [negb] in H. destruct v; try discriminate. cbn [elems] in H.
  destruct l as [|x l]; [discriminate|]. exists (x :: l). split; [reflexivity|]. split; [cbn; lia|]. eapply allM_forall; [exact extension_ok|exact H].
Qed.
Lemma zsort_sorted l : LocallySorted Z.le (zsort l).
Proof.
  induction l as [|x l IH]; [constructor|]. change (zsort (x :: l)) with (zinsert x (zsort l)). revert IH. generalize (zsort l) as m. clear l. intro m.
  assert (H : forall m, LocallySorted Z.le m -> LocallySorted Z.le (zinsert x m) /\ forall y, (y <= x)%Z -> match m with [] => True | z :: _ => (y <= z)%Z end -> match zinsert x m with [] => True | z :: _ => (y <= z)%Z end).
  { clear m. intros m S. induction S as [|a|a b m S IH L]; cbn [zinsert].
    - split; [constructor|auto].
    - destruct (Z.leb_spec x a); (split; [repeat constructor; lia|intros; cbn; lia]).
    - destruct (Z.leb_spec x a); [split; [repeat constructor; try assumption; lia|intros; cbn; lia]|]. cbn [zinsert] in IH. destruct IH as (IH1 & IH2).
      split; [|intros; cbn; lia]. specialize (IH2 a ltac:(lia) L). destruct (x <=? b)%Z; constructor; try assumption. }
  intro S. apply (H m S).
Qed.
Lemma s_gasp : sound fontInfoOpenTypeGaspRangeRecordsValidator Gasp.
Proof.
  intros v H. unfold fontInfoOpenTypeGaspRangeRecordsValidator in H. destruct (is_list v) eqn:L; [|discriminate]. cbn [negb] in H. destruct v; try discriminate. cbn [elems] in H.
  exists l, (map (fun r => zval (vget (u "rangeMaxPPEM") r)) l). split; [reflexivity|].
  assert (Forall (fun r => gaspRange r (zval (vget (u "rangeMaxPPEM") r))) l /\ map (fun r => zval (vget (u "rangeMaxPPEM") r)) l = zsort (map (fun r => zval (vget (u "rangeMaxPPEM") r)) l)) as (F & E).
  { destruct l as [|x l]; [split; [constructor|reflexivity]|]. apply bind_Ok in H as (b & A & H). destruct b; [|discriminate]. cbn [negb] in H. cbv zeta in H. apply OkTrue in H.
    apply (proj1 (eqb_eq _ _)) in H. split; [|exact H]. clear H. revert A. generalize (x :: l) as m. clear x l L. induction m as [|r m IH]; intro A; [constructor|]. cbn [allM] in A.
    apply bind_Ok in A as (b & B & A). destruct b; [|discriminate]. constructor; [|apply IH; exact A]. unfold gaspRecord in B.
    destruct (genericDictValidator r gaspProto) eqn:G; [|discriminate]. cbn [negb] in B. destruct (genericNonNegativeIntValidator (vget (u "rangeMaxPPEM") r)) eqn:N; [|discriminate]. cbn [negb] in B.
    apply nonneg_int in N as (z & Z & P). apply intList_ok in B as (_ & B). unfold gaspRange, at_.
    assert (zval (vget (u "rangeMaxPPEM") r) = z) as -> by (destruct Z as [->|(b & -> & ->)]; [reflexivity|destruct b; reflexivity]).
    split; [exact Z|]. split; [exact P|]. split.
    - destruct (genericDict_get r gaspProto (u "rangeGaspBehavior") TList true G eq_refl) as [(_ & _ & Q)|(_ & [(_ & Q)|Q])]; [discriminate|discriminate|].
      destruct (vget (u "rangeGaspBehavior") r); try discriminate. exists l. split; [reflexivity|]. intros x Hx. destruct (B x Hx) as (w & W & I). exists w. split; [exact W|].
      cbn in I. lia.
    - intros k x Hin. apply genericDict_spec in G as (d & -> & _ & U). apply U in Hin as (s & t & q & -> & Gs & _). apply get_In in Gs. cbn in Gs.
      destruct Gs as [Gs|[Gs|[]]]; inversion Gs; subst; auto. }
  split; [|rewrite E; apply zsort_sorted]. clear E H L. induction F; cbn; constructor; assumption.
Qed.
Definition shapeOf (a : str) : option shape := option_map snd (find (fun e => eqb (u (fst e)) a) documented).
Ltac entry := cbn [fst snd];
  match goal with |- match shapeOf ?a with _ => _ end =>
    let r := eval vm_compute in (shapeOf a) in change (shapeOf a) with r; cbv iota end;
  first [apply s_text|apply s_int|apply s_number|apply s_bool|apply s_nonneg|apply s_weight|apply s_nonnegnum|apply s_width|apply s_style|apply s_charset
    |apply s_intlist|apply s_blues|apply s_otherblues|apply s_stems|apply s_panose|apply s_family|apply s_date|apply s_guidelines|apply s_gasp
    |apply s_names|apply s_uniqueID|apply s_vendor|apply s_credits|apply s_description|apply s_license|apply s_trademark|apply s_licensee|apply s_extensions].
Lemma all_sound attr f : get attr (fontInfoAttributesVersion3ValueData T) = Some f ->
  match shapeOf attr with Some sh => sound f sh | None => False end.
Proof.
  apply (table3 T (fun attr f => match shapeOf attr with Some sh => sound f sh | None => False end)).
  - unfold version3Update. repeat (apply Forall_cons; [entry|]). apply Forall_nil.
  - unfold fontInfoAttributesVersion2ValueData. repeat (apply Forall_cons; [first [left; vm_compute; reflexivity|right; entry]|]). apply Forall_nil.
Qed.
End Proofs.

(** partial: with the exceptions named in the refutation and the dates of C40,
    every accepted value has the documented type and range *)
Theorem C38_documented_types_partial : forall T attr v, pytext_laws T -> accepted T attr v ->
  exists name sh, attr = u name /\ In (name, sh) documented /\ ofShape T sh v.
Proof.
  intros T attr v laws H. unfold accepted, validateFontInfoVersion3ValueForAttribute, validateForAttribute in H.
  destruct (get attr (fontInfoAttributesVersion3ValueData T)) as [f|] eqn:G; [|discriminate]. apply (all_sound T laws) in G. unfold shapeOf in G.
  destruct (find _ documented) as [[name sh]|] eqn:F; [|destruct G]. cbn [option_map snd] in G. apply find_some in F as (F & E). cbn [fst] in E. apply (proj1 (eqb_eq _ _)) in E.
  exists name, sh. split; [symmetry; exact E|]. split; [exact F|apply G; exact H].
Qed.
Print Assumptions C38_documented_types_partial.
(** each attribute is documented once, so the shape is determined *)
Example C38_documented_once : NoDup (map fst documented) /\ length documented = length (fontInfoAttributesVersion3 asciiText).
Proof.
  assert (NoDup (map (fun e => u (fst e)) documented)) as H by (apply nodup_dec; vm_compute; reflexivity).
  split; [|reflexivity]. rewrite <- map_map with (f := fst) (g := u) in H. apply NoDup_map_inv in H. exact H.
Qed.
Example C38_case :
  accepted asciiText (u "postscriptBlueValues") (PList (map PInt [-10; 0; 500; 510]%Z)) /\
  ~ accepted asciiText (u "postscriptBlueValues") (PList (map PInt [-10; 0; 500]%Z)) /\
  accepted asciiText (u "woffMetadataVendor") (dictOf [("name", PStr (u "n")); ("dir", PStr (u "rtl"))]) /\
  ~ accepted asciiText (u "woffMetadataVendor") (dictOf [("name", PStr (u "n")); ("dir", PStr (u "up"))]).
Proof. unfold accepted. repeat split; vm_compute; try reflexivity; discriminate. Qed.

(** ** C39 *)
(** property list values contain no None *)
Fixpoint noneFree (v : pyval) : bool :=
  match v with
  | PNone => false
  | PList l | PTuple l => (fix go l := match l with [] => true | x :: r => noneFree x && go r end) l
  | PDict d => (fix go d := match d with [] => true | (k, x) :: r => noneFree x && go r end) d
  | _ => true
  end.
(** false: a list inside a list of integers makes set() raise *)
Theorem C39_total_refuted : forall T,
  noneFree (PList [PList [PInt 1]]) = true /\
  validateFontInfoVersion3ValueForAttribute T (u "openTypeHeadFlags") (PList [PList [PInt 1]]) = Err TypeError.
Proof. intro T. split; vm_compute; reflexivity. Qed.
Print Assumptions C39_total_refuted.
(** the lists that are turned into sets *)
Definition setAttributes : list str := map u
  ["openTypeHeadFlags"; "openTypeOS2Selection"; "openTypeOS2UnicodeRanges"; "openTypeOS2CodePageRanges"; "openTypeOS2Type"].
Definition noInnerContainers (l : list pyval) : Prop := forall x, In x l -> hashable x = true.
Definition total1 (a : str) (f : pyval -> res bool) : Prop := forall v, noneFree v = true ->
  (In a setAttributes -> noInnerContainers (elems v)) ->
  (a = u "openTypeGaspRangeRecords" -> forall r, In r (elems v) -> noInnerContainers (elems (at_ "rangeGaspBehavior" r))) ->
  exists b, f v = Ok b.
Lemma tot_pure a (f : pyval -> bool) : total1 a (fun v => Ok (f v)).
Proof. intros v _ _ _. eauto. Qed.
Lemma intList_total v l : noInnerContainers (elems v) -> exists b, genericIntListValidator v l = Ok b.
Proof.
  intro H. unfold genericIntListValidator. destruct (is_seq v); cbn [negb]; [|eauto]. rewrite (proj2 (forallb_forall hashable (elems v))) by exact H. cbn [negb].
  destruct (negb _); eauto.
Qed.
Lemma tot_intlist a l : mem a setAttributes = true -> total1 a (fun v => genericIntListValidator v l).
Proof. intros M v _ H _. apply intList_total. apply H. apply mem_In. exact M. Qed.
Lemma allM_total {A} (f : A -> res bool) l : (forall x, In x l -> exists b, f x = Ok b) -> exists b, allM f l = Ok b.
Proof.
  induction l as [|x r IH]; intro H; [cbn; eauto|]. cbn [allM]. destruct (H x ltac:(left; reflexivity)) as (b & ->). cbn [bind].
  destruct b; [apply IH; intros y Hy; apply H; right; exact Hy|eauto].
Qed.
Lemma tot_gasp : total1 (u "openTypeGaspRangeRecords") fontInfoOpenTypeGaspRangeRecordsValidator.
Proof.
  intros v _ _ H. specialize (H eq_refl). unfold fontInfoOpenTypeGaspRangeRecordsValidator. destruct (is_list v); cbn [negb]; [|eauto].
  destruct (elems v) as [|x l] eqn:E; [eauto|]. destruct (allM_total gaspRecord (x :: l)) as (b & ->).
  - intros r Hr. unfold gaspRecord. destruct (negb _); [eauto|]. destruct (negb _); [eauto|]. apply intList_total. apply H. exact Hr.
  - cbn [bind]. destruct (negb b); eauto.
Qed.
Lemma noneFree_list l x : noneFree (PList l) = true -> In x l -> noneFree x = true.
Proof.
  induction l as [|y r IH]; intros H Hin; [destruct Hin|]. cbn in H. apply andb_true_iff in H as (A & B). destruct Hin as [->|Hin]; [exact A|apply IH; assumption].
Qed.
Lemma noneFree_item v k : noneFree v = true -> vhas k v = true -> noneFree (vget k v) = true.
Proof.
  unfold vhas, vget. destruct v; cbn [items]; try discriminate. cbn [noneFree]. induction d as [|[k' x] r IH]; [discriminate|]. intros H. apply andb_true_iff in H as (A & B).
  cbn [dget]. destruct k'; try (apply IH; exact B). destruct (eqb k s); [intros _; exact A|apply IH; exact B].
Qed.
Lemma iter_optional v p k : noneFree v = true -> genericDictValidator v p = true -> get k p = Some (TList, false) -> vhas k v = true -> exists l, iter (vget k v) = Ok l.
Proof.
  intros N G E H. destruct (genericDict_get v p k TList false G E) as [(Q & _)|(_ & [(Q & _)|Q])]; [congruence| |].
  - pose proof (noneFree_item v k N H) as X. rewrite Q in X. discriminate.
  - destruct (vget k v); try discriminate. cbn. eauto.
Qed.
Lemma license_total v : noneFree v = true -> exists b, fontInfoWOFFMetadataLicenseValidator v = Ok b.
Proof.
  intro N. unfold fontInfoWOFFMetadataLicenseValidator. destruct (genericDictValidator v _) eqn:G; cbn [negb]; [|eauto].
  destruct (vhas (u "text") v) eqn:H; [|eauto]. destruct (iter_optional v _ (u "text") N G eq_refl H) as (l & ->). cbn [bind]. eauto.
Qed.
Lemma extension_total v : noneFree v = true -> exists b, fontInfoWOFFMetadataExtensionValidator v = Ok b.
Proof.
  intro N. unfold fontInfoWOFFMetadataExtensionValidator. destruct (genericDictValidator v _) eqn:G; cbn [negb]; [|eauto].
  destruct (vhas (u "names") v) eqn:H; [destruct (iter_optional v _ (u "names") N G eq_refl H) as (l & ->)|]; cbn [bind]; destruct (negb _); eauto.
Qed.
Lemma extensions_total v : noneFree v = true -> exists b, fontInfoWOFFMetadataExtensionsValidator v = Ok b.
Proof.
  intro N. unfold fontInfoWOFFMetadataExtensionsValidator. destruct (is_list v) eqn:L; cbn [negb]; [|eauto]. destruct v; try discriminate. cbn [elems].
  destruct l as [|x l]; [eauto|]. apply allM_total. intros y Hy. apply extension_total. eapply noneFree_list; eassumption.
Qed.
Lemma all_total T attr f : get attr (fontInfoAttributesVersion3ValueData T) = Some f -> total1 attr f.
Proof.
  apply (table3 T total1).
  - unfold version3Update. repeat (apply Forall_cons; [cbn [fst snd]; first [apply tot_pure|apply tot_intlist; vm_compute; reflexivity|apply tot_gasp
      |intros v N _ _; apply license_total; exact N|intros v N _ _; apply extensions_total; exact N]|]). apply Forall_nil.
  - unfold fontInfoAttributesVersion2ValueData. repeat (apply Forall_cons; [right; cbn [fst snd]; first [apply tot_pure|apply tot_intlist; vm_compute; reflexivity]|]). apply Forall_nil.
Qed.
(** partial: every property list value, except containers inside the lists of
    integers.  (The validators of groups, kerning, lib, images, anchors and
    layer contents are total functions in the model; see also C30_total.) *)
Theorem C39_total_partial : forall T attr v,
  In attr (fontInfoAttributesVersion3 T) -> noneFree v = true ->
  (In attr setAttributes -> noInnerContainers (elems v)) ->
  (attr = u "openTypeGaspRangeRecords" -> forall r, In r (elems v) -> noInnerContainers (elems (at_ "rangeGaspBehavior" r))) ->
  exists b, validateFontInfoVersion3ValueForAttribute T attr v = Ok b.
Proof.
  intros T attr v I N A B. unfold validateFontInfoVersion3ValueForAttribute, validateForAttribute.
  destruct (get attr (fontInfoAttributesVersion3ValueData T)) as [f|] eqn:G; [apply (all_total T attr f G); assumption|].
  apply get_None in G. contradiction.
Qed.
Print Assumptions C39_total_partial.
(** the None case that makes it raise *)
Example C39_none_case :
  fontInfoWOFFMetadataLicenseValidator (dictOf [("text", PNone)]) = Err TypeError /\
  fontInfoWOFFMetadataLicenseValidator (dictOf [("text", PList [PInt 1])]) = Ok false.
Proof. vm_compute. split; reflexivity. Qed.
(** the lib of a glyph *)
Theorem C39_glyph_lib : forall T v, (forall k x, In (k, x) (items v) -> exists s, k = PStr s) ->
  exists b, glyphLibValidator T v = Ok b.
Proof.
  intros T v H. unfold glyphLibValidator. destruct (is_dict v); cbn [negb]; [|eauto]. apply allM_total. intros [k x] Hin. apply H in Hin as (s & ->).
  destruct (eqb s (u "public.markColor")); eauto.
Qed.
Print Assumptions C39_glyph_lib.
