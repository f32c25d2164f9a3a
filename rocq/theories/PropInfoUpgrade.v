(** Property C99: what the font info of a UFO 1 or 2 becomes when it is read,
    and what font info becomes when it is written to UFO 1. *)
From Coq Require Import QArith Qabs Lqa.
From Coq Require Import String NArith ZArith Bool Lia List Permutation.
From Coq.Floats Require Import SpecFloat.
From Verif Require Import Base PyVal PyText Validators ValidatorsProofs FontInfoTables FontInfo FontInfoProofs PropFontInfo.
Import ListNotations.
Local Open Scope string_scope.
Local Open Scope list_scope.

(** ** The documents *)
(** the attributes of version 2 *)
Definition namesIn2 : list str := map u
  ["familyName"; "styleName"; "styleMapFamilyName"; "styleMapStyleName"; "versionMajor"; "versionMinor"; "year";
   "copyright"; "trademark"; "unitsPerEm"; "descender"; "xHeight"; "capHeight"; "ascender"; "italicAngle"; "note";
   "openTypeHeadCreated"; "openTypeHeadLowestRecPPEM"; "openTypeHeadFlags"; "openTypeHheaAscender";
   "openTypeHheaDescender"; "openTypeHheaLineGap"; "openTypeHheaCaretSlopeRise"; "openTypeHheaCaretSlopeRun";
   "openTypeHheaCaretOffset"; "openTypeNameDesigner"; "openTypeNameDesignerURL"; "openTypeNameManufacturer";
   "openTypeNameManufacturerURL"; "openTypeNameLicense"; "openTypeNameLicenseURL"; "openTypeNameVersion";
   "openTypeNameUniqueID"; "openTypeNameDescription"; "openTypeNamePreferredFamilyName";
   "openTypeNamePreferredSubfamilyName"; "openTypeNameCompatibleFullName"; "openTypeNameSampleText";
   "openTypeNameWWSFamilyName"; "openTypeNameWWSSubfamilyName"; "openTypeOS2WidthClass"; "openTypeOS2WeightClass";
   "openTypeOS2Selection"; "openTypeOS2VendorID"; "openTypeOS2Panose"; "openTypeOS2FamilyClass";
   "openTypeOS2UnicodeRanges"; "openTypeOS2CodePageRanges"; "openTypeOS2TypoAscender"; "openTypeOS2TypoDescender";
   "openTypeOS2TypoLineGap"; "openTypeOS2WinAscent"; "openTypeOS2WinDescent"; "openTypeOS2Type";
   "openTypeOS2SubscriptXSize"; "openTypeOS2SubscriptYSize"; "openTypeOS2SubscriptXOffset";
   "openTypeOS2SubscriptYOffset"; "openTypeOS2SuperscriptXSize"; "openTypeOS2SuperscriptYSize";
   "openTypeOS2SuperscriptXOffset"; "openTypeOS2SuperscriptYOffset"; "openTypeOS2StrikeoutSize";
   "openTypeOS2StrikeoutPosition"; "openTypeVheaVertTypoAscender"; "openTypeVheaVertTypoDescender";
   "openTypeVheaVertTypoLineGap"; "openTypeVheaCaretSlopeRise"; "openTypeVheaCaretSlopeRun"; "openTypeVheaCaretOffset";
   "postscriptFontName"; "postscriptFullName"; "postscriptSlantAngle"; "postscriptUniqueID";
   "postscriptUnderlineThickness"; "postscriptUnderlinePosition"; "postscriptIsFixedPitch"; "postscriptBlueValues";
   "postscriptOtherBlues"; "postscriptFamilyBlues"; "postscriptFamilyOtherBlues"; "postscriptStemSnapH";
   "postscriptStemSnapV"; "postscriptBlueFuzz"; "postscriptBlueShift"; "postscriptBlueScale"; "postscriptForceBold";
   "postscriptDefaultWidthX"; "postscriptNominalWidthX"; "postscriptWeightName"; "postscriptDefaultCharacter";
   "postscriptWindowsCharacterSet"; "macintoshFONDFamilyID"; "macintoshFONDName"].
(** the attributes of version 1, with their names in version 2 *)
Definition namesIn1 : list (str * str) := map (fun p => (u (fst p), u (snd p)))
  [("familyName", "familyName"); ("styleName", "styleName"); ("fullName", "postscriptFullName"); ("fontName",
   "postscriptFontName"); ("menuName", "styleMapFamilyName"); ("fontStyle", "styleMapStyleName"); ("note", "note");
   ("versionMajor", "versionMajor"); ("versionMinor", "versionMinor"); ("year", "year"); ("copyright", "copyright");
   ("notice", "openTypeNameDescription"); ("trademark", "trademark"); ("license", "openTypeNameLicense"); ("licenseURL",
   "openTypeNameLicenseURL"); ("createdBy", "openTypeNameManufacturer"); ("designer", "openTypeNameDesigner");
   ("designerURL", "openTypeNameDesignerURL"); ("vendorURL", "openTypeNameManufacturerURL"); ("unitsPerEm",
   "unitsPerEm"); ("ascender", "ascender"); ("descender", "descender"); ("capHeight", "capHeight"); ("xHeight",
   "xHeight"); ("defaultWidth", "postscriptDefaultWidthX"); ("slantAngle", "postscriptSlantAngle"); ("italicAngle",
   "italicAngle"); ("widthName", "openTypeOS2WidthClass"); ("weightName", "postscriptWeightName"); ("weightValue",
   "openTypeOS2WeightClass"); ("fondName", "macintoshFONDName"); ("otFamilyName", "openTypeNamePreferredFamilyName");
   ("otStyleName", "openTypeNamePreferredSubfamilyName"); ("otMacName", "openTypeNameCompatibleFullName"); ("msCharSet",
   "postscriptWindowsCharacterSet"); ("fondID", "macintoshFONDFamilyID"); ("uniqueID", "postscriptUniqueID");
   ("ttVendor", "openTypeOS2VendorID"); ("ttUniqueID", "openTypeNameUniqueID"); ("ttVersion", "openTypeNameVersion")].
Definition fontStyles : list (Z * string) := [(64, "regular"); (1, "italic"); (32, "bold"); (33, "bold italic"); (0, "regular")]%Z.
Definition widths : list (string * Z) :=
  [("Ultra-condensed", 1); ("Extra-condensed", 2); ("Condensed", 3); ("Semi-condensed", 4); ("Medium (normal)", 5);
   ("Semi-expanded", 6); ("Expanded", 7); ("Extra-expanded", 8); ("Ultra-expanded", 9);
   ("Normal", 5); ("All", 5); ("medium", 5); ("Medium", 5)]%Z.
Definition charSets : list (Z * Z) :=
  [(0, 1); (1, 2); (2, 3); (77, 4); (128, 5); (129, 6); (130, 7); (134, 8); (136, 9); (161, 10); (162, 11); (163, 12);
   (177, 13); (178, 14); (186, 15); (200, 16); (204, 17); (222, 18); (238, 19); (255, 20)]%Z.

(** ** Numbers *)
(** the exact number a value stands for; none for a NaN, an infinity and what
    is not a number *)
Definition amount (v : pyval) : option Q :=
  match v with
  | PBool b => Some (inject_Z (if b then 1 else 0))
  | PInt z => Some (inject_Z z)
  | PFloat (S754_zero _) => Some (inject_Z 0)
  | PFloat (S754_finite s m e) =>
    let n := if s then Zneg m else Zpos m in
    Some (if (e <? 0)%Z then n # Z.to_pos (2 ^ (- e)) else inject_Z (n * 2 ^ e))
  | _ => None
  end.
Definition isWhole (v : pyval) (z : Z) : Prop := exists q, amount v = Some q /\ (q == inject_Z z)%Q.
(** [z] is the integer nearest to [q], the even one if there are two *)
Definition nearest (q : Q) (z : Z) : Prop :=
  (Qabs (q - inject_Z z) <= 1 # 2)%Q /\ ((Qabs (q - inject_Z z) == 1 # 2)%Q -> Z.even z = true).
(** [w] is [v] if that is equal to [z] already, and [z] otherwise *)
Definition keptOr (v : pyval) (z : Z) (w : pyval) : Prop := isWhole v z /\ w = v \/ ~ isWhole v z /\ w = PInt z.

(** ** From version 2 to 3 *)
Definition upgradedTo (a : str) (v w : pyval) : Prop :=
  (In a integerIn3 -> exists q z, amount v = Some q /\ nearest q z /\ keptOr v z w) /\
  (In a nonNegativeIn3 -> exists q z, amount v = Some q /\ nearest q z /\ keptOr v (Z.abs z) w) /\
  (a = u "versionMinor" -> exists q z, amount v = Some q /\ (inject_Z z <= Qabs q)%Q /\ (Qabs q < inject_Z (z + 1))%Q /\ keptOr v z w) /\
  (~ In a integerIn3 -> ~ In a nonNegativeIn3 -> a <> u "versionMinor" -> w = v).
(** the exception for a value that is no finite number *)
Definition notAmount (v : pyval) (e : exn) : Prop :=
  match v with
  | PFloat (S754_infinity _) => e = OverflowError
  | _ => amount v = None /\ e = UFOLibError
  end.
(** the attributes that are integers in version 3 *)
Definition numberIn3 (a : str) : Prop := In a integerIn3 \/ In a nonNegativeIn3 \/ a = u "versionMinor".

(** ** From version 1 to 2 *)
(** a float that is a whole number becomes an int *)
Definition wholeAsInt (v x : pyval) : Prop :=
  match v with
  | PFloat _ => (exists z, isWhole v z /\ x = PInt z) \/ (amount v <> None /\ (forall z, ~ isWhole v z) /\ x = v)
  | _ => x = v
  end.
Definition means (a1 : str) (v1 v2 : pyval) : Prop :=
  exists x, wholeAsInt v1 x /\
  (a1 = u "fontStyle" -> exists n s, In (n, s) fontStyles /\ isWhole x n /\ v2 = PStr (u s)) /\
  (a1 = u "widthName" -> exists s n, In (s, n) widths /\ x = PStr (u s) /\ v2 = PInt n) /\
  (a1 = u "msCharSet" -> exists n m, In (n, m) charSets /\ isWhole x n /\ v2 = PInt m) /\
  (a1 <> u "fontStyle" -> a1 <> u "widthName" -> a1 <> u "msCharSet" -> v2 = x).
(** the exceptions *)
Definition refused (a1 : str) (v1 : pyval) (e : exn) : Prop :=
  match v1 with
  | PFloat S754_nan => e = ValueError
  | PFloat (S754_infinity _) => e = OverflowError
  | _ => (forall v2, ~ means a1 v1 v2) /\ e = if hashable v1 then UFOLibError else TypeError
  end.
(** the value [d] has for attribute [a1] of version 1; a weight of -1 means
    that there is none *)
Definition setIn1 (d : infoT) (a1 : str) (v1 : pyval) : Prop :=
  get a1 d = Some v1 /\ v1 <> PNone /\ ~ (a1 = u "weightValue" /\ isWhole v1 (-1)).

(** ** From version 2 to 1 *)
Definition oldStyles : list (Z * string) := [(64, "regular"); (1, "italic"); (32, "bold"); (33, "bold italic")]%Z.
Definition oldWidths : list (string * Z) :=
  [("Ultra-condensed", 1); ("Extra-condensed", 2); ("Condensed", 3); ("Semi-condensed", 4); ("Medium (normal)", 5);
   ("Semi-expanded", 6); ("Expanded", 7); ("Extra-expanded", 8); ("Ultra-expanded", 9)]%Z.
(** None for a value that has no counterpart *)
Definition meansIn1 (a : str) (v w : pyval) : Prop :=
  (a = u "styleMapStyleName" -> (exists n s, In (n, s) oldStyles /\ v = PStr (u s) /\ w = PInt n) \/
                                (forall n s, In (n, s) oldStyles -> v <> PStr (u s)) /\ w = PNone) /\
  (a = u "openTypeOS2WidthClass" -> (exists s n, In (s, n) oldWidths /\ isWhole v n /\ w = PStr (u s)) \/
                                    (forall s n, In (s, n) oldWidths -> ~ isWhole v n) /\ w = PNone) /\
  (a = u "postscriptWindowsCharacterSet" -> (exists n m, In (n, m) charSets /\ isWhole v m /\ w = PInt n) \/
                                            (forall n m, In (n, m) charSets -> ~ isWhole v m) /\ w = PNone) /\
  (a <> u "styleMapStyleName" -> a <> u "openTypeOS2WidthClass" -> a <> u "postscriptWindowsCharacterSet" -> w = v).

(** ** Lemmas about numbers *)
Lemma inject_inj a b : (inject_Z a == inject_Z b)%Q -> a = b.
Proof. intro H. rewrite inject_Z_injective in H. exact H. Qed.
Lemma isWhole_unique v z z' : isWhole v z -> isWhole v z' -> z = z'.
Proof. intros (q & A & E) (q' & A' & E'). rewrite A in A'. injection A' as <-. rewrite E in E'. apply inject_inj in E'. exact E'. Qed.
Lemma isWhole_int z z' : isWhole (PInt z) z' <-> z = z'.
Proof.
  split; [|intros ->; exists (inject_Z z'); split; reflexivity].
  intro H. apply (isWhole_unique (PInt z)); [exists (inject_Z z); split; reflexivity|exact H].
Qed.
Lemma pow_pos e : (0 < 2 ^ e)%Z \/ (e < 0)%Z.
Proof. destruct (Z_lt_le_dec e 0); [right; assumption|left; apply Z.pow_pos_nonneg; lia]. Qed.
(** [==] between an int and a value *)
Lemma eq_whole z v : py_eq (PInt z) v = true <-> isWhole v z.
Proof.
  cbn [py_eq]. unfold num_eq, num_cmp, isWhole. cbn [num]. destruct v as [|b|w|f| | | | | | |]; cbn [num amount]; try (split; [discriminate|intros (q & C & _); discriminate]).
  - cbn [ext_compare]. change (2 ^ (0 - Z.min 0 0))%Z with 1%Z. cbv zeta. rewrite !Z.mul_1_r. split.
    + intro H. destruct (Z.compare_spec z (if b then 1 else 0)) as [->| |]; try discriminate. eexists; split; reflexivity.
    + intros (q & Q & E). injection Q as <-. apply inject_inj in E. rewrite E, Z.compare_refl. reflexivity.
  - cbn [ext_compare]. change (2 ^ (0 - Z.min 0 0))%Z with 1%Z. cbv zeta. rewrite !Z.mul_1_r. split.
    + intro H. destruct (Z.compare_spec z w) as [->| |]; try discriminate. eexists; split; reflexivity.
    + intros (q & Q & E). injection Q as <-. apply inject_inj in E. rewrite E, Z.compare_refl. reflexivity.
  - destruct f as [s|s| |s m e]; cbn [ext_of_float ext_compare].
    + change (2 ^ (0 - Z.min 0 0))%Z with 1%Z. cbv zeta. rewrite !Z.mul_1_r. split.
      * intro H. destruct (Z.compare_spec z 0) as [->| |]; try discriminate. eexists; split; reflexivity.
      * intros (q & Q & E). injection Q as <-. apply inject_inj in E. subst. reflexivity.
    + split; [destruct s; discriminate|intros (q & C & _); discriminate].
    + split; [discriminate|intros (q & C & _); discriminate].
    + cbv zeta. set (n := if s then Z.neg m else Z.pos m). destruct (Z.ltb_spec e 0) as [L|L].
      * rewrite Z.min_r by lia. rewrite Z.sub_diag, Z.pow_0_r, Z.mul_1_r. rewrite Z.sub_0_l.
        assert (P : (0 < 2 ^ (- e))%Z) by (apply Z.pow_pos_nonneg; lia). set (p := (2 ^ (- e))%Z) in *.
        assert (Qd : (n # Z.to_pos p == inject_Z z)%Q <-> (z * p)%Z = n).
        { unfold Qeq. cbn [Qnum Qden inject_Z]. rewrite Z2Pos.id by exact P. lia. }
        split.
        -- intro H. destruct (Z.compare_spec (z * p) n) as [E| |]; try discriminate. eexists. split; [reflexivity|]. apply Qd. exact E.
        -- intros (q & Q & E). injection Q as <-. apply Qd in E. rewrite E, Z.compare_refl. reflexivity.
      * rewrite Z.min_l by lia. rewrite Z.sub_diag, Z.pow_0_r, Z.mul_1_r, Z.sub_0_r. split.
        -- intro H. destruct (Z.compare_spec z (n * 2 ^ e)) as [->| |]; try discriminate. eexists; split; reflexivity.
        -- intros (q & Q & E). injection Q as <-. apply inject_inj in E. rewrite E, Z.compare_refl. reflexivity.
Qed.
Lemma kept_eq v z w : (if py_eq (PInt z) v then v else PInt z) = w <-> keptOr v z w.
Proof.
  pose proof (eq_whole z v) as W. unfold keptOr. destruct (py_eq (PInt z) v).
  - assert (isWhole v z) by (apply W; reflexivity). split; [intros <-; left; auto|intros [(_ & ->)|(n & _)]; [reflexivity|contradiction]].
  - assert (~ isWhole v z) by (intro C; apply W in C; discriminate). split; [intros <-; right; auto|intros [(C & _)|(_ & ->)]; [contradiction|reflexivity]].
Qed.
Lemma nearest_whole z : nearest (inject_Z z) z.
Proof.
  assert ((inject_Z z - inject_Z z == 0)%Q) as E by ring. split; rewrite E; [discriminate|intro C; discriminate C].
Qed.
Lemma abs_le q b : (Qabs q <= b)%Q <-> (- b <= q)%Q /\ (q <= b)%Q.
Proof. apply Qabs_Qle_condition. Qed.
Lemma nearest_unique q z z' : nearest q z -> nearest q z' -> z = z'.
Proof.
  assert (G : forall z z', nearest q z -> nearest q z' -> (z < z')%Z -> False).
  { clear. intros z z' (A & B) (A' & B') L. apply abs_le in A as (A1 & A2). apply abs_le in A' as (A3 & A4).
    assert (z' = z + 1)%Z as ->.
    { assert (inject_Z z' <= inject_Z (z + 1))%Q as I by (rewrite inject_Z_plus; change (inject_Z 1) with 1%Q; lra). rewrite <- Zle_Qle in I. lia. }
    rewrite inject_Z_plus in *. change (inject_Z 1) with 1%Q in *.
    assert (Z.even z = true) as E1 by (apply B; rewrite Qabs_pos; lra).
    assert (Z.even (z + 1) = true) as E2 by (apply B'; rewrite Qabs_neg; lra).
    rewrite Z.even_add, E1 in E2. discriminate. }
  intros H H'. destruct (Z.lt_trichotomy z z') as [L|[E|L]]; [destruct (G z z' H H' L)|exact E|destruct (G z' z H' H L)].
Qed.
(** halves of a fraction *)
Lemma nearest_frac n p z : (0 < p)%Z -> (- p <= 2 * (n - z * p) <= p)%Z -> (2 * (n - z * p) = p \/ 2 * (n - z * p) = - p -> Z.even z = true)%Z ->
  nearest (n # Z.to_pos p) z.
Proof.
  intros P I E. assert (D : (n # Z.to_pos p) - inject_Z z == (n - z * p) # Z.to_pos p).
  { unfold Qeq, Qminus, Qplus, Qopp. cbn [Qnum Qden inject_Z]. rewrite !Pos2Z.inj_mul, !Z2Pos.id by exact P. ring. }
  unfold nearest. rewrite D. unfold Qabs. split.
  - unfold Qle. cbn [Qnum Qden]. rewrite Z2Pos.id by exact P. lia.
  - unfold Qeq. cbn [Qnum Qden]. rewrite Z2Pos.id by exact P. intro H. apply E. lia.
Qed.
Lemma round_nearest v z : int_round v = Ok z <-> exists q, amount v = Some q /\ nearest q z.
Proof.
  assert (G : forall v, match amount v with Some q => exists z, int_round v = Ok z /\ nearest q z | None => exists e, int_round v = Err e end).
  { clear. intro v. destruct v as [|b|w|f| | | | | | |]; cbn [amount int_round]; try (eexists; reflexivity).
    - eexists. split; [reflexivity|apply nearest_whole].
    - eexists. split; [reflexivity|apply nearest_whole].
    - destruct f as [s|s| |s m e]; cbn [round_float]; try (eexists; reflexivity).
      + eexists. split; [reflexivity|apply nearest_whole].
      + cbv zeta. destruct (Z.ltb_spec e 0) as [L|L].
        * eexists. split; [reflexivity|]. assert (P : (0 < 2 ^ (- e))%Z) by (apply Z.pow_pos_nonneg; lia). set (p := (2 ^ (- e))%Z) in *. clearbody p.
          pose proof (Z.div_mod (Z.pos m) p ltac:(lia)) as DM. pose proof (Z.mod_pos_bound (Z.pos m) p P) as MB.
          set (x := (Z.pos m / p)%Z) in *. set (r := (Z.pos m mod p)%Z) in *. clearbody x r.
          assert (N : nearest (Z.pos m # Z.to_pos p) (match (2 * r ?= p)%Z with Eq => if Z.even x then x else x + 1 | Lt => x | Gt => x + 1 end)%Z).
          { apply nearest_frac; [exact P| |]; rewrite DM; destruct (Z.compare_spec (2 * r) p) as [C|C|C]; try (destruct (Z.even x) eqn:Ev); try lia; intros _;
              [exact Ev|rewrite Z.even_add, Ev; reflexivity]. }
          destruct s; [|exact N].
          set (y := (match (2 * r ?= p)%Z with Eq => if Z.even x then x else x + 1 | Lt => x | Gt => x + 1 end)%Z) in *. clearbody y.
          destruct N as (N1 & N2). assert (Neg : (Z.neg m # Z.to_pos p) - inject_Z (- y) == - ((Z.pos m # Z.to_pos p) - inject_Z y)).
          { unfold Qeq, Qminus, Qplus, Qopp. cbn [Qnum Qden inject_Z]. change (Z.neg m) with (- Z.pos m)%Z. ring. }
          unfold nearest. rewrite Neg, Qabs_opp. split; [exact N1|]. intro H. rewrite Z.even_opp. exact (N2 H).
        * eexists. split; [reflexivity|]. destruct s; [change (Z.neg m) with (- Z.pos m)%Z; rewrite Z.mul_opp_l|]; apply nearest_whole. }
  specialize (G v). split.
  - intro H. destruct (amount v) as [q|]; [destruct G as (z' & E & N)|destruct G as (e & E)]; rewrite E in H; [injection H as <-|discriminate]. eauto.
  - intros (q & A & N). rewrite A in G. destruct G as (z' & E & N'). rewrite (nearest_unique q z z' N N'). exact E.
Qed.
Lemma floor_unique q z z' : (inject_Z z <= q)%Q -> (q < inject_Z (z + 1))%Q -> (inject_Z z' <= q)%Q -> (q < inject_Z (z' + 1))%Q -> z = z'.
Proof.
  intros A B C D. pose proof (Qle_lt_trans _ _ _ A D) as E. pose proof (Qle_lt_trans _ _ _ C B) as F. rewrite <- Zlt_Qlt in E, F. lia.
Qed.
Lemma abs_floor v z : int_abs v = Ok z <-> exists q, amount v = Some q /\ (inject_Z z <= Qabs q)%Q /\ (Qabs q < inject_Z (z + 1))%Q.
Proof.
  assert (I : forall z, (inject_Z (Z.abs z) <= Qabs (inject_Z z))%Q /\ (Qabs (inject_Z z) < inject_Z (Z.abs z + 1))%Q).
  { clear. intro z. change (Qabs (inject_Z z)) with (inject_Z (Z.abs z)). rewrite <- Zle_Qle, <- Zlt_Qlt. lia. }
  assert (G : forall v, match amount v with Some q => exists z, int_abs v = Ok z /\ (inject_Z z <= Qabs q)%Q /\ (Qabs q < inject_Z (z + 1))%Q | None => exists e, int_abs v = Err e end).
  { clear v z. intro v. destruct v as [|b|w|f| | | | | | |]; cbn [amount int_abs]; try (eexists; reflexivity).
    - eexists. split; [reflexivity|]. destruct b; split; vm_compute; congruence.
    - eexists. split; [reflexivity|apply I].
    - destruct f as [s|s| |s m e]; cbn [SFabs int_of_float]; try (eexists; reflexivity).
      + eexists. split; [reflexivity|apply (I 0%Z)].
      + cbv zeta iota. destruct (Z.ltb_spec e 0) as [L|L].
        * eexists. split; [reflexivity|]. assert (P : (0 < 2 ^ (- e))%Z) by (apply Z.pow_pos_nonneg; lia). set (p := (2 ^ (- e))%Z) in *. clearbody p.
          pose proof (Z.div_mod (Z.pos m) p ltac:(lia)) as DM. pose proof (Z.mod_pos_bound (Z.pos m) p P) as MB.
          assert (A : Qabs ((if s then Z.neg m else Z.pos m) # Z.to_pos p) = (Z.pos m # Z.to_pos p)) by (destruct s; reflexivity).
          rewrite A. unfold Qle, Qlt. cbn [Qnum Qden inject_Z]. rewrite Z2Pos.id by exact P. nia.
        * eexists. split; [reflexivity|]. specialize (I ((if s then Z.neg m else Z.pos m) * 2 ^ e)%Z).
          assert (0 < 2 ^ e)%Z by (apply Z.pow_pos_nonneg; lia).
          replace (Z.abs ((if s then Z.neg m else Z.pos m) * 2 ^ e))%Z with (Z.pos m * 2 ^ e)%Z in I by (destruct s; nia). exact I. }
  specialize (G v). split.
  - intro H. destruct (amount v) as [q|]; [destruct G as (z' & E & N)|destruct G as (e & E)]; rewrite E in H; [injection H as <-|discriminate]. eauto.
  - intros (q & A & N1 & N2). rewrite A in G. destruct G as (z' & E & N1' & N2'). rewrite (floor_unique _ z z' N1 N2 N1' N2'). exact E.
Qed.
Lemma no_round v : match int_round v, int_abs v with
  | Ok _, Ok _ => amount v <> None
  | Err e, Err e' => e = e' /\ notAmount v (match e with ValueError | TypeError => UFOLibError | _ => e end) /\ orUFOLibError (@Err Z e) = Err (match e with ValueError | TypeError => UFOLibError | _ => e end)
  | _, _ => False
  end.
Proof. destruct v as [|b|w|f| | | | | | |]; try (cbn; repeat split; discriminate). destruct f; cbn; repeat split; try discriminate. Qed.

(** ** One attribute, from version 2 to 3 *)
Lemma kinds_23 : forallb (fun a => negb (mem a ufo2To3NonNegativeIntOrFloat) &&
  eqb (mem a ufo2To3FloatToInt) (mem a integerIn3 || mem a nonNegativeIn3) && eqb (mem a ufo2To3NonNegativeInt) (mem a nonNegativeIn3 || eqb a (u "versionMinor")) &&
  negb (mem a integerIn3 && mem a nonNegativeIn3) && negb (eqb a (u "versionMinor") && (mem a integerIn3 || mem a nonNegativeIn3))) namesIn2 = true.
Proof. vm_compute. reflexivity. Qed.
Lemma kind_23 a : In a namesIn2 -> mem a ufo2To3NonNegativeIntOrFloat = false /\
  mem a ufo2To3FloatToInt = mem a integerIn3 || mem a nonNegativeIn3 /\ mem a ufo2To3NonNegativeInt = mem a nonNegativeIn3 || eqb a (u "versionMinor") /\
  mem a integerIn3 && mem a nonNegativeIn3 = false /\ eqb a (u "versionMinor") && (mem a integerIn3 || mem a nonNegativeIn3) = false.
Proof.
  intro I. pose proof kinds_23 as F. rewrite forallb_forall in F. specialize (F a I). rewrite !andb_true_iff, !negb_true_iff in F.
  destruct F as ((((F1 & F2) & F3) & F4) & F5). apply (proj1 (eqb_eq _ _)) in F2, F3. auto.
Qed.
Lemma abs_int z w : (do y <- orUFOLibError (int_abs (PInt z)); Ok (if py_eq (PInt y) (PInt z) then PInt z else PInt y)) = Ok w <-> w = PInt (Z.abs z).
Proof.
  cbn [int_abs orUFOLibError bind py_eq]. rewrite num_eq_int. destruct (Z.eqb_spec (Z.abs z) z) as [E|E]; [rewrite E|]; split; congruence.
Qed.
Lemma orLib_Ok {A} (r : res A) x : orUFOLibError r = Ok x <-> r = Ok x.
Proof. destruct r as [|e]; [reflexivity|]. destruct e; cbn; split; discriminate. Qed.
Lemma whole_number v z : isWhole v z -> nearest (inject_Z z) z /\ exists q, amount v = Some q /\ nearest q z.
Proof.
  intros (q & A & E). split; [apply nearest_whole|]. exists q. split; [exact A|]. pose proof (nearest_whole z) as (N1 & N2).
  unfold nearest. rewrite E. auto.
Qed.
Lemma nearest_abs q z : nearest q z -> (q == inject_Z (Z.abs z))%Q -> z = Z.abs z.
Proof.
  intros N E. assert (nearest q (Z.abs z)) as N' by (unfold nearest; rewrite E; apply nearest_whole). exact (nearest_unique q _ _ N N').
Qed.
Lemma convert23_iff a v a' w : In a namesIn2 -> (convertValue2To3 a v = Ok (a', w) <-> a' = a /\ upgradedTo a v w).
Proof.
  intro I. destruct (kind_23 a I) as (K1 & K2 & K3 & K4 & K5). unfold convertValue2To3, upgradedTo. rewrite K1, K2, K3.
  destruct (mem_spec a integerIn3) as [M1|M1]; [|destruct (mem_spec a nonNegativeIn3) as [M2|M2]; [|destruct (eqb_spec a (u "versionMinor")) as [M3|M3]]]; cbn [orb andb] in *.
  - destruct (mem_spec a nonNegativeIn3) as [M2|M2]; [discriminate|]. destruct (eqb_spec a (u "versionMinor")) as [M3|M3]; [discriminate|]. cbn [orb].
    destruct (int_round v) as [z|e] eqn:R.
    + pose proof (proj1 (round_nearest v z) R) as (q & A & N). cbn [orUFOLibError bind].
      transitivity (a' = a /\ keptOr v z w).
      * rewrite <- kept_eq. split; [intro H; injection H as <- <-; auto|intros (-> & <-); reflexivity].
      * split; intros (-> & H); (split; [reflexivity|]).
        -- split; [intros _; exists q, z; auto|]. split; [intro C; contradiction|]. split; [intro C; contradiction|intro C; contradiction].
        -- destruct H as (H & _). destruct (H M1) as (q' & z' & A' & N' & K). rewrite A in A'. injection A' as <-. rewrite (nearest_unique q z z' N N'). exact K.
    + split.
      * destruct e; cbn; discriminate.
      * intros (_ & H & _). destruct (H M1) as (q' & z' & A' & N' & K). assert (int_round v = Ok z') by (apply round_nearest; eauto). congruence.
  - destruct (eqb_spec a (u "versionMinor")) as [M3|M3]; [discriminate|].
    destruct (int_round v) as [z|e] eqn:R.
    + pose proof (proj1 (round_nearest v z) R) as (q & A & N). cbn [orUFOLibError bind].
      transitivity (a' = a /\ keptOr v (Z.abs z) w).
      * pose proof (eq_whole z v) as W. destruct (py_eq (PInt z) v) eqn:E.
        -- assert (Wz : isWhole v z) by (apply W; reflexivity).
           assert (int_abs v = Ok (Z.abs z)) as ->.
           { apply abs_floor. destruct Wz as (q' & A' & E'). exists q'. split; [exact A'|]. rewrite E'. change (Qabs (inject_Z z)) with (inject_Z (Z.abs z)).
             rewrite <- Zle_Qle, <- Zlt_Qlt. lia. }
           cbn [orUFOLibError bind]. rewrite <- kept_eq. split; [intro H; injection H as <- <-; auto|intros (-> & <-); reflexivity].
        -- assert (Wz : ~ isWhole v z) by (intro C; apply W in C; discriminate).
           assert (Wa : ~ isWhole v (Z.abs z)).
           { intro C. apply Wz. rewrite (nearest_abs q z N); [exact C|]. destruct C as (q' & A' & E'). rewrite A in A'. injection A' as <-. exact E'. }
           pose proof (abs_int z) as AI. destruct (do y <- orUFOLibError (int_abs (PInt z)); Ok (if py_eq (PInt y) (PInt z) then PInt z else PInt y)) as [x|] eqn:X.
           ++ assert (x = PInt (Z.abs z)) as -> by (apply AI; reflexivity). cbn [bind]. unfold keptOr.
              split; [intro H; injection H as <- <-; auto|intros (-> & [(C & _)|(_ & ->)]); [contradiction|reflexivity]].
           ++ exfalso. specialize (AI (PInt (Z.abs z))). destruct AI as (_ & AI). discriminate (AI eq_refl).
      * split; intros (-> & H); (split; [reflexivity|]).
        -- split; [intro C; contradiction|]. split; [intros _; exists q, z; auto|]. split; [intro C; contradiction|intros _ C; contradiction].
        -- destruct H as (_ & H & _). destruct (H M2) as (q' & z' & A' & N' & K). rewrite A in A'. injection A' as <-. rewrite (nearest_unique q z z' N N'). exact K.
    + split.
      * destruct e; cbn; discriminate.
      * intros (_ & _ & H & _). destruct (H M2) as (q' & z' & A' & N' & K). assert (int_round v = Ok z') by (apply round_nearest; eauto). congruence.
  - cbn [bind]. destruct (int_abs v) as [z|e] eqn:R.
    + pose proof (proj1 (abs_floor v z) R) as (q & A & N1 & N2). cbn [orUFOLibError bind].
      transitivity (a' = a /\ keptOr v z w).
      * rewrite <- kept_eq. split; [intro H; injection H as <- <-; auto|intros (-> & <-); reflexivity].
      * split; intros (-> & H); (split; [reflexivity|]).
        -- split; [intro C; contradiction|]. split; [intro C; contradiction|]. split; [intros _; exists q, z; auto|intros _ _ C; contradiction].
        -- destruct H as (_ & _ & H & _). destruct (H M3) as (q' & z' & A' & N1' & N2' & K). rewrite A in A'. injection A' as <-. rewrite (floor_unique _ z z' N1 N2 N1' N2'). exact K.
    + split.
      * destruct e; cbn; discriminate.
      * intros (_ & _ & _ & H & _). destruct (H M3) as (q' & z' & A' & N' & N'' & K). assert (int_abs v = Ok z') by (apply abs_floor; eauto). congruence.
  - cbn [bind]. split.
    + intro H. injection H as <- <-. split; [reflexivity|]. repeat split; intro C; contradiction.
    + intros (-> & _ & _ & _ & H). rewrite (H M1 M2 M3). reflexivity.
Qed.
Lemma convert23_err a v e : In a namesIn2 -> (convertValue2To3 a v = Err e <-> numberIn3 a /\ notAmount v e).
Proof.
  intro I. destruct (kind_23 a I) as (K1 & K2 & K3 & K4 & K5). unfold convertValue2To3, numberIn3. rewrite K1, K2, K3.
  assert (NN : forall e', notAmount v e -> notAmount v e' -> e = e').
  { intros e' A B. unfold notAmount in *. destruct v; try (destruct A as (_ & ->); destruct B as (_ & ->); reflexivity). destruct f; try (destruct A as (_ & ->); destruct B as (_ & ->); reflexivity). congruence. }
  assert (NA : notAmount v e -> amount v = None) by (unfold notAmount; destruct v; try (intros (A & _); exact A); destruct f; try (intros (A & _); exact A); reflexivity).
  pose proof (no_round v) as NR.
  assert (AI : forall z, exists x, (do y <- orUFOLibError (int_abs (PInt z)); Ok (if py_eq (PInt y) (PInt z) then PInt z else PInt y)) = Ok x) by (intro z; eexists; apply abs_int; reflexivity).
  destruct (int_round v) as [z|x] eqn:R, (int_abs v) as [z'|x'] eqn:R'; try contradiction.
  - split; [|intros (_ & N); apply NA in N; contradiction].
    destruct (mem a integerIn3 || mem a nonNegativeIn3); cbn [orUFOLibError bind]; destruct (mem a nonNegativeIn3 || eqb a (u "versionMinor")); cbn [bind].
    + destruct (py_eq (PInt z) v); [rewrite R'; cbn; discriminate|]. destruct (AI z) as (x & ->). cbn. discriminate.
    + discriminate.
    + try rewrite R'. cbn. discriminate.
    + discriminate.
  - destruct NR as (<- & N & O). destruct (mem_spec a integerIn3) as [M1|M1]; [|destruct (mem_spec a nonNegativeIn3) as [M2|M2]; [|destruct (eqb_spec a (u "versionMinor")) as [M3|M3]]]; cbn [orb andb] in *.
    + rewrite O. cbn [bind]. split; [intro H; injection H as <-; auto|intros (_ & H); f_equal; symmetry; exact (NN _ H N)].
    + rewrite O. cbn [bind]. split; [intro H; injection H as <-; auto|intros (_ & H); f_equal; symmetry; exact (NN _ H N)].
    + cbn [bind]. rewrite R', O. cbn [bind]. split; [intro H; injection H as <-; auto|intros (_ & H); f_equal; symmetry; exact (NN _ H N)].
    + cbn [bind]. split; [discriminate|intros ([C|[C|C]] & _); contradiction].
Qed.

(** ** One attribute, from version 1 to 2 *)
Lemma trunc_whole f z : isWhole (PFloat f) z -> int_of_float f = Ok z.
Proof.
  intros (q & A & E). destruct f as [s|s| |s m e]; cbn [amount] in A; try discriminate; injection A as <-.
  - apply inject_inj in E. subst. reflexivity.
  - cbn [int_of_float]. destruct (Z.ltb_spec e 0) as [L|L].
    + assert (P : (0 < 2 ^ (- e))%Z) by (apply Z.pow_pos_nonneg; lia). set (p := (2 ^ (- e))%Z) in *. clearbody p. cbv zeta.
      unfold Qeq in E. cbn [Qnum Qden inject_Z] in E. rewrite Z2Pos.id in E by exact P. rewrite Z.mul_1_r in E.
      destruct s; f_equal.
      * assert (Z.pos m = (- z) * p)%Z as -> by lia. rewrite Z.div_mul by lia. lia.
      * rewrite E. rewrite Z.div_mul by lia. reflexivity.
    + apply inject_inj in E. subst z. destruct s; f_equal; lia.
Qed.
Lemma float_amount f : amount (PFloat f) <> None <-> exists z, int_of_float f = Ok z.
Proof. destruct f; cbn; split; try (intros _; eexists; reflexivity); try discriminate; try (intro H; destruct (H eq_refl)); intros (z & C); discriminate. Qed.
Lemma floatToInt_iff v x : floatToInt v = Ok x <-> wholeAsInt v x.
Proof.
  destruct v; try (cbn; split; congruence). cbn [floatToInt wholeAsInt]. destruct (int_of_float f) as [z|e] eqn:E; cbn [bind].
  - pose proof (eq_whole z (PFloat f)) as W. cbn [py_eq] in W. destruct (num_eq (PInt z) (PFloat f)).
    + assert (Wz : isWhole (PFloat f) z) by (apply W; reflexivity). split.
      * intro H. injection H as <-. left. eauto.
      * intros [(z' & Wz' & ->)|(_ & C & _)]; [rewrite (isWhole_unique _ _ _ Wz Wz'); reflexivity|destruct (C z Wz)].
    + assert (Wz : forall z', ~ isWhole (PFloat f) z').
      { intros z' C. pose proof (trunc_whole f z' C) as E'. rewrite E in E'. injection E' as <-. apply W in C. discriminate. }
      split.
      * intro H. injection H as <-. right. split; [apply float_amount; eauto|]. auto.
      * intros [(z' & C & _)|(_ & _ & ->)]; [destruct (Wz z' C)|reflexivity].
  - split; [discriminate|]. intros [(z & W & _)|(C & _)].
    + apply trunc_whole in W. congruence.
    + apply float_amount in C as (z & C). congruence.
Qed.
Lemma eq_sym_num v z : py_eq v (PInt z) = py_eq (PInt z) v.
Proof.
  destruct v; try reflexivity; cbn [py_eq]; unfold num_eq, num_cmp; cbn [num].
  - cbn [ext_compare]. cbv zeta. rewrite Z.compare_antisym. destruct (Z.compare _ _); reflexivity.
  - cbn [ext_compare]. cbv zeta. rewrite Z.compare_antisym. destruct (Z.compare _ _); reflexivity.
  - destruct f; cbn [ext_of_float ext_compare]; try reflexivity; try (destruct s; reflexivity).
    + cbv zeta. rewrite Z.compare_antisym. destruct (Z.compare _ _); reflexivity.
    + cbv zeta. rewrite (Z.min_comm 0 e), Z.compare_antisym. destruct (Z.compare _ _); reflexivity.
Qed.
Lemma eq_str v s : py_eq v (PStr s) = true <-> v = PStr s.
Proof.
  destruct v; try (split; discriminate). cbn [py_eq]. split; [intro H; apply (proj1 (eqb_eq _ _)) in H; congruence|].
  intro H. injection H as ->. apply eqb_refl.
Qed.
Lemma lookup_iff x t w : (forall k w k' w', In (k, w) t -> In (k', w') t -> py_eq x k = true -> py_eq x k' = true -> w = w') ->
  (lookup x t = Some w <-> exists k, In (k, w) t /\ py_eq x k = true).
Proof.
  intro U. split; [apply lookup_In|]. intros (k & I & E). destruct (lookup x t) as [w'|] eqn:L.
  - apply lookup_In in L as (k' & I' & E'). rewrite (U _ _ _ _ I I' E E'). reflexivity.
  - exfalso. clear U. induction t as [|[k' w'] t IH]; [destruct I|]. cbn [lookup] in L. destruct (py_eq x k') eqn:E'; [discriminate|].
    destruct I as [I|I]; [injection I as <- <-; congruence|exact (IH I L)].
Qed.
Lemma assoc_unique {A B} (l : list (A * B)) k a b : NoDup (map fst l) -> In (k, a) l -> In (k, b) l -> a = b.
Proof.
  induction l as [|[x y] l IH]; intros N I J; [destruct I|]. inversion N as [|? ? Nx N']; subst.
  destruct I as [I|I], J as [J|J]; [congruence| | |exact (IH N' I J)]; exfalso; apply Nx; apply in_map_iff; [exists (k, b)|exists (k, a)]; (split; [cbn; congruence|assumption]).
Qed.
(** tables whose keys are integers, and tables whose keys are strings *)
Lemma lookup_ints {B} (l : list (Z * B)) (f : B -> pyval) x w : NoDup (map fst l) ->
  (lookup x (map (fun p => (PInt (fst p), f (snd p))) l) = Some w <-> exists n b, In (n, b) l /\ isWhole x n /\ w = f b).
Proof.
  intro N. rewrite lookup_iff.
  - split.
    + intros (k & I & E). apply in_map_iff in I as ([n b] & Q & I). injection Q as <- <-. exists n, b. rewrite eq_sym_num in E. apply eq_whole in E. auto.
    + intros (n & b & I & W & ->). exists (PInt n). split; [apply in_map_iff; exists (n, b); auto|]. rewrite eq_sym_num. apply eq_whole. exact W.
  - intros k a k' a' I I' E E'. apply in_map_iff in I as ([n b] & Q & I). apply in_map_iff in I' as ([n' b'] & Q' & I'). injection Q as <- <-. injection Q' as <- <-.
    cbn [fst snd] in *. rewrite eq_sym_num in E, E'. apply eq_whole in E, E'. pose proof (isWhole_unique _ _ _ E E'). subst n'. f_equal. exact (assoc_unique l n b b' N I I').
Qed.
Lemma lookup_strs {B} (l : list (string * B)) (f : B -> pyval) x w : NoDup (map (fun p => u (fst p)) l) ->
  (lookup x (map (fun p => (PStr (u (fst p)), f (snd p))) l) = Some w <-> exists s b, In (s, b) l /\ x = PStr (u s) /\ w = f b).
Proof.
  intro N. rewrite lookup_iff.
  - split.
    + intros (k & I & E). apply in_map_iff in I as ([n b] & Q & I). injection Q as <- <-. exists n, b. apply eq_str in E. auto.
    + intros (n & b & I & W & ->). exists (PStr (u n)). split; [apply in_map_iff; exists (n, b); auto|]. apply eq_str. exact W.
  - intros k a k' a' I I' E E'. apply in_map_iff in I as ([n b] & Q & I). apply in_map_iff in I' as ([n' b'] & Q' & I'). injection Q as <- <-. injection Q' as <- <-.
    cbn [fst snd] in *. apply eq_str in E, E'. rewrite E in E'. injection E' as E'. f_equal.
    apply (assoc_unique (map (fun p => (u (fst p), snd p)) l) (u n)); [rewrite map_map; exact N|apply in_map_iff; exists (n, b); auto|apply in_map_iff; exists (n', b'); rewrite E'; auto].
Qed.
Lemma styles_table : fontStyle1To2 = map (fun p => (PInt (fst p), PStr (u (snd p)))) fontStyles.
Proof. reflexivity. Qed.
Lemma widths_table : widthName1To2 = map (fun p => (PStr (u (fst p)), PInt (snd p))) widths.
Proof. reflexivity. Qed.
Lemma charSets_table : msCharSet1To2 = map (fun p => (PInt (fst p), PInt (snd p))) charSets.
Proof. reflexivity. Qed.
Lemma nodupZ l : (fix go (l : list Z) := match l with [] => true | x :: r => negb (existsb (Z.eqb x) r) && go r end) l = true -> NoDup l.
Proof.
  induction l as [|x r IH]; [constructor|]. intro H. apply andb_true_iff in H as (H & H'). constructor; [|exact (IH H')].
  intro I. apply negb_true_iff in H. assert (existsb (Z.eqb x) r = true) by (apply existsb_exists; exists x; split; [exact I|apply Z.eqb_refl]). congruence.
Qed.
Lemma whole_hashable v z : isWhole v z -> hashable v = true.
Proof. intros (q & A & _). destruct v; try discriminate; reflexivity. Qed.
Lemma names_table a1 a2 : In (a1, a2) namesIn1 <-> In a1 fontInfoAttributesVersion1 /\ a2 = to2 a1.
Proof.
  assert (E : namesIn1 = map (fun a => (a, to2 a)) fontInfoAttributesVersion1) by (vm_compute; reflexivity). rewrite E, in_map_iff. split.
  - intros (a & Q & I). injection Q as <- <-. auto.
  - intros (I & ->). exists a1. auto.
Qed.
Lemma table_means a1 x v2 : is_none x = false ->
  (match table12 a1 with Some td => convertVia (fst td) x | None => Ok x end = Ok v2 <->
  (a1 = u "fontStyle" -> exists n s, In (n, s) fontStyles /\ isWhole x n /\ v2 = PStr (u s)) /\
  (a1 = u "widthName" -> exists s n, In (s, n) widths /\ x = PStr (u s) /\ v2 = PInt n) /\
  (a1 = u "msCharSet" -> exists n m, In (n, m) charSets /\ isWhole x n /\ v2 = PInt m) /\
  (a1 <> u "fontStyle" -> a1 <> u "widthName" -> a1 <> u "msCharSet" -> v2 = x)).
Proof.
  intro Nx. assert (Via : forall t, convertVia t x = Ok v2 <-> hashable x = true /\ lookup x t = Some v2).
  { intro t. unfold convertVia, dictGet. destruct (hashable x); cbn [bind]; [|split; [discriminate|intros (C & _); discriminate]].
    destruct (lookup x t); split; try discriminate; [intro H; injection H as ->; auto|intros (_ & H); injection H as ->; reflexivity|intros (_ & H); discriminate]. }
  unfold table12. destruct (eqb_spec a1 (u "fontStyle")) as [->|n1]; [|destruct (eqb_spec a1 (u "widthName")) as [->|n2]; [|destruct (eqb_spec a1 (u "msCharSet")) as [->|n3]]]; cbn [fst].
  - rewrite Via, styles_table, (lookup_ints fontStyles (fun s => PStr (u s))) by (apply nodupZ; reflexivity). split.
    + intros (_ & H). split; [intros _; exact H|]. split; [discriminate|]. split; [discriminate|]. intro C. destruct (C eq_refl).
    + intros (H & _). specialize (H eq_refl). split; [destruct H as (n & s & _ & W & _); exact (whole_hashable _ _ W)|exact H].
  - rewrite Via, widths_table, (lookup_strs widths (fun z => PInt z)) by (apply nodup_dec; reflexivity). split.
    + intros (_ & H). split; [discriminate|]. split; [intros _; exact H|]. split; [discriminate|]. intros _ C. destruct (C eq_refl).
    + intros (_ & H & _). specialize (H eq_refl). split; [destruct H as (n & s & _ & -> & _); reflexivity|exact H].
  - rewrite Via, charSets_table, (lookup_ints charSets (fun s => PInt s)) by (apply nodupZ; reflexivity). split.
    + intros (_ & H). split; [discriminate|]. split; [discriminate|]. split; [intros _; exact H|]. intros _ _ C. destruct (C eq_refl).
    + intros (_ & _ & H & _). specialize (H eq_refl). split; [destruct H as (n & s & _ & W & _); exact (whole_hashable _ _ W)|exact H].
  - split; [intro H; injection H as ->; repeat split; intros; contradiction || reflexivity|]. intros (_ & _ & _ & H). rewrite (H n1 n2 n3). reflexivity.
Qed.
Lemma whole_none v x : wholeAsInt v x -> is_none x = is_none v.
Proof. destruct v; cbn [wholeAsInt]; try (intros ->; reflexivity). intros [(z & _ & ->)|(_ & _ & ->)]; reflexivity. Qed.
Lemma convert12_iff a1 v1 a v2 : is_none v1 = false -> (convertValue1To2 a1 v1 = Ok (a, v2) <-> a = to2 a1 /\ means a1 v1 v2).
Proof.
  intro N. rewrite convert12_alt. unfold means. destruct (floatToInt v1) as [x|e] eqn:F; cbn [bind].
  - apply floatToInt_iff in F. pose proof (whole_none _ _ F) as Nx. rewrite N in Nx. rewrite Nx. pose proof (table_means a1 x v2 Nx) as TM.
    transitivity (a = to2 a1 /\ match table12 a1 with Some td => convertVia (fst td) x | None => Ok x end = Ok v2).
    + destruct (table12 a1) as [td|]; [destruct (convertVia (fst td) x) as [y|]; cbn [bind]|]; (split; [intro H; try (injection H as <- <-; auto); discriminate|intros (-> & H); try (injection H as <-; reflexivity); discriminate]).
    + rewrite TM. split; intros (-> & H); (split; [reflexivity|]); [exists x; split; [exact F|exact H]|].
      destruct H as (x' & F' & H). apply floatToInt_iff in F, F'. rewrite F in F'. injection F' as <-. exact H.
  - split; [discriminate|]. intros (_ & x & F' & _). apply floatToInt_iff in F'. congruence.
Qed.
Lemma convert12_err a1 v1 e : is_none v1 = false -> convertValue1To2 a1 v1 = Err e -> refused a1 v1 e.
Proof.
  intros N H. assert (NM : forall v2, ~ means a1 v1 v2).
  { intros v2 M. assert (convertValue1To2 a1 v1 = Ok (to2 a1, v2)) by (apply convert12_iff; auto). congruence. }
  rewrite convert12_alt in H. unfold refused. destruct v1 as [|b|z|f| | | | | | |]; cbn [floatToInt bind] in H; try discriminate;
    try (split; [exact NM|]; cbn [is_none] in H; destruct (table12 a1) as [td|]; [|discriminate]; unfold convertVia, dictGet in H; destruct (hashable _); cbn [bind] in H;
         [destruct (lookup _ _); [discriminate|injection H as <-; reflexivity]|injection H as <-; reflexivity]).
  assert (HF : forall z, int_of_float f = Ok z -> e = UFOLibError).
  { intros z E. rewrite E in H. cbn [bind] in H. set (x := if num_eq (PInt z) (PFloat f) then PInt z else PFloat f) in *.
    assert (is_none x = false /\ hashable x = true) as (X1 & X2) by (unfold x; destruct (num_eq _ _); auto). rewrite X1 in H.
    destruct (table12 a1) as [td|]; [|discriminate]. unfold convertVia, dictGet in H. rewrite X2 in H. cbn [bind] in H. destruct (lookup _ _); [discriminate|injection H as <-; reflexivity]. }
  destruct f as [s|s| |s m ex].
  - split; [exact NM|]. exact (HF _ eq_refl).
  - cbn in H. injection H as <-. reflexivity.
  - cbn in H. injection H as <-. reflexivity.
  - split; [exact NM|]. exact (HF _ eq_refl).
Qed.

(** ** Whole dictionaries *)
Lemma conv23_name a v a' w : convertValue2To3 a v = Ok (a', w) -> a' = a.
Proof.
  unfold convertValue2To3. intro H. apply bind_Ok in H as (x & _ & H). apply bind_Ok in H as (y & _ & H). injection H as <- _. reflexivity.
Qed.
Lemma conv23_get d : forall acc r, NoDup (keys d) -> convertData2To3 d acc = Ok r ->
  forall a w, get a r = Some w <-> (exists v, get a d = Some v /\ convertValue2To3 a v = Ok (a, w)) \/ get a d = None /\ get a acc = Some w.
Proof.
  induction d as [|[k v] d IH]; intros acc r N H a w; cbn [convertData2To3] in H.
  - injection H as <-. cbn [get]. split; [auto|]. intros [(v & C & _)|(_ & G)]; [discriminate|exact G].
  - apply bind_Ok in H as ([k' x] & C & H). cbn [fst snd] in H. pose proof (conv23_name _ _ _ _ C) as ->. inversion N as [|? ? Nk N']; subst.
    rewrite (IH _ _ N' H a w). cbn [get]. destruct (eqb_spec a k) as [->|n].
    + assert (get k d = None) as -> by (apply get_None; exact Nk). rewrite get_set_same. split.
      * intros [(y & Y & _)|(_ & Y)]; [discriminate|]. injection Y as <-. left. eauto.
      * intros [(y & Y & E)|(Y & _)]; [|discriminate]. injection Y as <-. rewrite C in E. injection E as <-. right. auto.
    + rewrite get_set_other by congruence. reflexivity.
Qed.
Lemma conv23_dict d : forall acc r, NoDup (keys acc) -> convertData2To3 d acc = Ok r -> NoDup (keys r).
Proof.
  induction d as [|[k v] d IH]; intros acc r N H; cbn [convertData2To3] in H; [injection H as <-; exact N|].
  apply bind_Ok in H as ([k' x] & C & H). apply (IH _ _ (dict_ok_set _ _ _ N) H).
Qed.
Lemma conv23_fails d : forall acc e, convertData2To3 d acc = Err e -> exists a v, In (a, v) d /\ convertValue2To3 a v = Err e.
Proof.
  induction d as [|[k v] d IH]; intros acc e H; cbn [convertData2To3] in H; [discriminate|].
  destruct (convertValue2To3 k v) as [[k' x]|e'] eqn:C; cbn [bind] in H.
  - destruct (IH _ _ H) as (a & y & I & E). exists a, y. split; [right; exact I|exact E].
  - injection H as <-. exists k, v. split; [left; reflexivity|exact C].
Qed.
Lemma conv23_total d : forall acc r a v, convertData2To3 d acc = Ok r -> In (a, v) d -> exists w, convertValue2To3 a v = Ok (a, w).
Proof.
  induction d as [|[k x] d IH]; intros acc r a v H I; [destruct I|]. cbn [convertData2To3] in H. apply bind_Ok in H as ([k' y] & C & H).
  destruct I as [I|I]; [|exact (IH _ _ a v H I)]. injection I as <- <-. pose proof (conv23_name _ _ _ _ C) as ->. eauto.
Qed.
Lemma weight_skip a v : eqb a (u "weightValue") && py_eq v (PInt (-1)) = true <-> a = u "weightValue" /\ isWhole v (-1).
Proof.
  rewrite andb_true_iff, eq_sym_num, eq_whole. split; intros (A & B); (split; [|exact B]); [apply (proj1 (eqb_eq _ _)) in A; exact A|subst; apply eqb_refl].
Qed.
Lemma to2_in2 T a : In a fontInfoAttributesVersion1 -> In (to2 a) (fontInfoAttributesVersion2 T).
Proof.
  intro I. assert (F : forallb (fun a => mem (to2 a) (fontInfoAttributesVersion2 T)) fontInfoAttributesVersion1 = true) by (vm_compute; reflexivity).
  rewrite forallb_forall in F. apply mem_In. exact (F a I).
Qed.
Lemma to2_inj a b : In a fontInfoAttributesVersion1 -> In b fontInfoAttributesVersion1 -> to2 a = to2 b -> a = b.
Proof. intros I J E. rewrite <- (back12 asciiText a I (to2_in2 asciiText a I)), <- (back12 asciiText b J (to2_in2 asciiText b J)), E. reflexivity. Qed.
Definition counted (kv : str * pyval) : Prop := ~ (fst kv = u "weightValue" /\ isWhole (snd kv) (-1)).
Lemma conv12_get T d : forall acc r, NoDup (keys d) -> incl (keys d) fontInfoAttributesVersion1 -> (forall a v, In (a, v) d -> is_none v = false) ->
  convertData1To2 T d acc = Ok r ->
  forall a w, get a r = Some w <-> (exists a1 v1, In (a1, v1) d /\ counted (a1, v1) /\ a = to2 a1 /\ means a1 v1 w) \/
                                   (forall a1 v1, In (a1, v1) d -> counted (a1, v1) -> a <> to2 a1) /\ get a acc = Some w.
Proof.
  induction d as [|[k v] d IH]; intros acc r N I1 Nn H a w; cbn [convertData1To2] in H.
  - injection H as <-. split; [intro G; right; split; [intros a1 v1 []|exact G]|]. intros [(a1 & v1 & [] & _)|(_ & G)]. exact G.
  - inversion N as [|? ? Nk N']; subst. assert (I1' : incl (keys d) fontInfoAttributesVersion1) by (intros x X; apply I1; right; exact X).
    assert (Nn' : forall a v, In (a, v) d -> is_none v = false) by (intros x y X; apply (Nn x y); right; exact X).
    pose proof (weight_skip k v) as WS. destruct (eqb k (u "weightValue") && py_eq v (PInt (-1))) eqn:W.
    + assert (Sk : ~ counted (k, v)) by (intro C; apply C; apply WS; reflexivity). rewrite (IH _ _ N' I1' Nn' H a w). split.
      * intros [(a1 & v1 & I & C)|(D & G)]; [left; exists a1, v1; split; [right; exact I|exact C]|right; split; [|exact G]].
        intros a1 v1 [I|I] C; [injection I as <- <-; contradiction|exact (D a1 v1 I C)].
      * intros [(a1 & v1 & [I|I] & C & R)|(D & G)]; [injection I as <- <-; contradiction|left; exists a1, v1; auto|right; split; [|exact G]].
        intros a1 v1 I C. exact (D a1 v1 (or_intror I) C).
    + assert (Sk : counted (k, v)) by (intro C; apply WS in C; discriminate).
      apply bind_Ok in H as ([a2 v2] & C2 & H). cbn [fst snd] in H. pose proof (Nn k v (or_introl eq_refl)) as Nv.
      apply convert12_iff in C2 as (-> & M); [|exact Nv]. assert (Ik : In k fontInfoAttributesVersion1) by (apply I1; left; reflexivity).
      rewrite (proj2 (mem_In _ _) (to2_in2 T k Ik)), Nv in H. cbn [negb] in H.
      rewrite (IH _ _ N' I1' Nn' H a w). destruct (eqb_spec a (to2 k)) as [->|n].
      * rewrite get_set_same. assert (Fr : forall a1 v1, In (a1, v1) d -> to2 k <> to2 a1).
        { intros a1 v1 I E. apply Nk. rewrite (to2_inj k a1 Ik); [|apply I1'|exact E]; unfold keys; apply in_map_iff; exists (a1, v1); auto. }
        split.
        -- intros [(a1 & v1 & I & _ & E & _)|(_ & G)]; [destruct (Fr a1 v1 I E)|]. injection G as <-. left. exists k, v. split; [left; reflexivity|auto].
        -- intros [(a1 & v1 & [I|I] & _ & E & M')|(D & _)].
           ++ injection I as <- <-. right. split; [intros a1 v1 I _; exact (Fr a1 v1 I)|].
              pose proof (proj2 (convert12_iff k v (to2 k) v2 Nv) (conj eq_refl M)) as X1. pose proof (proj2 (convert12_iff k v (to2 k) w Nv) (conj eq_refl M')) as X2. congruence.
           ++ destruct (Fr a1 v1 I E).
           ++ destruct (D k v (or_introl eq_refl) Sk eq_refl).
      * rewrite get_set_other by congruence. split.
        -- intros [(a1 & v1 & I & C)|(D & G)]; [left; exists a1, v1; split; [right; exact I|exact C]|right; split; [|exact G]].
           intros a1 v1 [I|I] C; [injection I as <- <-; exact n|exact (D a1 v1 I C)].
        -- intros [(a1 & v1 & [I|I] & C & E & R)|(D & G)]; [injection I as <- <-; contradiction|left; exists a1, v1; auto|right; split; [|exact G]].
           intros a1 v1 I C. exact (D a1 v1 (or_intror I) C).
Qed.
Lemma conv12_dict T d : forall acc r, NoDup (keys acc) -> convertData1To2 T d acc = Ok r -> NoDup (keys r).
Proof.
  induction d as [|[k v] d IH]; intros acc r N H; cbn [convertData1To2] in H; [injection H as <-; exact N|].
  destruct (eqb k _ && _); [exact (IH _ _ N H)|]. apply bind_Ok in H as ([k' x] & C & H). destruct (negb _); [exact (IH _ _ N H)|].
  destruct (is_none v); [discriminate|]. apply (IH _ _ (dict_ok_set _ _ _ N) H).
Qed.
Lemma conv12_fails T d : (forall a v, In (a, v) d -> is_none v = false) -> forall acc e, convertData1To2 T d acc = Err e ->
  exists a v, In (a, v) d /\ counted (a, v) /\ convertValue1To2 a v = Err e.
Proof.
  intro Nn. induction d as [|[k v] d IH]; intros acc e H; cbn [convertData1To2] in H; [discriminate|].
  assert (Nn' : forall a v, In (a, v) d -> is_none v = false) by (intros x y X; apply (Nn x y); right; exact X).
  assert (Skip : forall acc, convertData1To2 T d acc = Err e -> exists a x, In (a, x) ((k, v) :: d) /\ counted (a, x) /\ convertValue1To2 a x = Err e).
  { intros acc' H'. destruct (IH Nn' _ _ H') as (a & x & I & C). exists a, x. split; [right; exact I|exact C]. }
  pose proof (weight_skip k v) as WS. destruct (eqb k (u "weightValue") && py_eq v (PInt (-1))); [exact (Skip _ H)|].
  assert (Sk : counted (k, v)) by (intro C; apply WS in C; discriminate).
  destruct (convertValue1To2 k v) as [[k' x]|e'] eqn:C; cbn [bind fst snd] in H.
  - destruct (negb _); [exact (Skip _ H)|]. rewrite (Nn k v (or_introl eq_refl)) in H. exact (Skip _ H).
  - injection H as <-. exists k, v. split; [left; reflexivity|auto].
Qed.
Lemma conv12_total T d : (forall a v, In (a, v) d -> is_none v = false) -> forall acc r a v, convertData1To2 T d acc = Ok r ->
  In (a, v) d -> counted (a, v) -> exists w, means a v w.
Proof.
  intro Nn. induction d as [|[k x] d IH]; intros acc r a v H I C; [destruct I|]. cbn [convertData1To2] in H.
  assert (Nn' : forall a v, In (a, v) d -> is_none v = false) by (intros y z X; apply (Nn y z); right; exact X).
  pose proof (weight_skip k x) as WS. destruct (eqb k (u "weightValue") && py_eq x (PInt (-1))).
  - destruct I as [I|I]; [|exact (IH Nn' _ _ a v H I C)]. injection I as <- <-. destruct C. apply WS. reflexivity.
  - apply bind_Ok in H as ([k' y] & E & H). cbn [fst snd] in H. destruct I as [I|I].
    + injection I as <- <-. apply convert12_iff in E as (_ & M); [eauto|]. apply (Nn k x). left. reflexivity.
    + destruct (negb _); [exact (IH Nn' _ _ a v H I C)|]. destruct (is_none x); [discriminate|]. exact (IH Nn' _ _ a v H I C).
Qed.
(** what readInfo collects *)
Lemma collected attrs d a v : NoDup attrs -> (get a (collect attrs (asDict d) []) = Some v <-> In a attrs /\ get a d = Some v /\ v <> PNone).
Proof.
  intro N. rewrite collect_get; [|intros []|exact N|intros k _ []]. rewrite vget_asDict. destruct (mem_spec a attrs) as [M|M].
  - destruct (get a d) as [x|]; [|cbn; split; [discriminate|intros (_ & C & _); discriminate]].
    destruct x; cbn [is_none]; split; try (intro H; injection H as <-; repeat split; auto; discriminate); try (intros (_ & H & _); exact H); try discriminate.
    intros (_ & H & C). injection H as <-. destruct (C eq_refl).
  - split; [discriminate|intros (C & _); contradiction].
Qed.
Lemma collected_none attrs d a v : NoDup attrs -> In (a, v) (collect attrs (asDict d) []) -> In a attrs /\ get a d = Some v /\ v <> PNone.
Proof. intros N I. apply collected; [exact N|]. apply In_get; [apply collect_keys; constructor|exact I]. Qed.
Lemma names2 T : fontInfoAttributesVersion2 T = namesIn2.
Proof. reflexivity. Qed.
Lemma names2_nodup : NoDup namesIn2.
Proof. apply nodup_dec. vm_compute. reflexivity. Qed.
Lemma names1_nodup perm : Permutation (perm fontInfoAttributesVersion1) fontInfoAttributesVersion1 -> NoDup (perm fontInfoAttributesVersion1).
Proof. intro P. apply (Permutation_NoDup (Permutation_sym P)). apply nodup_dec. vm_compute. reflexivity. Qed.
(** validation changes nothing *)
Lemma readInfo_2 T perm validate d info : readInfo T perm 2 validate (asDict d) = Ok info ->
  convertData2To3 (collect namesIn2 (asDict d) []) [] = Ok info.
Proof.
  unfold readInfo. cbn [asDict is_dict negb andb]. rewrite andb_false_r. change (2 =? 1)%Z with false. change (2 =? 2)%Z with true. cbn iota. rewrite names2.
  intro H. apply bind_Ok in H as (i & E & H). change (PDict (map (fun kv : str * pyval => (PStr (fst kv), snd kv)) d)) with (asDict d) in E. rewrite E. f_equal.
  destruct validate; [|apply Ok_inj; exact H]. assert (NoDup (keys i)) as N by (apply (conv23_dict _ [] i) in E; [exact E|constructor]).
  apply validate_3 in H as (-> & _); [reflexivity|exact N].
Qed.
Lemma readInfo_1 T perm validate d info : readInfo T perm 1 validate (asDict d) = Ok info ->
  exists d2, convertData1To2 T (collect (perm fontInfoAttributesVersion1) (asDict d) []) [] = Ok d2 /\ convertData2To3 d2 [] = Ok info.
Proof.
  unfold readInfo. cbn [asDict is_dict negb andb]. rewrite andb_false_r. change (1 =? 1)%Z with true. cbn iota.
  intro H. apply bind_Ok in H as (i & E & H). apply bind_Ok in E as (d2 & E2 & E). exists d2. split; [exact E2|]. rewrite E. f_equal.
  destruct validate; [|apply Ok_inj; exact H]. assert (NoDup (keys i)) as N by (apply (conv23_dict _ [] i) in E; [exact E|constructor]).
  apply validate_3 in H as (-> & _); [reflexivity|exact N].
Qed.
Lemma bind_id {A} (r : res A) : bind r (fun x => Ok x) = r.
Proof. destruct r; reflexivity. Qed.
Lemma readInfo_2_plain T perm d : readInfo T perm 2 false (asDict d) = convertData2To3 (collect namesIn2 (asDict d) []) [].
Proof.
  rewrite <- (names2 T). generalize (bind_id (convertData2To3 (collect (fontInfoAttributesVersion2 T) (asDict d) []) [])). intro B. rewrite <- B.
  unfold readInfo. cbn [asDict is_dict negb andb]. change (2 =? 1)%Z with false. change (2 =? 2)%Z with true. cbn iota. reflexivity.
Qed.
Lemma readInfo_1_plain T perm d : readInfo T perm 1 false (asDict d) =
  bind (convertData1To2 T (collect (perm fontInfoAttributesVersion1) (asDict d) []) []) (fun d2 => convertData2To3 d2 []).
Proof.
  generalize (bind_id (bind (convertData1To2 T (collect (perm fontInfoAttributesVersion1) (asDict d) []) []) (fun d2 => convertData2To3 d2 []))). intro B. rewrite <- B.
  unfold readInfo. cbn [asDict is_dict negb andb]. change (1 =? 1)%Z with true. cbn iota. reflexivity.
Qed.

(** ** C99 *)
Theorem C99_from_version_2 : forall T perm validate d info,
  readInfo T perm 2 validate (asDict d) = Ok info ->
  forall a w, get a info = Some w <-> In a namesIn2 /\ exists v, get a d = Some v /\ v <> PNone /\ upgradedTo a v w.
Proof.
  intros T perm validate d info H a w. apply readInfo_2 in H. rewrite (conv23_get _ _ _ (collect_keys _ _ [] (NoDup_nil _)) H a w). split.
  - intros [(v & G & C)|(_ & C)]; [|discriminate]. apply collected in G as (I & G & Nv); [|exact names2_nodup]. split; [exact I|].
    exists v. apply convert23_iff in C as (_ & U); auto.
  - intros (I & v & G & Nv & U). left. exists v. split; [apply collected; [exact names2_nodup|auto]|]. apply convert23_iff; auto.
Qed.
Print Assumptions C99_from_version_2.

Theorem C99_from_version_2_refused : forall T perm d,
  (forall e, readInfo T perm 2 false (asDict d) = Err e -> exists a v, In a namesIn2 /\ get a d = Some v /\ v <> PNone /\ numberIn3 a /\ notAmount v e) /\
  (forall a v e, In a namesIn2 -> get a d = Some v -> v <> PNone -> numberIn3 a -> notAmount v e -> forall validate, exists e', readInfo T perm 2 validate (asDict d) = Err e').
Proof.
  intros T perm d. split.
  - intros e H. rewrite readInfo_2_plain in H. apply conv23_fails in H as (a & v & I & E). apply (collected_none namesIn2 d) in I as (I & G & Nv); [|exact names2_nodup].
    apply convert23_err in E as (K & A); [|exact I]. exists a, v. auto.
  - intros a v e I G Nv K A validate. destruct (readInfo T perm 2 validate (asDict d)) as [info|e'] eqn:H; [|eauto]. exfalso. apply readInfo_2 in H.
    assert (In (a, v) (collect namesIn2 (asDict d) [])) as Ic by (apply get_In; apply collected; [exact names2_nodup|auto]).
    destruct (conv23_total _ _ _ a v H Ic) as (w & C). rewrite (proj2 (convert23_err a v e I) (conj K A)) in C. discriminate.
Qed.
Print Assumptions C99_from_version_2_refused.

Theorem C99_from_version_1 : forall T perm validate d info,
  Permutation (perm fontInfoAttributesVersion1) fontInfoAttributesVersion1 ->
  readInfo T perm 1 validate (asDict d) = Ok info ->
  forall a w, get a info = Some w <-> exists a1 v1 v2, In (a1, a) namesIn1 /\ setIn1 d a1 v1 /\ means a1 v1 v2 /\ upgradedTo a v2 w.
Proof.
  intros T perm validate d info P H a w. pose proof (names1_nodup perm P) as NP. destruct (readInfo_1 _ _ _ _ _ H) as (d2 & E2 & E3).
  set (c := collect (perm fontInfoAttributesVersion1) (asDict d) []) in *. assert (Dc : NoDup (keys c)) by (apply collect_keys; constructor).
  assert (Cc : forall a v, In (a, v) c -> In a fontInfoAttributesVersion1 /\ get a d = Some v /\ v <> PNone).
  { intros k v I. apply (collected_none _ d) in I as (I & R); [|exact NP]. split; [exact (Permutation_in _ P I)|exact R]. }
  assert (Nc : forall a v, In (a, v) c -> is_none v = false) by (intros k v I; apply Cc in I as (_ & _ & Nv); destruct v; congruence || reflexivity).
  assert (Ic : incl (keys c) fontInfoAttributesVersion1) by (intros k I; unfold keys in I; apply in_map_iff in I as ([k' v] & <- & I); exact (proj1 (Cc _ _ I))).
  assert (G2 : forall a v2, get a d2 = Some v2 <-> exists a1 v1, In (a1, a) namesIn1 /\ setIn1 d a1 v1 /\ means a1 v1 v2).
  { intros b v2. rewrite (conv12_get T c [] d2 Dc Ic Nc E2 b v2). split.
    - intros [(a1 & v1 & I & Ct & -> & M)|(_ & C)]; [|discriminate]. destruct (Cc _ _ I) as (I1 & G & Nv). exists a1, v1.
      split; [apply names_table; auto|]. split; [split; [exact G|split; [exact Nv|exact Ct]]|exact M].
    - intros (a1 & v1 & I & (G & Nv & Ct) & M). apply names_table in I as (I & ->). left. exists a1, v1. split; [|split; [exact Ct|auto]].
      apply get_In. apply collected; [exact NP|]. split; [exact (Permutation_in _ (Permutation_sym P) I)|auto]. }
  assert (In2 : forall a1 a, In (a1, a) namesIn1 -> In a namesIn2).
  { intros a1 b I. apply names_table in I as (I & ->). rewrite <- (names2 T). apply to2_in2. exact I. }
  rewrite (conv23_get _ _ _ (conv12_dict _ _ [] _ (NoDup_nil _) E2) E3 a w). split.
  - intros [(v2 & G & C)|(_ & C)]; [|discriminate]. apply G2 in G as (a1 & v1 & I & S & M). exists a1, v1, v2.
    apply convert23_iff in C as (_ & U); [auto|exact (In2 _ _ I)].
  - intros (a1 & v1 & v2 & I & S & M & U). left. exists v2. split; [apply G2; eauto|]. apply convert23_iff; [exact (In2 _ _ I)|auto].
Qed.
Print Assumptions C99_from_version_1.

Theorem C99_from_version_1_refused : forall T perm d,
  Permutation (perm fontInfoAttributesVersion1) fontInfoAttributesVersion1 ->
  (forall e, readInfo T perm 1 false (asDict d) = Err e -> exists a1 a v1, In (a1, a) namesIn1 /\ setIn1 d a1 v1 /\
     (refused a1 v1 e \/ exists v2, means a1 v1 v2 /\ numberIn3 a /\ notAmount v2 e)) /\
  (forall a1 a v1 e, In (a1, a) namesIn1 -> setIn1 d a1 v1 -> refused a1 v1 e \/ (exists v2, means a1 v1 v2 /\ numberIn3 a /\ notAmount v2 e) ->
     forall validate, exists e', readInfo T perm 1 validate (asDict d) = Err e').
Proof.
  intros T perm d P. pose proof (names1_nodup perm P) as NP.
  set (c := collect (perm fontInfoAttributesVersion1) (asDict d) []). assert (Dc : NoDup (keys c)) by (apply collect_keys; constructor).
  assert (Cc : forall a v, In (a, v) c -> In a fontInfoAttributesVersion1 /\ get a d = Some v /\ v <> PNone).
  { intros k v I. apply (collected_none _ d) in I as (I & R); [|exact NP]. split; [exact (Permutation_in _ P I)|exact R]. }
  assert (Nc : forall a v, In (a, v) c -> is_none v = false) by (intros k v I; apply Cc in I as (_ & _ & Nv); destruct v; congruence || reflexivity).
  assert (Ic : incl (keys c) fontInfoAttributesVersion1) by (intros k I; unfold keys in I; apply in_map_iff in I as ([k' v] & <- & I); exact (proj1 (Cc _ _ I))).
  assert (In2 : forall a1 a, In (a1, a) namesIn1 -> In a namesIn2).
  { intros a1 b I. apply names_table in I as (I & ->). rewrite <- (names2 T). apply to2_in2. exact I. }
  assert (Set1 : forall a1 a v1, In (a1, a) namesIn1 -> setIn1 d a1 v1 -> In (a1, v1) c /\ counted (a1, v1) /\ is_none v1 = false /\ a = to2 a1).
  { intros a1 a v1 I (G & Nv & Ct). apply names_table in I as (I & ->). split; [|split; [exact Ct|split; [destruct v1; congruence || reflexivity|reflexivity]]].
    apply get_In. apply collected; [exact NP|]. split; [exact (Permutation_in _ (Permutation_sym P) I)|auto]. }
  split.
  - intros e H. rewrite readInfo_1_plain in H. change (collect (perm fontInfoAttributesVersion1) (asDict d) []) with c in H. clearbody c.
    destruct (convertData1To2 T c []) as [d2|e'] eqn:E2; cbn [bind] in H.
    + apply conv23_fails in H as (a & v2 & I & E3). apply (In_get _ _ _ (conv12_dict _ _ [] _ (NoDup_nil _) E2)) in I.
      apply (conv12_get T c [] d2 Dc Ic Nc E2) in I as [(a1 & v1 & I & Ct & -> & M)|(_ & C)]; [|discriminate].
      destruct (Cc _ _ I) as (I1 & G & Nv). assert (I' : In (a1, to2 a1) namesIn1) by (apply names_table; auto).
      exists a1, (to2 a1), v1. split; [exact I'|]. split; [split; [exact G|split; [exact Nv|exact Ct]]|]. right. exists v2. split; [exact M|].
      apply convert23_err in E3; [exact E3|exact (In2 _ _ I')].
    + injection H as <-. apply (conv12_fails T c Nc) in E2 as (a1 & v1 & I & Ct & E). destruct (Cc _ _ I) as (I1 & G & Nv).
      exists a1, (to2 a1), v1. split; [apply names_table; auto|]. split; [split; [exact G|split; [exact Nv|exact Ct]]|]. left. apply convert12_err; [exact (Nc _ _ I)|exact E].
  - intros a1 a v1 e I S R validate. destruct (readInfo T perm 1 validate (asDict d)) as [info|e'] eqn:H; [|eauto]. exfalso.
    destruct (readInfo_1 _ _ _ _ _ H) as (d2 & E2 & E3). fold c in E2. destruct (Set1 _ _ _ I S) as (J & Ct & Nv & ->).
    destruct (conv12_total T c Nc [] d2 a1 v1 E2 J Ct) as (v2 & M). destruct R as [R|(v2' & M' & K & A)].
    + unfold refused in R. destruct M as (x & Wx & M). destruct v1 as [|b|z|f| | | | | | |]; try (destruct R as (R & _); apply (R v2); exists x; split; [exact Wx|exact M]).
      destruct f as [s|s| |s m ex]; try (destruct R as (R & _); apply (R v2); exists x; split; [exact Wx|exact M]).
      * destruct Wx as [(z & (q & C & _) & _)|(C & _)]; [discriminate|exact (C eq_refl)].
      * destruct Wx as [(z & (q & C & _) & _)|(C & _)]; [discriminate|exact (C eq_refl)].
    + assert (G : get (to2 a1) d2 = Some v2') by (apply (conv12_get T c [] d2 Dc Ic Nc E2); left; exists a1, v1; auto).
      destruct (conv23_total _ _ _ _ _ E3 (get_In _ _ _ G)) as (w & C). rewrite (proj2 (convert23_err _ v2' e (In2 _ _ I)) (conj K A)) in C. discriminate.
Qed.
Print Assumptions C99_from_version_1_refused.

(** ** Writing to version 1 *)
Definition flip {A B} (p : A * B) : B * A := (snd p, fst p).
Lemma in_flip {A B} (l : list (A * B)) a b : In (b, a) (map flip l) <-> In (a, b) l.
Proof. rewrite in_map_iff. split; [intros ([x y] & Q & I); injection Q as <- <-; exact I|intro I; exists (a, b); auto]. Qed.
Lemma old_styles_table : fontStyle2To1 = map (fun p => (PStr (u (fst p)), PInt (snd p))) (map flip oldStyles).
Proof. reflexivity. Qed.
Lemma old_widths_table : widthName2To1 = map (fun p => (PInt (fst p), PStr (u (snd p)))) (map flip oldWidths).
Proof. reflexivity. Qed.
Lemma old_charSets_table : msCharSet2To1 = map (fun p => (PInt (fst p), PInt (snd p))) (map flip charSets).
Proof. reflexivity. Qed.
Lemma table_means1 a v w : is_none v = false ->
  (match table21 a with Some td => do x <- dictGet (snd td) v; Ok (optNone x) | None => Ok v end = Ok w ->
  meansIn1 a v w) /\ (meansIn1 a v w -> table21 a = None \/ hashable v = true ->
  match table21 a with Some td => do x <- dictGet (snd td) v; Ok (optNone x) | None => Ok v end = Ok w).
Proof.
  intro Nv. unfold table21, meansIn1.
  destruct (eqb_spec a (u "styleMapStyleName")) as [->|n1]; [|destruct (eqb_spec a (u "openTypeOS2WidthClass")) as [->|n2]; [|destruct (eqb_spec a (u "postscriptWindowsCharacterSet")) as [->|n3]]]; cbn [snd].
  - assert (L : forall w, lookup v fontStyle2To1 = Some w <-> exists n s, In (n, s) oldStyles /\ v = PStr (u s) /\ w = PInt n).
    { intro w'. rewrite old_styles_table, (lookup_strs (map flip oldStyles) (fun z => PInt z)) by (apply nodup_dec; reflexivity).
      split; intros (s & n & I & R); exists n, s; [apply in_flip in I|]; split; [exact I|exact R|apply in_flip; exact I|exact R]. }
    unfold dictGet. split.
    + destruct (hashable v); cbn [bind]; [|discriminate]. intro H. apply Ok_inj in H. rewrite <- H. clear H. split; [intros _|split; [discriminate|split; [discriminate|intro C; destruct (C eq_refl)]]].
      destruct (lookup v fontStyle2To1) as [x|]; [left; apply L; reflexivity|right]. split; [|reflexivity]. intros n s I E.
      assert (None = Some (PInt n)) by (apply L; eauto). discriminate.
    + intros (H & _) [C|Hv]; [discriminate|]. rewrite Hv. cbn [bind]. f_equal. destruct (H eq_refl) as [E|(Nf & ->)].
      * apply L in E. rewrite E. reflexivity.
      * destruct (lookup v fontStyle2To1) as [x|]; [|reflexivity]. destruct (proj1 (L x) eq_refl) as (n & s & I & E & _). destruct (Nf n s I E).
  - assert (L : forall w, lookup v widthName2To1 = Some w <-> exists s n, In (s, n) oldWidths /\ isWhole v n /\ w = PStr (u s)).
    { intro w'. rewrite old_widths_table, (lookup_ints (map flip oldWidths) (fun s => PStr (u s))) by (apply nodupZ; reflexivity).
      split; intros (s & n & I & R); exists n, s; [apply in_flip in I|]; split; [exact I|exact R|apply in_flip; exact I|exact R]. }
    unfold dictGet. split.
    + destruct (hashable v); cbn [bind]; [|discriminate]. intro H. apply Ok_inj in H. rewrite <- H. clear H. split; [discriminate|]. split; [intros _|split; [discriminate|intros _ C; destruct (C eq_refl)]].
      destruct (lookup v widthName2To1) as [x|]; [left; apply L; reflexivity|right]. split; [|reflexivity]. intros s n I E.
      assert (None = Some (PStr (u s))) by (apply L; eauto). discriminate.
    + intros (_ & H & _) [C|Hv]; [discriminate|]. rewrite Hv. cbn [bind]. f_equal. destruct (H eq_refl) as [E|(Nf & ->)].
      * apply L in E. rewrite E. reflexivity.
      * destruct (lookup v widthName2To1) as [x|]; [|reflexivity]. destruct (proj1 (L x) eq_refl) as (s & n & I & E & _). destruct (Nf s n I E).
  - assert (L : forall w, lookup v msCharSet2To1 = Some w <-> exists n m, In (n, m) charSets /\ isWhole v m /\ w = PInt n).
    { intro w'. rewrite old_charSets_table, (lookup_ints (map flip charSets) (fun s => PInt s)) by (apply nodupZ; reflexivity).
      split; intros (s & n & I & R); exists n, s; [apply in_flip in I|]; split; [exact I|exact R|apply in_flip; exact I|exact R]. }
    unfold dictGet. split.
    + destruct (hashable v); cbn [bind]; [|discriminate]. intro H. apply Ok_inj in H. rewrite <- H. clear H. split; [discriminate|]. split; [discriminate|]. split; [intros _|intros _ _ C; destruct (C eq_refl)].
      destruct (lookup v msCharSet2To1) as [x|]; [left; apply L; reflexivity|right]. split; [|reflexivity]. intros n m I E.
      assert (None = Some (PInt n)) by (apply L; eauto). discriminate.
    + intros (_ & _ & H & _) [C|Hv]; [discriminate|]. rewrite Hv. cbn [bind]. f_equal. destruct (H eq_refl) as [E|(Nf & ->)].
      * apply L in E. rewrite E. reflexivity.
      * destruct (lookup v msCharSet2To1) as [x|]; [|reflexivity]. destruct (proj1 (L x) eq_refl) as (n & m & I & E & _). destruct (Nf n m I E).
  - split; [intro H; injection H as ->; repeat split; intros; contradiction || reflexivity|]. intros (_ & _ & _ & H) _. rewrite (H n1 n2 n3). reflexivity.
Qed.
Lemma convert21_ok a v a1 w : is_none v = false -> convertValue2To1 a v = Ok (a1, w) -> a1 = to1 a /\ meansIn1 a v w /\ forall w', meansIn1 a v w' -> w' = w.
Proof.
  intros N H. assert (H' : a1 = to1 a /\ match table21 a with Some td => do x <- dictGet (snd td) v; Ok (optNone x) | None => Ok v end = Ok w /\ (table21 a = None \/ hashable v = true)).
  { rewrite convert21_alt, N in H. destruct (table21 a) as [td|]; [|injection H as <- <-; auto]. unfold dictGet in *. destruct (hashable v); [|discriminate].
    cbn [bind] in *. injection H as <- <-. auto. }
  destruct H' as (-> & E & Hs). split; [reflexivity|]. destruct (table_means1 a v w N) as (M & _). split; [exact (M E)|].
  intros w' M'. destruct (table_means1 a v w' N) as (_ & B). specialize (B M' Hs). congruence.
Qed.
Lemma names_back T a a1 : In a (fontInfoAttributesVersion2 T) -> (In (a1, a) namesIn1 <-> a1 = to1 a /\ In (to1 a) fontInfoAttributesVersion1).
Proof.
  intro I. rewrite names_table. split.
  - intros (J & ->). rewrite (back12 T a1 J I). auto.
  - intros (-> & J). split; [exact J|]. symmetry. exact (proj1 (back21 T a I J)).
Qed.
Lemma conv21_get T d : forall acc r, NoDup (keys d) -> incl (keys d) (fontInfoAttributesVersion2 T) -> (forall a v, In (a, v) d -> is_none v = false) ->
  convertData2To1 d acc = Ok r ->
  forall a1 w, get a1 r = Some w <-> (exists a v, In (a, v) d /\ In (a1, a) namesIn1 /\ meansIn1 a v w) \/
                                     (forall a, In a (keys d) -> ~ In (a1, a) namesIn1) /\ get a1 acc = Some w.
Proof.
  induction d as [|[k v] d IH]; intros acc r N I2 Nn H a1 w; cbn [convertData2To1] in H.
  - injection H as <-. split; [intro G; right; split; [intros a []|exact G]|]. intros [(a & v & [] & _)|(_ & G)]. exact G.
  - inversion N as [|? ? Nk N']; subst. assert (I2' : incl (keys d) (fontInfoAttributesVersion2 T)) by (intros x X; apply I2; right; exact X).
    assert (Nn' : forall a v, In (a, v) d -> is_none v = false) by (intros x y X; apply (Nn x y); right; exact X).
    apply bind_Ok in H as ([b x] & C & H). cbn [fst snd] in H. pose proof (Nn k v (or_introl eq_refl)) as Nv.
    apply convert21_ok in C as (-> & M & U); [|exact Nv]. assert (Ik : In k (fontInfoAttributesVersion2 T)) by (apply I2; left; reflexivity).
    pose proof (names_back T k a1 Ik) as NB. destruct (mem_spec (to1 k) fontInfoAttributesVersion1) as [J|J]; cbn [negb] in H.
    + rewrite Nv in H. rewrite (IH _ _ N' I2' Nn' H a1 w). destruct (eqb_spec a1 (to1 k)) as [->|n].
      * rewrite get_set_same. assert (Jn : In (to1 k, k) namesIn1) by (apply NB; auto).
        assert (Fr : forall a, In a (keys d) -> ~ In (to1 k, a) namesIn1).
        { intros a Ia C. apply names_table in C as (_ & E). apply names_table in Jn as (_ & E'). rewrite <- E' in E. subst a. contradiction. }
        split.
        -- intros [(a & y & I & Ja & _)|(_ & G)]; [destruct (Fr a); [unfold keys; apply in_map_iff; exists (a, y); auto|exact Ja]|].
           injection G as <-. left. exists k, v. split; [left; reflexivity|auto].
        -- intros [(a & y & [I|I] & Ja & M')|(D & _)].
           ++ injection I as <- <-. right. split; [exact Fr|]. rewrite (U w M'). reflexivity.
           ++ destruct (Fr a); [unfold keys; apply in_map_iff; exists (a, y); auto|exact Ja].
           ++ destruct (D k (or_introl eq_refl) Jn).
      * rewrite get_set_other by congruence. split.
        -- intros [(a & y & I & R)|(D & G)]; [left; exists a, y; split; [right; exact I|exact R]|right; split; [|exact G]].
           intros a [<-|I]; [intro C; apply NB in C as (C & _); contradiction|exact (D a I)].
        -- intros [(a & y & [I|I] & Ja & R)|(D & G)]; [injection I as <- <-; apply NB in Ja as (Ja & _); contradiction|left; exists a, y; auto|right; split; [|exact G]].
           intros a I. exact (D a (or_intror I)).
    + rewrite (IH _ _ N' I2' Nn' H a1 w). split.
      * intros [(a & y & I & R)|(D & G)]; [left; exists a, y; split; [right; exact I|exact R]|right; split; [|exact G]].
        intros a [<-|I]; [intro C; apply NB in C as (_ & C); contradiction|exact (D a I)].
      * intros [(a & y & [I|I] & Ja & R)|(D & G)]; [injection I as <- <-; apply NB in Ja as (_ & Ja); contradiction|left; exists a, y; auto|right; split; [|exact G]].
        intros a I. exact (D a (or_intror I)).
Qed.
Lemma writeInfo_1 T validate info d : writeInfo T 1 validate info = Ok d -> convertData2To1 (convertData3To2 T (gather T info)) [] = Ok d.
Proof.
  unfold writeInfo. change (1 =? 3)%Z with false. change (1 =? 2)%Z with false. change (1 =? 1)%Z with true. cbn iota. intro H.
  apply bind_Ok in H as (d2 & V & H). destruct validate; [|apply Ok_inj in V; rewrite V; exact H].
  apply validate_2 in V as (-> & _); [exact H|]. apply conv32_ok.
Qed.
Lemma written_1 T info c d : NoDup (keys c) -> (forall a v, get a c = Some v <-> In a (fontInfoAttributesVersion2 T) /\ setTo info a v) ->
  convertData2To1 c [] = Ok d ->
  forall a1 w, get a1 d = Some w <-> exists a v, In (a1, a) namesIn1 /\ setTo info a v /\ meansIn1 a v w.
Proof.
  intros Dc Gc H a1 w.
  assert (Cc : forall a v, In (a, v) c -> In a (fontInfoAttributesVersion2 T) /\ setTo info a v) by (intros a v I; apply Gc; apply In_get; assumption).
  assert (I2 : incl (keys c) (fontInfoAttributesVersion2 T)).
  { intros a I. unfold keys in I. apply in_map_iff in I as ([a' v] & <- & I). exact (proj1 (Cc _ _ I)). }
  assert (Nc : forall a v, In (a, v) c -> is_none v = false).
  { intros a v I. destruct (Cc a v I) as (_ & _ & Nv). destruct v; congruence || reflexivity. }
  rewrite (conv21_get T c [] d Dc I2 Nc H a1 w). split.
  - intros [(a & v & I & J & M)|(_ & C)]; [|discriminate]. exists a, v. split; [exact J|]. split; [exact (proj2 (Cc a v I))|exact M].
  - intros (a & v & J & S & M). left. exists a, v. split; [|auto]. apply get_In. apply Gc. split; [|exact S].
    apply names_table in J as (J & ->). apply to2_in2. exact J.
Qed.
Theorem C99_to_version_1 : forall T validate info d,
  writeInfo T 1 validate info = Ok d ->
  forall a1 w, get a1 d = Some w <-> exists a v, In (a1, a) namesIn1 /\ setTo info a v /\ meansIn1 a v w.
Proof.
  intros T validate info d H. apply writeInfo_1 in H. exact (written_1 T info _ d (conv32_ok T (gather T info)) (data2_get T info) H).
Qed.
Print Assumptions C99_to_version_1.

(** with validation, every value of version 2 is valid and has a counterpart *)
Lemma isin_ints v l : isin v (map (fun z => PInt z) l) = true <-> exists z, In z l /\ isWhole v z.
Proof.
  unfold isin. rewrite existsb_exists. split.
  - intros (x & I & E). apply in_map_iff in I as (z & <- & I). exists z. split; [exact I|]. rewrite eq_sym_num in E. apply eq_whole. exact E.
  - intros (z & I & W). exists (PInt z). split; [apply in_map; exact I|]. rewrite eq_sym_num. apply eq_whole. exact W.
Qed.
Lemma written_counterpart T a v w : valid2 T a v -> meansIn1 a v w -> v <> PNone -> w <> PNone.
Proof.
  intros V (M1 & M2 & M3 & M4) Nv.
  destruct (eqb_spec a (u "styleMapStyleName")) as [->|n1]; [|destruct (eqb_spec a (u "openTypeOS2WidthClass")) as [->|n2]; [|destruct (eqb_spec a (u "postscriptWindowsCharacterSet")) as [->|n3]]].
  - destruct (M1 eq_refl) as [(n & s & _ & _ & ->)|(Nf & _)]; [discriminate|exfalso]. unfold valid2 in V. rewrite v2_style in V. apply Ok_inj in V.
    unfold fontInfoStyleMapStyleNameValidator, isin in V. apply existsb_exists in V as (x & I & E). unfold strs in I. apply in_map_iff in I as (s & <- & I). apply eq_str in E.
    assert (exists n, In (n, s) oldStyles) as (n & J).
    { destruct I as [<-|[<-|[<-|[<-|[]]]]]; [exists 64%Z|exists 1%Z|exists 32%Z|exists 33%Z]; cbn; auto. }
    exact (Nf n s J E).
  - destruct (M2 eq_refl) as [(n & s & _ & _ & ->)|(Nf & _)]; [discriminate|exfalso]. unfold valid2 in V. rewrite v2_width in V. apply Ok_inj in V.
    unfold fontInfoOpenTypeOS2WidthClassValidator in V. destruct (is_int v) eqn:Iv; cbn [negb] in V; [|discriminate].
    assert (exists z, isWhole v z /\ num_lt v (PInt 1) = (z <? 1)%Z /\ num_gt v (PInt 9) = (9 <? z)%Z) as (z & W & E1 & E2).
    { destruct v; try discriminate.
      - exists (if b then 1 else 0)%Z. split; [eexists; split; reflexivity|]. destruct b; split; reflexivity.
      - exists z. split; [apply isWhole_int; reflexivity|]. unfold num_lt, num_gt, num_cmp. cbn [num ext_compare]. cbv zeta. change (2 ^ (0 - Z.min 0 0))%Z with 1%Z. rewrite !Z.mul_1_r.
        split; [destruct (Z.compare_spec z 1), (Z.ltb_spec z 1); try reflexivity; lia|destruct (Z.compare_spec z 9), (Z.ltb_spec 9 z); try reflexivity; lia]. }
    rewrite E1, E2 in V. destruct (Z.ltb_spec z 1); [discriminate|]. destruct (Z.ltb_spec 9 z); [discriminate|].
    assert (exists s, In (s, z) oldWidths) as (s & J).
    { assert (z = 1 \/ z = 2 \/ z = 3 \/ z = 4 \/ z = 5 \/ z = 6 \/ z = 7 \/ z = 8 \/ z = 9)%Z as C by lia.
      repeat destruct C as [->|C]; try subst z; eexists; cbn; eauto 12. }
    exact (Nf s z J W).
  - destruct (M3 eq_refl) as [(n & m & _ & _ & ->)|(Nf & _)]; [discriminate|exfalso]. unfold valid2 in V. rewrite v2_charset in V. apply Ok_inj in V.
    unfold fontInfoPostscriptWindowsCharacterSetValidator in V.
    change (map (fun n => PInt (Z.of_nat n)) (seq 1 20)) with (map (fun z => PInt z) (map snd charSets)) in V. apply isin_ints in V as (m & I & W).
    apply in_map_iff in I as ([n m'] & <- & I). exact (Nf n _ I W).
  - rewrite (M4 n1 n2 n3). exact Nv.
Qed.
Lemma in2_of a1 a : In (a1, a) namesIn1 -> In a namesIn2.
Proof. intro I. apply names_table in I as (I & ->). exact (to2_in2 asciiText a1 I). Qed.
Lemma writeInfo_1_eq T validate info : writeInfo T 1 validate info =
  (do data <- (if validate then validateInfoVersion2Data T (convertData3To2 T (gather T info)) else Ok (convertData3To2 T (gather T info))); convertData2To1 data []).
Proof. reflexivity. Qed.
Lemma writeInfo_1_valid T info d : writeInfo T 1 true info = Ok d -> forall a v, In a (fontInfoAttributesVersion2 T) -> setTo info a v -> valid2 T a v.
Proof.
  rewrite writeInfo_1_eq. cbn iota. intros H a v I S. apply bind_Ok in H as (d2 & V & _).
  pose proof (conv32_ok T (gather T info)) as N. pose proof (data2_get T info a v) as G. revert V N G. generalize (convertData3To2 T (gather T info)). intros c V N G.
  apply validate_2 in V as (-> & V); [|exact N]. rewrite Forall_forall in V. apply (V (a, v)). apply get_In. apply G. auto.
Qed.
Theorem C99_to_version_1_validated : forall T info d,
  writeInfo T 1 true info = Ok d ->
  (forall a v, In a namesIn2 -> setTo info a v -> valid2 T a v) /\ forall a1 w, get a1 d = Some w -> w <> PNone.
Proof.
  intros T info d H. split; [exact (writeInfo_1_valid T info d H)|]. intros a1 w G. apply (C99_to_version_1 T true info d H) in G as (a & v & I & S & M).
  exact (written_counterpart T a v w (writeInfo_1_valid T info d H a v (in2_of a1 a I) S) M (proj2 S)).
Qed.
Print Assumptions C99_to_version_1_validated.

(** ** Cases *)
(** a UFO 1 font: bold italic, of no weight, "Normal" width, and 2.0 *)
Example C99_case_1 :
  readInfo asciiText (fun l => l) 1 true (asDict [(u "fontStyle", PFloat (S754_finite false 33 0)); (u "widthName", PStr (u "Normal")); (u "weightValue", PInt (-1));
    (u "slantAngle", PFloat (S754_finite true 25 (-1))); (u "versionMinor", PFloat (S754_finite true 1 1)); (u "unknown", PInt 1); (u "menuName", PStr (u "A"))])
  = Ok [(u "styleMapFamilyName", PStr (u "A")); (u "styleMapStyleName", PStr (u "bold italic")); (u "versionMinor", PInt 2);
        (u "postscriptSlantAngle", PFloat (S754_finite true 25 (-1))); (u "openTypeOS2WidthClass", PInt 5)].
Proof. vm_compute. reflexivity. Qed.
(** 2.5 and 3.5 are rounded to even, -0.75 to 1, True is kept *)
Example C99_case_2 :
  readInfo asciiText (fun l => l) 2 true (asDict [(u "openTypeHheaAscender", PFloat (S754_finite false 5 (-1))); (u "openTypeHheaDescender", PFloat (S754_finite true 7 (-1)));
    (u "openTypeOS2WinAscent", PFloat (S754_finite true 3 (-2))); (u "openTypeHheaLineGap", PBool true); (u "unitsPerEm", PFloat (S754_finite false 1 10))])
  = Ok [(u "unitsPerEm", PFloat (S754_finite false 1 10)); (u "openTypeHheaAscender", PInt 2); (u "openTypeHheaDescender", PInt (-4)); (u "openTypeHheaLineGap", PBool true); (u "openTypeOS2WinAscent", PInt 1)].
Proof. vm_compute. reflexivity. Qed.
Example C99_case_refused :
  readInfo asciiText (fun l => l) 2 false (asDict [(u "openTypeHheaAscender", PStr (u "5"))]) = Err UFOLibError /\
  readInfo asciiText (fun l => l) 2 false (asDict [(u "openTypeHheaAscender", PFloat S754_nan)]) = Err UFOLibError /\
  readInfo asciiText (fun l => l) 2 false (asDict [(u "openTypeHheaAscender", PFloat (S754_infinity false))]) = Err OverflowError /\
  readInfo asciiText (fun l => l) 1 false (asDict [(u "fontStyle", PInt 2)]) = Err UFOLibError /\
  readInfo asciiText (fun l => l) 1 false (asDict [(u "year", PFloat S754_nan)]) = Err ValueError.
Proof. vm_compute. auto 10. Qed.
Example C99_case_written :
  writeInfo asciiText 1 true [(u "styleMapStyleName", PStr (u "bold")); (u "openTypeOS2WidthClass", PInt 5); (u "familyName", PStr (u "A")); (u "openTypeOS2WinAscent", PInt 3)]
  = Ok [(u "familyName", PStr (u "A")); (u "fontStyle", PInt 32); (u "widthName", PStr (u "Medium (normal)"))].
Proof. vm_compute. reflexivity. Qed.
(** an invalid value is refused, or with no validation dropped to None *)
Example C99_case_invalid :
  writeInfo asciiText 1 true [(u "openTypeOS2WidthClass", PInt 10)] = Err UFOLibError /\
  writeInfo asciiText 1 false [(u "openTypeOS2WidthClass", PInt 10)] = Ok [(u "widthName", PNone)].
Proof. vm_compute. auto. Qed.
(** the relations hold of the values of these cases *)
Example C99_case_spec : upgradedTo (u "openTypeHheaAscender") (PFloat (S754_finite false 5 (-1))) (PInt 2) /\ means (u "fontStyle") (PFloat (S754_finite false 33 0)) (PStr (u "bold italic")).
Proof.
  split.
  - apply (convert23_iff _ _ (u "openTypeHheaAscender")); [apply mem_In; vm_compute; reflexivity|vm_compute; reflexivity].
  - apply (convert12_iff _ _ (u "styleMapStyleName")); vm_compute; reflexivity.
Qed.
