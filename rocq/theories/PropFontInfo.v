(** Properties C33-C37: fontinfo.plist conversions and round trips. *)
From Coq Require Import String NArith ZArith Bool Lia List Permutation.
From Coq.Floats Require Import SpecFloat.
From Verif Require Import Base PyVal PyText Validators ValidatorsProofs FontInfoTables FontInfo FontInfoProofs.
Import ListNotations.
Local Open Scope string_scope.
Local Open Scope list_scope.

(** the attribute exists in version 1, under the name the converter gives it *)
Definition existsIn1 (a1 : str) : Prop := In a1 fontInfoAttributesVersion1.
Definition valid2 (T : pytext) (a : str) (v : pyval) : Prop := validateFontInfoVersion2ValueForAttribute T a v = Ok true.
Definition valid3 (T : pytext) (a : str) (v : pyval) : Prop := validateFontInfoVersion3ValueForAttribute T a v = Ok true.

(** ** C33: false for an infinite float *)
Theorem C33_name_round_trip_refuted : forall T, exists attr v a1 v1,
  valid2 T attr v /\ convertValue2To1 attr v = Ok (a1, v1) /\ existsIn1 a1 /\ convertValue1To2 a1 v1 = Err OverflowError.
Proof.
  intro T. exists (u "italicAngle"), (PFloat (S754_infinity false)), (u "italicAngle"), (PFloat (S754_infinity false)).
  split; [reflexivity|]. split; [vm_compute; reflexivity|]. split; [|reflexivity]. unfold existsIn1. apply mem_In. vm_compute. reflexivity.
Qed.
Print Assumptions C33_name_round_trip_refuted.
Lemma v2_style T v : validateFontInfoVersion2ValueForAttribute T (u "styleMapStyleName") v = Ok (fontInfoStyleMapStyleNameValidator v).
Proof. reflexivity. Qed.
Lemma v2_width T v : validateFontInfoVersion2ValueForAttribute T (u "openTypeOS2WidthClass") v = Ok (fontInfoOpenTypeOS2WidthClassValidator v).
Proof. reflexivity. Qed.
Lemma v2_charset T v : validateFontInfoVersion2ValueForAttribute T (u "postscriptWindowsCharacterSet") v = Ok (fontInfoPostscriptWindowsCharacterSetValidator v).
Proof. reflexivity. Qed.
(** partial: every value but infinities and NaN; a whole float may come back as
    the equal int *)
Theorem C33_name_round_trip_partial : forall T attr v,
  valid2 T attr v -> v <> PFloat S754_nan -> (forall s, v <> PFloat (S754_infinity s)) ->
  forall a1 v1, convertValue2To1 attr v = Ok (a1, v1) -> existsIn1 a1 ->
  exists w, convertValue1To2 a1 v1 = Ok (attr, w) /\ (w = v \/ num_eq w v = true).
Proof.
  intros T attr v V N1 N2 a1 v1 C E. unfold existsIn1 in E.
  assert (finite v) as F by (destruct v; cbn; auto; destruct f; auto; first [eapply N2; reflexivity|apply N1; reflexivity]).
  unfold valid2 in V. pose proof V as V0. unfold validateFontInfoVersion2ValueForAttribute, validateForAttribute in V.
  destruct (get attr (fontInfoAttributesVersion2ValueData T)) as [f|] eqn:G; [|discriminate].
  assert (In attr (fontInfoAttributesVersion2 T)) as I2.
  { unfold fontInfoAttributesVersion2, keys. apply in_map_iff. exists (attr, f). split; [reflexivity|]. apply get_In. exact G. }
  clear V G f.
  assert (a1 = to1 attr) as ->.
  { rewrite convert21_alt in C. destruct (table21 attr) as [td|]; [|inversion C; reflexivity]. destruct (is_none v); [inversion C; reflexivity|].
    destruct (dictGet (snd td) v); inversion C. reflexivity. }
  destruct (back21 T attr I2 E) as (B & _). pose proof (tables_agree_2 T attr I2 E) as TA.
  rewrite convert21_alt in C. rewrite convert12_alt, TA, B. destruct (table21 attr) as [[t d]|] eqn:E21.
  - assert (exists w, lookup v d = Some v1 /\ hashable v = true /\ is_none v = false /\ is_none v1 = false /\ hashable v1 = true /\
       floatToInt v1 = Ok v1 /\ lookup v1 t = Some w /\ (w = v \/ num_eq w v = true)) as (w & L & Hv & Nv & Nv1 & Hv1 & Fv1 & L2 & EQ).
    { unfold table21 in E21.
      destruct (eqb_spec attr (u "styleMapStyleName")) as [->|n1]; [|destruct (eqb_spec attr (u "openTypeOS2WidthClass")) as [->|n2]; [|destruct (eqb_spec attr (u "postscriptWindowsCharacterSet")) as [->|]; [|discriminate]]]; inversion E21; subst; clear E21.
      - clear I2 E TA B. rewrite v2_style in V0.
        injection V0 as V2. unfold fontInfoStyleMapStyleNameValidator, isin in V2. apply existsb_exists in V2 as (x & Hx & Q).
        cbn [strs map In] in Hx. destruct v; repeat (destruct Hx as [<-|Hx]; [try discriminate; cbn [py_eq] in Q; apply (proj1 (eqb_eq _ _)) in Q; subst s; vm_compute in C; inversion C; subst; eexists; repeat split; vm_compute; auto; fail|]); destruct Hx.
      - clear I2 E TA B. rewrite v2_width in V0.
        injection V0 as V2. unfold fontInfoOpenTypeOS2WidthClassValidator in V2. destruct (is_int v) eqn:Iv; [|discriminate]. cbn [negb] in V2.
        destruct v; try discriminate.
        + destruct b; vm_compute in C; inversion C; subst; eexists; repeat split; vm_compute; auto; discriminate.
        + assert (z = 1 \/ z = 2 \/ z = 3 \/ z = 4 \/ z = 5 \/ z = 6 \/ z = 7 \/ z = 8 \/ z = 9)%Z as Z.
          { unfold num_lt, num_gt, num_cmp in V2. cbn [num ext_compare] in V2. cbv zeta in V2. change (2 ^ (0 - Z.min 0 0))%Z with 1%Z in V2. rewrite !Z.mul_1_r in V2.
            destruct (Z.compare_spec z 1), (Z.compare_spec z 9); try discriminate; lia. }
          decompose [or] Z; subst z; vm_compute in C; inversion C; subst; eexists; repeat split; vm_compute; auto.
      - clear I2 E TA B. rewrite v2_charset in V0.
        injection V0 as V2. unfold fontInfoPostscriptWindowsCharacterSetValidator, isin in V2. apply existsb_exists in V2 as (x & Hx & Q).
        apply in_map_iff in Hx as (n & <- & Hn). apply in_seq in Hn.
        assert (exists z, (1 <= z <= 20)%Z /\ forall w, py_eq v (PInt w) = Z.eqb z w) as (z & Rz & Hz).
        { destruct v; try discriminate.
          - cbn [py_eq] in Q. exists (if b then 1 else 0)%Z.
            assert (forall w, py_eq (PBool b) (PInt w) = Z.eqb (if b then 1 else 0) w) as R by (intro w; rewrite <- num_eq_int; destruct b; reflexivity).
            split; [|exact R]. specialize (R (Z.of_nat n)). cbn [py_eq] in R. rewrite R in Q. apply Z.eqb_eq in Q. lia.
          - exists z. cbn [py_eq] in Q |- *. rewrite num_eq_int in Q. apply Z.eqb_eq in Q. split; [lia|]. intro w. apply num_eq_int.
          - cbn [py_eq] in Q |- *. exists (Z.of_nat n). split; [lia|]. intro w. apply float_as_int.
            unfold num_eq, num_cmp in Q |- *. cbn [num] in Q |- *. destruct (ext_of_float f); cbn [ext_compare] in Q |- *; try discriminate.
            cbv zeta in *. rewrite (Z.min_comm 0 e). destruct (Z.compare_spec (m * 2 ^ (e - Z.min e 0)) (Z.of_nat n * 2 ^ (0 - Z.min e 0))); try discriminate.
            rewrite H, Z.compare_refl. reflexivity. }
        assert (hashable v = true /\ is_none v = false) as (Hh & Nv) by (destruct v; try discriminate; auto).
        rewrite Nv in C. unfold dictGet in C. rewrite Hh in C. cbn [bind snd] in C.
        assert (exists w k, (k <> PNone /\ hashable k = true /\ floatToInt k = Ok k) /\ lookup v msCharSet2To1 = Some k /\ lookup k msCharSet1To2 = Some w /\ w = PInt z) as (w & k & (K1 & K2 & K3) & L & L2 & ->).
        { assert (z = 1 \/ z = 2 \/ z = 3 \/ z = 4 \/ z = 5 \/ z = 6 \/ z = 7 \/ z = 8 \/ z = 9 \/ z = 10 \/ z = 11 \/ z = 12 \/ z = 13 \/ z = 14 \/ z = 15 \/ z = 16 \/ z = 17 \/ z = 18 \/ z = 19 \/ z = 20)%Z as Z by lia.
          clear - Z Hz. unfold msCharSet2To1, flipPairs, msCharSet1To2. cbn [map fst snd lookup]. rewrite !Hz.
          decompose [or] Z; subst z; eexists _, _; (split; [|split; [cbn; reflexivity|split; [vm_compute; reflexivity|reflexivity]]]); repeat split; discriminate. }
        rewrite L in C. cbn [optNone] in C. inversion C; subst v1. exists (PInt z).
        assert (is_none k = false) by (destruct k; try reflexivity; congruence).
        repeat split; auto. right. specialize (Hz z). rewrite Z.eqb_refl in Hz.
        destruct v; try discriminate; cbn [py_eq] in Hz; unfold num_eq, num_cmp in *; cbn [num] in *.
        + destruct b; cbn [ext_compare] in *; cbv zeta in *; change (2 ^ (0 - Z.min 0 0))%Z with 1%Z in *; rewrite !Z.mul_1_r in *; rewrite Z.compare_antisym; destruct (_ ?= z)%Z; try discriminate; reflexivity.
        + cbn [ext_compare] in *; cbv zeta in *; change (2 ^ (0 - Z.min 0 0))%Z with 1%Z in *; rewrite !Z.mul_1_r in *; rewrite Z.compare_antisym; destruct (_ ?= z)%Z; try discriminate; reflexivity.
        + destruct (ext_of_float f); cbn [ext_compare] in *; try discriminate. cbv zeta in *. rewrite (Z.min_comm 0 e), Z.compare_antisym. destruct (m * 2 ^ (e - Z.min e 0) ?= z * 2 ^ (0 - Z.min e 0))%Z; try discriminate. reflexivity. }
    rewrite Fv1. cbn [bind fst]. rewrite Nv1. unfold convertVia, dictGet. rewrite Hv1. cbn [bind]. rewrite L2. exists w. split; [reflexivity|exact EQ].
  - inversion C; subst. destruct (floatToInt_ok v1 F) as (w & -> & [->|(z & -> & Q & _)]); cbn [bind]; eexists; (split; [reflexivity|]); auto.
Qed.
Print Assumptions C33_name_round_trip_partial.
Example C33_case :
  convertValue2To1 (u "openTypeOS2WidthClass") (PInt 3) = Ok (u "widthName", PStr (u "Condensed")) /\
  convertValue1To2 (u "widthName") (PStr (u "Condensed")) = Ok (u "openTypeOS2WidthClass", PInt 3).
Proof. vm_compute. split; reflexivity. Qed.

(** ** C34 *)
Theorem C34_idempotent : forall T d1 d2,
  NoDup (keys d1) -> (forall a, In a (keys d1) -> existsIn1 a) ->
  convertData1To2 T d1 [] = Ok d2 ->
  exists d1', convertData2To1 d2 [] = Ok d1' /\ convertData1To2 T d1' [] = Ok d2.
Proof.
  intros T d1 d2 ND I H. apply conv12_spec in H as (e & -> & F & N & _); [|exact ND|exact I|intros k _ _ []].
  destruct (conv21_stable T e F N) as (d & A & B). exists d. split; [rewrite A; [reflexivity|intros k _ []]|apply B; intros k _ []].
Qed.
Print Assumptions C34_idempotent.
Example C34_case :
  let d1 := [(u "fontStyle", PInt 0); (u "widthName", PStr (u "Normal")); (u "weightValue", PInt (-1)); (u "note", PStr (u "x"))] in
  convertData1To2 asciiText d1 [] = Ok [(u "styleMapStyleName", PStr (u "regular")); (u "openTypeOS2WidthClass", PInt 5); (u "note", PStr (u "x"))].
Proof. vm_compute. reflexivity. Qed.

(** ** C35 *)
(** attributes whose version 3 type is integer *)
Definition integerIn3 : list str := map u
  ["openTypeHheaAscender"; "openTypeHheaDescender"; "openTypeHheaLineGap"; "openTypeHheaCaretOffset";
   "openTypeOS2TypoAscender"; "openTypeOS2TypoDescender"; "openTypeOS2TypoLineGap";
   "openTypeOS2SubscriptXSize"; "openTypeOS2SubscriptYSize"; "openTypeOS2SubscriptXOffset"; "openTypeOS2SubscriptYOffset";
   "openTypeOS2SuperscriptXSize"; "openTypeOS2SuperscriptYSize"; "openTypeOS2SuperscriptXOffset"; "openTypeOS2SuperscriptYOffset";
   "openTypeOS2StrikeoutSize"; "openTypeOS2StrikeoutPosition";
   "openTypeVheaVertTypoAscender"; "openTypeVheaVertTypoDescender"; "openTypeVheaVertTypoLineGap"; "openTypeVheaCaretOffset"].
Definition nonNegativeIn3 : list str := map u ["openTypeHeadLowestRecPPEM"; "openTypeOS2WinAscent"; "openTypeOS2WinDescent"].
Definition wholeFloat (v : pyval) : Prop := exists f z, v = PFloat f /\ num_eq (PInt z) v = true.
Definition finiteValue (v : pyval) : Prop := v <> PFloat S754_nan /\ forall s, v <> PFloat (S754_infinity s).
Definition negativeNumber (v : pyval) : Prop := num_lt v (PInt 0) = true.
(** false: negative unitsPerEm, whole floats, negative panose *)
Theorem C35_upgrade_refuted : forall T perm,
  (valid2 T (u "unitsPerEm") (PInt (-1000)) /\
   readInfo T perm 2 true (asDict [(u "unitsPerEm", PInt (-1000))]) = Err UFOLibError) /\
  (valid2 T (u "openTypeHheaAscender") (PFloat (S754_finite false 750 0)) /\
   readInfo T perm 2 true (asDict [(u "openTypeHheaAscender", PFloat (S754_finite false 750 0))]) = Err UFOLibError) /\
  (valid2 T (u "openTypeOS2Panose") (PList (map PInt [-1; 0; 0; 0; 0; 0; 0; 0; 0; 0]%Z)) /\
   readInfo T perm 2 true (asDict [(u "openTypeOS2Panose", PList (map PInt [-1; 0; 0; 0; 0; 0; 0; 0; 0; 0]%Z))]) = Err UFOLibError).
Proof. intros T perm. repeat split; vm_compute; reflexivity. Qed.
Print Assumptions C35_upgrade_refuted.
(** the values for which it holds *)
Definition upgradable (a : str) (v : pyval) : Prop :=
  (In a integerIn3 -> finiteValue v /\ ~ wholeFloat v) /\
  (In a nonNegativeIn3 -> finiteValue v) /\
  (a = u "unitsPerEm" -> ~ negativeNumber v) /\
  (a = u "openTypeOS2Panose" -> forall x, In x (elems v) -> ~ negativeNumber x).

Lemma finiteValue_finite v : finiteValue v -> finite v.
Proof. intros (A & B). destruct v; cbn; auto. destruct f; auto; first [eapply B; reflexivity|apply A; reflexivity]. Qed.
Lemma num_lt_int z : num_lt (PInt z) (PInt 0) = (z <? 0)%Z.
Proof.
  unfold num_lt, num_cmp. cbn [num ext_compare]. cbv zeta. change (2 ^ (0 - Z.min 0 0))%Z with 1%Z. rewrite !Z.mul_1_r.
  destruct (Z.compare_spec z 0), (Z.ltb_spec z 0); try reflexivity; lia.
Qed.
Lemma num_lt_whole z v : num_eq (PInt z) v = true -> (0 <= z)%Z -> num_lt v (PInt 0) = false.
Proof.
  unfold num_eq, num_lt, num_cmp. destruct (num v) as [e|] eqn:E; [|cbn; discriminate]. cbn [num]. destruct e as [m e| | |]; cbn [ext_compare]; try discriminate.
  cbv zeta. rewrite (Z.min_comm 0 e). set (a := (2 ^ (0 - Z.min e 0))%Z). set (b := (2 ^ (e - Z.min e 0))%Z). intros H Hz.
  assert (0 < a)%Z by (apply Z.pow_pos_nonneg; lia).
  destruct (Z.compare_spec (z * a) (m * b)); try discriminate. rewrite <- H1. rewrite Z.mul_0_l. destruct (Z.compare_spec (z * a) 0); try reflexivity. nia.
Qed.
Lemma int_round_ok v : is_number v = true -> finite v -> exists z, int_round v = Ok z.
Proof. destruct v; try discriminate; cbn; intros _ F; eauto. destruct f; try contradiction; cbn; eauto. Qed.
Lemma int_abs_ok v : is_number v = true -> finite v -> exists z, int_abs v = Ok z /\ (0 <= z)%Z.
Proof.
  destruct v; try discriminate; cbn; intros _ F.
  - destruct b; (eexists; split; [reflexivity|lia]).
  - eexists; split; [reflexivity|lia].
  - destruct f; try contradiction; cbn; [exists 0%Z; split; [reflexivity|lia]|].
    eexists. split; [reflexivity|]. destruct (e <? 0)%Z eqn:L; [apply Z.div_pos; [lia|apply Z.ltb_lt in L; apply Z.pow_pos_nonneg; lia]|].
    assert (0 <= 2 ^ e)%Z by (apply Z.pow_nonneg; lia). destruct (2 ^ e)%Z; lia.
Qed.
(** rounding *)
Lemma rounded_ok v : is_number v = true -> finite v ->
  exists w, (do z <- orUFOLibError (int_round v); Ok (if py_eq (PInt z) v then v else PInt z)) = Ok w /\
    is_number w = true /\ finite w /\ (~ wholeFloat v -> is_int w = true).
Proof.
  intros Nv F. destruct (int_round_ok v Nv F) as (z & ->). cbn [orUFOLibError bind]. destruct (py_eq (PInt z) v) eqn:E; eexists; (split; [reflexivity|]).
  - split; [exact Nv|]. split; [exact F|]. intro W. destruct v; try discriminate; try reflexivity. exfalso. apply W. exists f, z. auto.
  - repeat split.
Qed.
Lemma abs_ok v : is_number v = true -> finite v ->
  exists w, (do z <- orUFOLibError (int_abs v); Ok (if py_eq (PInt z) v then v else PInt z)) = Ok w /\
    is_number w = true /\ num_lt w (PInt 0) = false /\ (is_int v = true -> is_int w = true).
Proof.
  intros Nv F. destruct (int_abs_ok v Nv F) as (z & -> & Hz). cbn [orUFOLibError bind]. destruct (py_eq (PInt z) v) eqn:E; eexists; (split; [reflexivity|]).
  - split; [exact Nv|]. split; [exact (num_lt_whole z v E Hz)|auto].
  - split; [reflexivity|]. split; [rewrite num_lt_int; apply Z.ltb_ge; exact Hz|reflexivity].
Qed.
(** one attribute *)
Definition upgrades (T : pytext) (a : str) (f : pyval -> res bool) : Prop :=
  forall v, f v = Ok true -> upgradable a v ->
  exists w, convertValue2To3 a v = Ok (a, w) /\ validateFontInfoVersion3ValueForAttribute T a w = Ok true /\
    (~ In a integerIn3 -> ~ In a nonNegativeIn3 -> a <> u "versionMinor" -> w = v).
Lemma up_same T a f : mem a ufo2To3FloatToInt = false -> mem a ufo2To3NonNegativeInt = false -> mem a ufo2To3NonNegativeIntOrFloat = false ->
  (forall v, f v = Ok true -> upgradable a v -> validateFontInfoVersion3ValueForAttribute T a v = Ok true) -> upgrades T a f.
Proof. intros A B C D v V U. exists v. unfold convertValue2To3. rewrite A, B, C. cbn [bind]. split; [reflexivity|]. split; [apply D; assumption|reflexivity]. Qed.
Lemma up_round T a : mem a ufo2To3FloatToInt = true -> mem a ufo2To3NonNegativeInt = false -> mem a ufo2To3NonNegativeIntOrFloat = false ->
  mem a integerIn3 = true ->
  (forall v, validateFontInfoVersion3ValueForAttribute T a v = Ok (genericTypeValidator v TInt)) -> upgrades T a (fun v => Ok (genericTypeValidator v TNumber)).
Proof.
  intros A B C I D v V (U & _). apply mem_In in I. destruct (U I) as (F & W). injection V as Nv. cbn in Nv.
  destruct (rounded_ok v Nv (finiteValue_finite v F)) as (w & E & _ & _ & Iw). exists w. unfold convertValue2To3. rewrite A, B, C.
  rewrite E. cbn [bind]. split; [reflexivity|]. split; [|intro n; contradiction]. rewrite D. unfold genericTypeValidator. cbn [isinstance]. rewrite Iw by exact W. reflexivity.
Qed.
Lemma up_pixels T a : mem a ufo2To3FloatToInt = true -> mem a ufo2To3NonNegativeInt = true ->
  mem a nonNegativeIn3 = true ->
  (forall v, validateFontInfoVersion3ValueForAttribute T a v = Ok (genericNonNegativeNumberValidator v)) -> upgrades T a (fun v => Ok (genericTypeValidator v TNumber)).
Proof.
  intros A B I D v V (_ & U & _). apply mem_In in I. specialize (U I). injection V as Nv. cbn in Nv.
  destruct (rounded_ok v Nv (finiteValue_finite v U)) as (w & E & Nw & Fw & _).
  destruct (abs_ok w Nw Fw) as (x & Ex & Nx & Lx & _). exists x. unfold convertValue2To3. rewrite A, B. rewrite E. cbn [bind]. rewrite Ex. cbn [bind].
  split; [reflexivity|]. split; [|intros _ n; contradiction]. rewrite D. unfold genericNonNegativeNumberValidator. rewrite Nx, Lx. reflexivity.
Qed.
Lemma up_minor T : upgrades T (u "versionMinor") (fun v => Ok (genericTypeValidator v TInt)).
Proof.
  intros v V _. injection V as Iv. cbn in Iv. destruct (abs_ok v) as (x & Ex & Nx & Lx & Ix); [unfold is_number; rewrite Iv; reflexivity|destruct v; cbn; auto; discriminate|].
  exists x. unfold convertValue2To3. change (mem (u "versionMinor") ufo2To3FloatToInt) with false. change (mem (u "versionMinor") ufo2To3NonNegativeInt) with true. cbn [bind].
  rewrite Ex. cbn [bind]. split; [reflexivity|]. split; [|intros _ _ n; congruence].
  assert (validateFontInfoVersion3ValueForAttribute T (u "versionMinor") x = Ok (genericNonNegativeIntValidator x)) as -> by reflexivity.
  unfold genericNonNegativeIntValidator. rewrite (Ix Iv), Lx. reflexivity.
Qed.
Lemma all_upgrade T : Forall (fun e => upgrades T (fst e) (snd e)) (fontInfoAttributesVersion2ValueData T).
Proof.
  unfold fontInfoAttributesVersion2ValueData.
  repeat (apply Forall_cons; [cbn [fst snd]; first
    [ apply up_same; [reflexivity|reflexivity|reflexivity|intros v V _; exact V]
    | apply up_round; [reflexivity|reflexivity|reflexivity|reflexivity|intro v; reflexivity]
    | apply up_pixels; [reflexivity|reflexivity|reflexivity|intro v; reflexivity]
    | apply up_minor
    | apply up_same; [reflexivity|reflexivity|reflexivity|] ] |]); [| |constructor].
  - intros v V (_ & _ & U & _). specialize (U eq_refl). injection V as Nv. cbn in Nv.
    assert (validateFontInfoVersion3ValueForAttribute T (u "unitsPerEm") v = Ok (genericNonNegativeNumberValidator v)) as -> by reflexivity.
    unfold genericNonNegativeNumberValidator. rewrite Nv. unfold negativeNumber in U. destruct (num_lt v (PInt 0)); [exfalso; apply U; reflexivity|reflexivity].
  - intros v V (_ & _ & _ & U). specialize (U eq_refl). injection V as Nv.
    assert (validateFontInfoVersion3ValueForAttribute T (u "openTypeOS2Panose") v = Ok (fontInfoVersion3OpenTypeOS2PanoseValidator v)) as -> by reflexivity.
    unfold fontInfoVersion2OpenTypeOS2PanoseValidator in Nv. unfold fontInfoVersion3OpenTypeOS2PanoseValidator.
    destruct (is_seq v); [|discriminate]. cbn [negb] in *. destruct (Nat.eqb (length (elems v)) 10); [|discriminate]. cbn [negb] in *.
    apply f_equal. apply forallb_forall. intros x Hx. rewrite forallb_forall in Nv. rewrite (Nv x Hx). cbn [negb].
    specialize (U x Hx). unfold negativeNumber in U. destruct (num_lt x (PInt 0)); [exfalso; apply U; reflexivity|reflexivity].
Qed.
Lemma vget_asDict a d : vget a (asDict d) = match get a d with Some v => v | None => PNone end.
Proof.
  unfold vget, asDict. cbn [items]. induction d as [|[k v] d IH]; [reflexivity|]. cbn [map fst snd dget get].
  destruct (eqb a k); [reflexivity|]. exact IH.
Qed.
Lemma conv23_spec d : forall acc, NoDup (keys d) -> (forall k, In k (keys d) -> ~ In k (keys acc)) ->
  (forall a v, In (a, v) d -> exists w, convertValue2To3 a v = Ok (a, w)) ->
  exists e, convertData2To3 d acc = Ok (acc ++ e) /\ keys e = keys d /\ forall a w, In (a, w) e -> exists v, In (a, v) d /\ convertValue2To3 a v = Ok (a, w).
Proof.
  induction d as [|[a v] d IH]; intros acc ND D H.
  - exists []. rewrite app_nil_r. repeat split. intros a w [].
  - destruct (H a v ltac:(left; reflexivity)) as (w & Ew). cbn [convertData2To3]. rewrite Ew. cbn [bind fst snd]. inversion ND; subst.
    rewrite set_fresh by (apply D; left; reflexivity).
    destruct (IH (acc ++ [(a, w)])) as (e & E & K & C); [assumption| |intros a' v' Hin; apply H; right; exact Hin|].
    + intros k Hk. unfold keys. rewrite map_app, in_app_iff. intros [J|[J|[]]]; [revert J; apply D; right; exact Hk|]. cbn in J. subst k. contradiction.
    + exists ((a, w) :: e). rewrite E, <- app_assoc. split; [reflexivity|]. split; [cbn; f_equal; exact K|].
      intros a' w' [Q|Q]; [inversion Q; subst; exists v; split; [left; reflexivity|exact Ew]|].
      destruct (C a' w' Q) as (v' & Hin & E'). exists v'. split; [right; exact Hin|exact E'].
Qed.
Theorem C35_upgrade_partial : forall T perm d2,
  NoDup (keys d2) -> (forall a v, In (a, v) d2 -> valid2 T a v /\ upgradable a v) ->
  exists d3, readInfo T perm 2 true (asDict d2) = Ok d3 /\
    (forall a v, In (a, v) d2 -> v <> PNone -> ~ In a integerIn3 -> ~ In a nonNegativeIn3 -> a <> u "versionMinor" -> get a d3 = Some v) /\
    (forall a w, get a d3 = Some w -> In a (keys d2)).
Proof.
  intros T perm d2 ND H. unfold readInfo. cbn [asDict is_dict negb andb].
  change (2 =? 1)%Z with false. change (2 =? 2)%Z with true. cbn iota.
  set (c := collect (fontInfoAttributesVersion2 T) (asDict d2) []).
  assert (NA : NoDup (fontInfoAttributesVersion2 T)) by (apply nodup_dec; vm_compute; reflexivity).
  assert (Gc : forall a, get a c = if mem a (fontInfoAttributesVersion2 T) then (if is_none (vget a (asDict d2)) then None else Some (vget a (asDict d2))) else None).
  { intro a. apply collect_get; [intros []|exact NA|intros k _ []]. }
  assert (Dc : NoDup (keys c)) by (apply collect_keys; constructor). clearbody c.
  assert (Ec : forall a v, In (a, v) c -> In (a, v) d2 /\ v <> PNone).
  { intros a v Hin. pose proof (In_get a v c Dc Hin) as G. rewrite Gc in G. destruct (mem a _); [|discriminate].
    rewrite vget_asDict in G. destruct (get a d2) as [x|] eqn:G2; [|discriminate]. destruct (is_none x) eqn:Nx; [discriminate|]. inversion G; subst.
    split; [apply get_In; exact G2|]. intros ->. discriminate Nx. }
  assert (UP : forall a v, In (a, v) d2 -> exists w, convertValue2To3 a v = Ok (a, w) /\ validateFontInfoVersion3ValueForAttribute T a w = Ok true /\
    (~ In a integerIn3 -> ~ In a nonNegativeIn3 -> a <> u "versionMinor" -> w = v)).
  { intros a v Hin. destruct (H a v Hin) as (V & U). unfold valid2, validateFontInfoVersion2ValueForAttribute, validateForAttribute in V.
    destruct (get a (fontInfoAttributesVersion2ValueData T)) as [f|] eqn:G; [|discriminate].
    apply get_In in G. exact (proj1 (Forall_forall _ _) (all_upgrade T) _ G v V U). }
  destruct (conv23_spec c []) as (e & E & K & C); [exact Dc|intros k _ []|intros a v Hin; destruct (UP a v (proj1 (Ec a v Hin))) as (w & Ew & _); eauto|].
  rewrite E. cbn [app bind]. cbn iota. exists e.
  assert (De : NoDup (keys e)) by (rewrite K; exact Dc).
  split; [|split].
  - unfold validateInfoVersion3Data. rewrite validateData_ok; [reflexivity|exact De|intros k _ []|].
    apply Forall_forall. intros [a w] Hin. cbn [fst snd]. destruct (C a w Hin) as (v & Hv & Ew). destruct (UP a v (proj1 (Ec a v Hv))) as (w' & Ew' & V & _).
    rewrite Ew in Ew'. inversion Ew'; subst. exact V.
  - intros a v Hin Nv n1 n2 n3.
    assert (In (a, v) c) as Hc.
    { apply get_In. rewrite Gc. rewrite vget_asDict, (In_get a v d2 ND Hin).
      destruct (H a v Hin) as (V & _). unfold valid2, validateFontInfoVersion2ValueForAttribute, validateForAttribute in V.
      destruct (get a (fontInfoAttributesVersion2ValueData T)) as [f|] eqn:G; [|discriminate].
      rewrite (proj2 (mem_In a (fontInfoAttributesVersion2 T))); [destruct v; try contradiction; reflexivity|].
      unfold fontInfoAttributesVersion2, keys. apply in_map_iff. exists (a, f). split; [reflexivity|apply get_In; exact G]. }
    assert (In a (keys e)) as Ka by (rewrite K; unfold keys; apply in_map_iff; exists (a, v); auto).
    unfold keys in Ka. apply in_map_iff in Ka as ([a' w] & Q & Hw). cbn in Q. subst a'.
    destruct (C a w Hw) as (v' & Hv' & Ew).
    assert (v' = v) as -> by (pose proof (In_get a v' c Dc Hv') as X; rewrite (In_get a v c Dc Hc) in X; congruence).
    destruct (UP a v Hin) as (w' & Ew' & _ & S). rewrite Ew in Ew'. inversion Ew'; subst. rewrite <- (S n1 n2 n3). apply In_get; assumption.
  - intros a w G. apply get_In in G. destruct (C a w G) as (v & Hv & _). apply Ec in Hv as (Hv & _). unfold keys. apply in_map_iff. exists (a, v). auto.
Qed.
Print Assumptions C35_upgrade_partial.
Example C35_case :
  readInfo asciiText (fun l => l) 2 true (asDict [(u "openTypeHheaAscender", PFloat (S754_finite false 1501 (-1))); (u "versionMinor", PInt (-3)); (u "openTypeOS2WinAscent", PFloat (S754_finite true 5 (-1)))])
  = Ok [(u "versionMinor", PInt 3); (u "openTypeHheaAscender", PInt 750); (u "openTypeOS2WinAscent", PInt 2)].
Proof. vm_compute. reflexivity. Qed.

(** ** C36 *)
(** the attributes of the info object that are set *)
Definition setTo (info : infoT) (a : str) (v : pyval) : Prop := get a info = Some v /\ v <> PNone.
Lemma gather_get_acc (info : infoT) attrs : forall acc a,
  get a (fold_left (fun acc attr => match get attr info with None => acc | Some v => if is_none v then acc else set attr v acc end) attrs acc)
  = match (if mem a attrs then match get a info with Some v => if is_none v then None else Some v | None => None end else None) with
    | Some v => Some v | None => get a acc end.
Proof.
  induction attrs as [|x r IH]; intros acc a; [reflexivity|]. cbn [fold_left]. rewrite IH. change (mem a (x :: r)) with (eqb a x || mem a r).
  destruct (eqb_spec a x) as [->|n]; cbn [orb].
  - destruct (get x info) as [v|] eqn:G; [|destruct (mem x r); reflexivity].
    destruct (is_none v) eqn:N; [destruct (mem x r); reflexivity|]. destruct (mem x r); [reflexivity|]. apply get_set_same.
  - destruct (mem a r).
    + destruct (get a info) as [v|]; [destruct (is_none v)|]; try reflexivity; destruct (get x info) as [y|]; try reflexivity; destruct (is_none y); try reflexivity; apply get_set_other; congruence.
    + destruct (get x info) as [y|]; try reflexivity; destruct (is_none y); try reflexivity; apply get_set_other; congruence.
Qed.
Lemma gather_get T info a v : get a (gather T info) = Some v <-> In a (fontInfoAttributesVersion3 T) /\ setTo info a v.
Proof.
  unfold gather. rewrite gather_get_acc. cbn [get]. unfold setTo. destruct (mem_spec a (fontInfoAttributesVersion3 T)) as [I|I].
  - destruct (get a info) as [w|]; [|split; [discriminate|intros (_ & Q & _); discriminate]].
    destruct (is_none w) eqn:N.
    + split; [discriminate|]. intros (_ & Q & n). inversion Q; subst. destruct v; try discriminate. contradiction.
    + split; [intro Q; inversion Q; subst; repeat split; auto; intros ->; discriminate|]. intros (_ & Q & _). exact Q.
  - split; [discriminate|]. intros (Q & _). contradiction.
Qed.
Lemma gather_ok T info : dict_ok (gather T info).
Proof.
  unfold gather. assert (dict_ok (@nil (str * pyval))) as D by constructor. revert D. generalize (@nil (str * pyval)) as acc.
  induction (fontInfoAttributesVersion3 T) as [|x r IH]; intros acc D; [exact D|]. cbn [fold_left]. apply IH.
  destruct (get x info) as [v|]; [|exact D]. destruct (is_none v); [exact D|]. apply dict_ok_set. exact D.
Qed.
Lemma conv32_get_acc T d : forall acc a, dict_ok d ->
  get a (fold_left (fun acc kv => let nv := convertValue3To2 (fst kv) (snd kv) in
    if negb (mem (fst nv) (fontInfoAttributesVersion2 T)) then acc else set (fst nv) (snd nv) acc) d acc)
  = match (if mem a (fontInfoAttributesVersion2 T) then get a d else None) with Some v => Some v | None => get a acc end.
Proof.
  induction d as [|[k v] d IH]; intros acc a D; [cbn; destruct (mem a _); reflexivity|]. cbn [fold_left convertValue3To2 fst snd].
  unfold dict_ok in D. cbn in D. inversion D; subst. rewrite IH by exact H2. cbn [get].
  destruct (eqb_spec a k) as [->|n].
  - assert (get k d = None) as -> by (apply get_None; exact H1). destruct (mem k (fontInfoAttributesVersion2 T)); cbn [negb]; [apply get_set_same|reflexivity].
  - destruct (mem a (fontInfoAttributesVersion2 T)); [destruct (get a d); [reflexivity|]|];
      (destruct (mem k (fontInfoAttributesVersion2 T)); cbn [negb]; [apply get_set_other; congruence|reflexivity]).
Qed.
Lemma conv32_ok T d : dict_ok (convertData3To2 T d).
Proof.
  unfold convertData3To2. assert (dict_ok (@nil (str * pyval))) as D by constructor. revert D. generalize (@nil (str * pyval)) as acc.
  induction d as [|[k v] d IH]; intros acc D; [exact D|]. cbn [fold_left convertValue3To2 fst snd]. apply IH. destruct (negb _); [exact D|apply dict_ok_set; exact D].
Qed.
Lemma v2_in_v3 T a : In a (fontInfoAttributesVersion2 T) -> In a (fontInfoAttributesVersion3 T).
Proof.
  assert (forallb (fun a => mem a (fontInfoAttributesVersion3 T)) (fontInfoAttributesVersion2 T) = true) as F by (vm_compute; reflexivity).
  intro I. rewrite forallb_forall in F. apply mem_In. apply F. exact I.
Qed.
Lemma data2_get T info a v : get a (convertData3To2 T (gather T info)) = Some v <-> In a (fontInfoAttributesVersion2 T) /\ setTo info a v.
Proof.
  unfold convertData3To2. rewrite conv32_get_acc by apply gather_ok. cbn [get]. destruct (mem_spec a (fontInfoAttributesVersion2 T)) as [I|I].
  - split.
    + destruct (get a (gather T info)) as [w|] eqn:G; [|discriminate]. intro Q. inversion Q; subst. apply gather_get in G as (_ & G). auto.
    + intros (_ & S). assert (get a (gather T info) = Some v) as -> by (apply gather_get; split; [apply v2_in_v3; exact I|exact S]). reflexivity.
  - split; [discriminate|]. intros (Q & _). contradiction.
Qed.
Lemma Ok_inj {A} (a b : A) : Ok a = Ok b -> a = b.
Proof. congruence. Qed.
Lemma writeInfo_2 T validate info : writeInfo T 2 validate info =
  let data := convertData3To2 T (gather T info) in if validate then validateInfoVersion2Data T data else Ok data.
Proof. reflexivity. Qed.
Lemma writeInfo_3 T validate info : writeInfo T 3 validate info =
  let data := gather T info in if validate then validateInfoVersion3Data T data else Ok data.
Proof. reflexivity. Qed.
Lemma validate_2 T d r : NoDup (keys d) -> validateInfoVersion2Data T d = Ok r ->
  r = d /\ Forall (fun kv => valid2 T (fst kv) (snd kv)) d.
Proof. intros D H. apply validateData_spec in H; [exact H|exact D|intros k _ []]. Qed.
Lemma validate_3 T d r : NoDup (keys d) -> validateInfoVersion3Data T d = Ok r ->
  r = d /\ Forall (fun kv => valid3 T (fst kv) (snd kv)) d.
Proof. intros D H. apply validateData_spec in H; [exact H|exact D|intros k _ []]. Qed.
Lemma validate_2_ok T d : NoDup (keys d) -> Forall (fun kv => valid2 T (fst kv) (snd kv)) d -> validateInfoVersion2Data T d = Ok d.
Proof. intros D H. apply (validateData_ok (fontInfoAttributesVersion2ValueData T) d []); [exact D|intros k _ []|exact H]. Qed.
Lemma validate_3_ok T d : NoDup (keys d) -> Forall (fun kv => valid3 T (fst kv) (snd kv)) d -> validateInfoVersion3Data T d = Ok d.
Proof. intros D H. apply (validateData_ok (fontInfoAttributesVersion3ValueData T) d []); [exact D|intros k _ []|exact H]. Qed.
Lemma readInfo_3 T perm validate d : readInfo T perm 3 validate (asDict d) =
  let info := collect (fontInfoAttributesVersion3 T) (asDict d) [] in if validate then validateInfoVersion3Data T info else Ok info.
Proof. unfold readInfo. cbn [asDict is_dict negb]. rewrite andb_false_r. reflexivity. Qed.
Theorem C36_written_to_2 : forall T validate info d,
  writeInfo T 2 validate info = Ok d ->
  forall a v, get a d = Some v <-> In a (fontInfoAttributesVersion2 T) /\ setTo info a v.
Proof.
  intros T validate info d H a v. rewrite writeInfo_2 in H. cbv zeta in H. rewrite <- (data2_get T info a v).
  destruct validate.
  - apply validate_2 in H as (-> & _); [reflexivity|apply conv32_ok].
  - apply Ok_inj in H as ->. reflexivity.
Qed.
Print Assumptions C36_written_to_2.
(** with validation it is written exactly when every version 2 attribute is valid *)
Theorem C36_validated : forall T info,
  (exists d, writeInfo T 2 true info = Ok d) <->
  (forall a v, In a (fontInfoAttributesVersion2 T) -> setTo info a v -> valid2 T a v).
Proof.
  intros T info. rewrite writeInfo_2. cbv zeta. split.
  - intros (d & H) a v I S. apply validate_2 in H as (_ & F); [|apply conv32_ok].
    assert (get a (convertData3To2 T (gather T info)) = Some v) as G by (apply data2_get; auto). apply get_In in G.
    exact (proj1 (Forall_forall _ _) F _ G).
  - intro H. eexists. apply validate_2_ok; [apply conv32_ok|].
    apply Forall_forall. intros [a v] Hin. cbn [fst snd]. apply In_get in Hin; [|apply conv32_ok]. apply data2_get in Hin as (I & S). apply H; assumption.
Qed.
Print Assumptions C36_validated.
Example C36_case :
  writeInfo asciiText 2 true [(u "familyName", PStr (u "F")); (u "woffMajorVersion", PInt 1); (u "note", PNone); (u "unitsPerEm", PInt 1000)]
  = Ok [(u "familyName", PStr (u "F")); (u "unitsPerEm", PInt 1000)] /\
  writeInfo asciiText 2 true [(u "familyName", PInt 1)] = Err UFOLibError.
Proof. vm_compute. split; reflexivity. Qed.

(** ** C37: [decode] after [encode] stands for writing and parsing the plist file *)
Theorem C37_round_trip : forall T perm validate info (encode : infoT -> list N) (decode : list N -> pyval) d,
  decode (encode d) = asDict d ->
  writeInfo T 3 validate info = Ok d ->
  exists d', readInfo T perm 3 validate (decode (encode d)) = Ok d' /\
    forall a v, get a d' = Some v <-> In a (fontInfoAttributesVersion3 T) /\ setTo info a v.
Proof.
  intros T perm validate info enc dec d R W. rewrite R. rewrite writeInfo_3 in W. cbv zeta in W.
  assert (d = gather T info /\ (validate = true -> Forall (fun kv => valid3 T (fst kv) (snd kv)) (gather T info))) as (-> & F).
  { destruct validate; [|apply Ok_inj in W; split; [symmetry; exact W|intro Q; discriminate Q]]. apply validate_3 in W as (-> & F); [|apply gather_ok]. split; [reflexivity|auto]. }
  rewrite readInfo_3. cbv zeta.
  set (c := collect (fontInfoAttributesVersion3 T) (asDict (gather T info)) []).
  assert (NA : NoDup (fontInfoAttributesVersion3 T)) by (apply nodup_dec; vm_compute; reflexivity).
  assert (Gc : forall a v, get a c = Some v <-> In a (fontInfoAttributesVersion3 T) /\ setTo info a v).
  { intros a v. unfold c. rewrite collect_get; [|intros []|exact NA|intros k _ []]. rewrite vget_asDict.
    destruct (mem_spec a (fontInfoAttributesVersion3 T)) as [I|I].
    - destruct (get a (gather T info)) as [x|] eqn:G.
      + pose proof (proj1 (gather_get T info a x) G) as (_ & S & n). destruct (is_none x) eqn:Nx; [exfalso; apply n; clear - Nx; destruct x; try discriminate; reflexivity|].
        split; [intro Q; inversion Q; subst; split; [exact I|split; assumption]|]. intros (_ & S' & _). congruence.
      + change (is_none PNone) with true. cbn iota. split; [intro Q; discriminate Q|]. intro Q. apply gather_get in Q. rewrite G in Q. discriminate Q.
    - split; [discriminate|]. intros (Q & _). contradiction. }
  assert (Dc : dict_ok c) by (apply collect_keys; constructor). clearbody c.
  exists c. split; [|exact Gc]. destruct validate; [|reflexivity]. specialize (F eq_refl).
  apply validate_3_ok; [exact Dc|]. apply Forall_forall. intros [a v] Hin. cbn [fst snd].
  apply In_get in Hin; [|exact Dc]. apply Gc in Hin. apply gather_get in Hin. apply get_In in Hin. exact (proj1 (Forall_forall _ _) F _ Hin).
Qed.
Print Assumptions C37_round_trip.
Example C37_case :
  let info := [(u "familyName", PStr (u "F")); (u "notAnAttribute", PInt 1); (u "note", PNone); (u "guidelines", PList [])] in
  exists d, writeInfo asciiText 3 true info = Ok d /\ readInfo asciiText (fun l => l) 3 true (asDict d) = Ok [(u "familyName", PStr (u "F")); (u "guidelines", PList [])].
Proof. exists [(u "familyName", PStr (u "F")); (u "guidelines", PList [])]. split; vm_compute; reflexivity. Qed.
