(** Property C104: which font info can be written.  writeInfo accepts an info
    object for UFO 3, 2 and 1 exactly when each attribute that the format has
    and that is set has the documented type and range of this format. *)
From Coq Require Import String NArith ZArith Bool Lia List Sorted.
From Coq.Floats Require Import SpecFloat.
From Verif Require Import Base PyVal PyText FloatRepr Validators ValidatorsProofs PropValidators FontInfoTables FontInfo FontInfoProofs PropFontInfo.
From Verif Require PropInfoUpgrade.
From Verif Require Import PropFontInfoTypes PropFontInfoAccepts.
Import ListNotations.
Local Open Scope string_scope.
Local Open Scope list_scope.

(** ** the statements *)
(** a date of the form "YYYY/MM/DD HH:MM:SS" in which each part is something
    that Python's int reads, not necessarily digits (C40) *)
Definition readsInt (T : pytext) (n : nat) (s : str) (z : Z) : Prop :=
  length s = n /\ ~ In 32%N s /\ parseInt T s = Some z.
Definition intDate (T : pytext) (s : str) : Prop :=
  exists y m d h mi se yz mz dz hz iz sz days, s = dateString y m d h mi se /\
    readsInt T 4 y yz /\ readsInt T 2 m mz /\ readsInt T 2 d dz /\ readsInt T 2 h hz /\ readsInt T 2 mi iz /\ readsInt T 2 se sz /\
    daysIn yz mz days /\ (1 <= dz <= days)%Z /\ (0 <= hz <= 23)%Z /\ (0 <= iz <= 59)%Z /\ (0 <= sz <= 59)%Z.
(** what UFO 3 has in an attribute *)
Definition exactly3 (T : pytext) (sh : shape) (v : pyval) : Prop :=
  match sh with
  | DateTime => exists s, v = PStr s /\ intDate T s
  | _ => exactly T sh v
  end.
(** what UFO 2 has: many values that UFO 3 has as integers are numbers there *)
Inductive shape2 := As3 (sh : shape) | TenIntegers.
Definition exactly2 (T : pytext) (sh : shape2) (v : pyval) : Prop :=
  match sh with
  | As3 sh => exactly3 T sh v
  | TenIntegers => exists xs, seqOf v xs /\ length xs = 10 /\ forall x, In x xs -> exists z, intOf x z
  end.
Definition documented2 : list (string * shape2) :=
  map (fun a => (a, As3 Text))
    ["familyName"; "styleName"; "styleMapFamilyName"; "copyright"; "trademark"; "note";
     "openTypeNameDesigner"; "openTypeNameDesignerURL"; "openTypeNameManufacturer"; "openTypeNameManufacturerURL";
     "openTypeNameLicense"; "openTypeNameLicenseURL"; "openTypeNameVersion"; "openTypeNameUniqueID"; "openTypeNameDescription";
     "openTypeNamePreferredFamilyName"; "openTypeNamePreferredSubfamilyName"; "openTypeNameCompatibleFullName";
     "openTypeNameSampleText"; "openTypeNameWWSFamilyName"; "openTypeNameWWSSubfamilyName"; "openTypeOS2VendorID";
     "postscriptFontName"; "postscriptFullName"; "postscriptWeightName"; "postscriptDefaultCharacter"; "macintoshFONDName"] ++
  map (fun a => (a, As3 Integer))
    ["versionMajor"; "versionMinor"; "year"; "openTypeHheaCaretSlopeRise"; "openTypeHheaCaretSlopeRun";
     "openTypeVheaCaretSlopeRise"; "openTypeVheaCaretSlopeRun"; "postscriptUniqueID"; "macintoshFONDFamilyID"] ++
  map (fun a => (a, As3 Number))
    ["unitsPerEm"; "descender"; "xHeight"; "capHeight"; "ascender"; "italicAngle"; "openTypeHeadLowestRecPPEM";
     "openTypeHheaAscender"; "openTypeHheaDescender"; "openTypeHheaLineGap"; "openTypeHheaCaretOffset";
     "openTypeOS2TypoAscender"; "openTypeOS2TypoDescender"; "openTypeOS2TypoLineGap"; "openTypeOS2WinAscent"; "openTypeOS2WinDescent";
     "openTypeOS2SubscriptXSize"; "openTypeOS2SubscriptYSize"; "openTypeOS2SubscriptXOffset"; "openTypeOS2SubscriptYOffset";
     "openTypeOS2SuperscriptXSize"; "openTypeOS2SuperscriptYSize"; "openTypeOS2SuperscriptXOffset"; "openTypeOS2SuperscriptYOffset";
     "openTypeOS2StrikeoutSize"; "openTypeOS2StrikeoutPosition"; "openTypeVheaVertTypoAscender"; "openTypeVheaVertTypoDescender";
     "openTypeVheaVertTypoLineGap"; "openTypeVheaCaretOffset"; "postscriptSlantAngle"; "postscriptUnderlineThickness";
     "postscriptUnderlinePosition"; "postscriptBlueFuzz"; "postscriptBlueShift"; "postscriptBlueScale";
     "postscriptDefaultWidthX"; "postscriptNominalWidthX"] ++
  map (fun a => (a, As3 Boolean)) ["postscriptIsFixedPitch"; "postscriptForceBold"] ++
  [ ("styleMapStyleName", As3 (OneOf ["regular"; "italic"; "bold"; "bold italic"]));
    ("openTypeHeadCreated", As3 DateTime);
    ("openTypeHeadFlags", As3 (IntsFrom (map Z.of_nat (seq 0 15))));
    ("openTypeOS2Selection", As3 (IntsFrom [1; 2; 3; 4; 7; 8; 9]%Z));
    ("openTypeOS2UnicodeRanges", As3 (IntsFrom (map Z.of_nat (seq 0 128))));
    ("openTypeOS2CodePageRanges", As3 (IntsFrom (map Z.of_nat (seq 0 64))));
    ("openTypeOS2Type", As3 (IntsFrom [0; 1; 2; 3; 8; 9]%Z));
    ("openTypeOS2WidthClass", As3 (Between 1 9));
    ("openTypeOS2WeightClass", As3 NonNegative);
    ("openTypeOS2Panose", TenIntegers);
    ("openTypeOS2FamilyClass", As3 FamilyClass);
    ("postscriptBlueValues", As3 (Numbers 14 true)); ("postscriptOtherBlues", As3 (Numbers 10 true));
    ("postscriptFamilyBlues", As3 (Numbers 14 true)); ("postscriptFamilyOtherBlues", As3 (Numbers 10 true));
    ("postscriptStemSnapH", As3 (Numbers 12 false)); ("postscriptStemSnapV", As3 (Numbers 12 false));
    ("postscriptWindowsCharacterSet", As3 CharSet) ].

(** ** Dates *)
Section Dates.
Variable T : pytext.
Hypothesis laws : pytext_laws T.
Lemma intDigits_sep s : forall acc b z c, intDigits T s acc b = Some z -> (c < 128)%N -> asciiDigit c = None -> c <> 95%N -> ~ In c s.
Proof.
  induction s as [|x r IH]; intros acc b z c H L A N; [intros []|]. cbn [intDigits] in H. destruct (N.eqb_spec x 95) as [->|n].
  - destruct b; [|discriminate]. intros [E|I]; [congruence|]. revert I. eapply IH; eassumption.
  - destruct (digitVal T x) as [d|] eqn:D; [|discriminate]. intros [->|I].
    + rewrite (digit_ascii T laws) in D by exact L. congruence.
    + revert I. eapply IH; eassumption.
Qed.
Lemma parseInt_sep s z c : parseInt T s = Some z -> (c < 128)%N -> asciiDigit c = None -> asciiSpace c = false -> ~ In c [95; 43; 45]%N -> ~ In c s.
Proof.
  intros H L A S N I. apply (strip_In (isSpace T)) in I; [|rewrite (space_ascii T laws) by exact L; exact S]. unfold parseInt in H.
  assert (G : forall r w, intDigits T r 0 false = Some w -> ~ In c r) by (intros r w E; eapply intDigits_sep; [exact E|exact L|exact A|intros ->; apply N; cbn; tauto]).
  assert (Q : forall q : str, strip (isSpace T) s = q -> exists r w, intDigits T r 0 false = Some w /\ (q = r \/ q = 43%N :: r \/ q = 45%N :: r)).
  { intros q Hq. rewrite Hq in H. destruct q as [|x r]; [discriminate|].
    destruct (N.eq_dec x 43) as [->|n1]; [exists r, z; auto|]. destruct (N.eq_dec x 45) as [->|n2].
    - destruct (intDigits T r 0 false) as [w|] eqn:E; [exists r, w; auto|discriminate].
    - exists (x :: r), z. split; [|auto]. destruct x as [|p]; [exact H|]. do 6 (destruct p as [p|p|]; try exact H; try congruence). }
  destruct (Q _ eq_refl) as (r & w & E & C). apply G in E. destruct C as [C|[C|C]]; rewrite C in I; [contradiction| |];
  (destruct I as [I|I]; [apply N; cbn; auto|contradiction]).
Qed.
Lemma date_iff s : headCreated T s = true <-> intDate T s.
Proof.
  split.
  - intro E. unfold headCreated in E. destruct (Nat.eqb (length s) 19); [|discriminate]. cbn [negb] in E.
    pose proof (join_split1 32 s) as J. pose proof (fun p => split1_no_sep 32 s p) as NS.
    destruct (split1 32 s) as [|date [|time [|? ?]]]; try discriminate.
    pose proof (join_split1 47 date) as Jd. pose proof (join_split1 58 time) as Jt.
    pose proof (fun x p => In_split1 x 47 date p) as ISd. pose proof (fun x p => In_split1 x 58 time p) as ISt.
    destruct (split1 47 date) as [|y [|m [|d [|? ?]]]]; try discriminate.
    destruct (split1 58 time) as [|h [|mi [|se [|? ?]]]]; try discriminate.
    assert (P1 : forall q, In q [y; m; d] -> ~ In 32%N q) by (intros q Hq I; apply (NS date); [left; reflexivity|eapply ISd; eassumption]).
    assert (P2 : forall q, In q [h; mi; se] -> ~ In 32%N q) by (intros q Hq I; apply (NS time); [right; left; reflexivity|eapply ISt; eassumption]).
    destruct (Nat.eqb_spec (length y) 4) as [L1|]; [|discriminate]. destruct (Nat.eqb_spec (length m) 2) as [L2|]; [|discriminate].
    destruct (Nat.eqb_spec (length d) 2) as [L3|]; [|discriminate]. cbn [negb] in E.
    destruct (parseInt T y) as [yz|] eqn:Ey; [|discriminate]. destruct (parseInt T m) as [mz|] eqn:Em; [|discriminate].
    destruct (parseInt T d) as [dz|] eqn:Ed; [|discriminate].
    destruct (Z.ltb_spec mz 1), (Z.ltb_spec 12 mz); try discriminate. cbn [orb] in E.
    destruct (Z.ltb_spec dz 1), (Z.ltb_spec (monthDays yz mz) dz); try discriminate. cbn [orb] in E.
    destruct (Nat.eqb_spec (length h) 2) as [L4|]; [|discriminate]. destruct (Nat.eqb_spec (length mi) 2) as [L5|]; [|discriminate].
    destruct (Nat.eqb_spec (length se) 2) as [L6|]; [|discriminate]. cbn [negb] in E.
    destruct (parseInt T h) as [hz|] eqn:Eh; [|discriminate]. destruct (parseInt T mi) as [iz|] eqn:Ei; [|discriminate].
    destruct (parseInt T se) as [sz|] eqn:Es; [|discriminate].
    destruct (Z.ltb_spec hz 0), (Z.ltb_spec 23 hz); try discriminate. cbn [orb] in E.
    destruct (Z.ltb_spec iz 0), (Z.ltb_spec 59 iz); try discriminate. cbn [orb] in E.
    destruct (Z.ltb_spec sz 0), (Z.ltb_spec 59 sz); try discriminate.
    exists y, m, d, h, mi, se, yz, mz, dz, hz, iz, sz, (monthDays yz mz). split.
    { cbn [join] in J, Jd, Jt. rewrite <- J, <- Jd, <- Jt. unfold dateString. rewrite <- !app_assoc. reflexivity. }
    unfold readsInt. do 6 (split; [split; [assumption|split; [first [apply P1; cbn; tauto|apply P2; cbn; tauto]|assumption]]|]).
    split; [apply monthDays_daysIn; lia|]. lia.
  - intros (y & m & d & h & mi & se & yz & mz & dz & hz & iz & sz & days & -> & (L1 & N1 & Ey) & (L2 & N2 & Em) & (L3 & N3 & Ed) & (L4 & N4 & Eh) & (L5 & N5 & Ei) & (L6 & N6 & Es) & X & Hd & Hh & Hi & Hs).
    assert (1 <= mz <= 12)%Z as Hm by (unfold daysIn in X; cbn [In] in X; lia).
    pose proof (daysIn_fun _ _ _ _ (monthDays_daysIn yz mz Hm) X) as Q.
    assert (S1 : forall q z, parseInt T q = Some z -> ~ In 47%N q) by (intros q z E; eapply parseInt_sep; [exact E|lia|reflexivity|reflexivity|cbn; intuition discriminate]).
    assert (S2 : forall q z, parseInt T q = Some z -> ~ In 58%N q) by (intros q z E; eapply parseInt_sep; [exact E|lia|reflexivity|reflexivity|cbn; intuition discriminate]).
    unfold headCreated.
    assert (Len : length (dateString y m d h mi se) = 19) by (unfold dateString; rewrite !app_length; cbn [length]; lia). rewrite Len. cbn [Nat.eqb negb].
    replace (split1 32 (dateString y m d h mi se)) with [y ++ [47%N] ++ m ++ [47%N] ++ d; h ++ [58%N] ++ mi ++ [58%N] ++ se].
    2:{ symmetry. replace (dateString y m d h mi se) with (join [32%N] [y ++ [47%N] ++ m ++ [47%N] ++ d; h ++ [58%N] ++ mi ++ [58%N] ++ se])
          by (unfold dateString; cbn [join]; rewrite <- !app_assoc; reflexivity).
        apply split1_join; [discriminate|]. intros p [<-|[<-|[]]]; rewrite !in_app_iff; cbn [In]; intuition discriminate. }
    change (y ++ [47%N] ++ m ++ [47%N] ++ d) with (join [47%N] [y; m; d]). change (h ++ [58%N] ++ mi ++ [58%N] ++ se) with (join [58%N] [h; mi; se]).
    rewrite !split1_join; [|discriminate|intros p [<-|[<-|[<-|[]]]]; eauto|discriminate|intros p [<-|[<-|[<-|[]]]]; eauto].
    rewrite L1, L2, L3, L4, L5, L6. cbn [Nat.eqb negb]. rewrite Ey, Em, Ed, Eh, Ei, Es.
    destruct (Z.ltb_spec mz 1), (Z.ltb_spec 12 mz); try lia. destruct (Z.ltb_spec dz 1), (Z.ltb_spec (monthDays yz mz) dz); try lia.
    destruct (Z.ltb_spec hz 0), (Z.ltb_spec 23 hz); try lia. destruct (Z.ltb_spec iz 0), (Z.ltb_spec 59 iz); try lia. destruct (Z.ltb_spec sz 0), (Z.ltb_spec 59 sz); try lia. reflexivity.
Qed.
End Dates.
(** every date, not only those made of digits *)
Theorem C104_dates : forall T v, pytext_laws T ->
  (fontInfoOpenTypeHeadCreatedValidator T v = true <-> exists s, v = PStr s /\ intDate T s).
Proof.
  intros T v laws. split.
  - destruct v; cbn [fontInfoOpenTypeHeadCreatedValidator]; try discriminate. intro H. exists s. split; [reflexivity|]. apply date_iff; assumption.
  - intros (s & -> & H). apply date_iff; assumption.
Qed.
Print Assumptions C104_dates.

(** ** Values *)
(** UFO 3: this is C95_fontinfo_exact_partial without a condition on dates *)
Theorem C104_version_3 : forall T attr v, pytext_laws T -> keysOnce v ->
  (accepted T attr v <-> exists name sh, attr = u name /\ In (name, sh) documented /\ exactly3 T sh v).
Proof.
  intros T attr v laws K. destruct (eqb_spec attr (u "openTypeHeadCreated")) as [->|n].
  - change (accepted T (u "openTypeHeadCreated") v) with (Ok (fontInfoOpenTypeHeadCreatedValidator T v) = Ok true). split.
    + intro H. exists "openTypeHeadCreated", DateTime. split; [reflexivity|]. split; [|apply C104_dates; [exact laws|exact (OkTrue H)]].
      assert (A : existsb (fun e => String.eqb (fst e) "openTypeHeadCreated" && match snd e with DateTime => true | _ => false end) documented = true) by (vm_compute; reflexivity).
      apply existsb_exists in A as ((n0 & sh0) & I & E). cbn [fst snd] in E. apply andb_prop in E as (E1 & E2). apply String.eqb_eq in E1. destruct sh0; try discriminate. subst n0. exact I.
    + intros (name & sh & E & J & H). apply f_equal. apply C104_dates; [exact laws|].
      assert (shapeOf (u "openTypeHeadCreated") = Some sh) as Q by (rewrite E; apply shape_unique; exact J).
      assert (shapeOf (u "openTypeHeadCreated") = Some DateTime) as Q2 by (vm_compute; reflexivity). rewrite Q2 in Q. inversion Q; subst. exact H.
  - rewrite C95_fontinfo_exact_partial; [|exact laws|exact K|intros E; contradiction].
    split; intros (name & sh & -> & J & H); exists name, sh; (split; [reflexivity|]); (split; [exact J|]);
    (destruct sh; try exact H; exfalso; apply n; f_equal;
     assert (A : Forall (fun e => snd e = DateTime -> fst e = "openTypeHeadCreated") documented)
       by (unfold documented; cbn [map app]; repeat (apply Forall_cons; [cbn [fst snd]; first [discriminate|reflexivity|idtac]|]); apply Forall_nil);
     rewrite Forall_forall in A; exact (A _ J eq_refl)).
Qed.
Print Assumptions C104_version_3.

Section Values.
Variable T : pytext.
Hypothesis laws : pytext_laws T.
Definition decides (f : pyval -> res bool) (sh : shape2) : Prop := forall v, keysOnce v -> (f v = Ok true <-> exactly2 T sh v).
Lemma d_of f sh : sound T f sh -> complete T f sh -> (forall v, exactly3 T sh v <-> ofShape T sh v) -> (forall v, exactly T sh v <-> ofShape T sh v) -> decides f (As3 sh).
Proof. intros S C E1 E2 v K. cbn [exactly2]. rewrite E1. split; [apply S|]. intro H. apply C; [exact K|]. apply E2. exact H. Qed.
Lemma d_date : decides (fun v => Ok (fontInfoOpenTypeHeadCreatedValidator T v)) (As3 DateTime).
Proof. intros v K. cbn [exactly2 exactly3]. rewrite <- (C104_dates T v laws). split; [exact OkTrue|congruence]. Qed.
Lemma d_panose : decides (fun v => Ok (fontInfoVersion2OpenTypeOS2PanoseValidator v)) TenIntegers.
Proof.
  intros v K. cbn [exactly2]. split.
  - intro H. apply OkTrue in H. unfold fontInfoVersion2OpenTypeOS2PanoseValidator in H. destruct (is_seq v) eqn:S; [|discriminate]. cbn [negb] in H.
    destruct (Nat.eqb_spec (length (elems v)) 10) as [L|]; [|discriminate]. cbn [negb] in H. exists (elems v). split; [apply seq_seqOf; exact S|]. split; [exact L|].
    rewrite forallb_forall in H. intros x Hx. apply int_intOf. apply H. exact Hx.
  - intros (xs & S & L & H). apply OkB. apply seqOf_seq in S as (S & Q). unfold fontInfoVersion2OpenTypeOS2PanoseValidator. rewrite S, Q, L. cbn [negb Nat.eqb].
    apply forallb_forall. intros x J. destruct (H x J) as (z & [->|(b & -> & _)]); reflexivity.
Qed.
Definition shapeOf2 (a : str) : option shape2 := option_map snd (find (fun e => eqb (u (fst e)) a) documented2).
Ltac entry2 := cbn [fst snd];
  match goal with |- match shapeOf2 ?a with _ => _ end =>
    let r := eval vm_compute in (shapeOf2 a) in change (shapeOf2 a) with r; cbv iota end;
  first [apply d_date|apply d_panose|apply d_of;
   [first [apply s_text|apply s_int|apply s_number|apply s_bool|apply s_weight|apply s_width|apply s_style|apply s_charset
     |apply s_intlist|apply s_blues|apply s_otherblues|apply s_stems|apply s_family]
   |first [apply c_text|apply c_int|apply c_number|apply c_bool|apply c_weight|apply c_width|apply c_style|apply c_charset
     |apply c_intlist|apply c_blues|apply c_otherblues|apply c_stems|apply c_family]
   |intro; reflexivity|intro; reflexivity]].
Lemma all_decided attr f : get attr (fontInfoAttributesVersion2ValueData T) = Some f ->
  match shapeOf2 attr with Some sh => decides f sh | None => False end.
Proof.
  apply (table2 T (fun attr f => match shapeOf2 attr with Some sh => decides f sh | None => False end)).
  unfold fontInfoAttributesVersion2ValueData. repeat (apply Forall_cons; [entry2|]). apply Forall_nil.
Qed.
End Values.
Lemma shape2_unique name sh : In (name, sh) documented2 -> shapeOf2 (u name) = Some sh.
Proof.
  intro J. assert (ND : NoDup (map (fun e => u (fst e)) documented2)) by nodupp. unfold shapeOf2.
  revert ND J. generalize documented2 as l. induction l as [|[n s] r IH]; [intros _ []|]. cbn [map fst]. intro ND. inversion ND as [|? ? N1 N2]; subst. intros [E|J].
  - inversion E; subst. cbn [List.find fst]. rewrite eqb_refl. reflexivity.
  - cbn [List.find fst]. destruct (eqb_spec (u n) (u name)) as [E|]; [|apply IH; assumption]. exfalso. apply N1. apply in_map_iff. exists (name, sh). split; [symmetry; exact E|exact J].
Qed.
Definition accepted2 (T : pytext) (a : str) (v : pyval) : Prop := validateFontInfoVersion2ValueForAttribute T a v = Ok true.
Theorem C104_version_2 : forall T attr v, pytext_laws T -> keysOnce v ->
  (accepted2 T attr v <-> exists name sh, attr = u name /\ In (name, sh) documented2 /\ exactly2 T sh v).
Proof.
  intros T attr v laws K. unfold accepted2, validateFontInfoVersion2ValueForAttribute, validateForAttribute. split.
  - intro H. destruct (get attr (fontInfoAttributesVersion2ValueData T)) as [f|] eqn:G; [|discriminate]. apply (all_decided T laws) in G. unfold shapeOf2 in G.
    destruct (find _ documented2) as [[name sh]|] eqn:F; [|destruct G]. cbn [option_map snd] in G. apply find_some in F as (F & E). cbn [fst] in E. apply (proj1 (eqb_eq _ _)) in E.
    exists name, sh. split; [symmetry; exact E|]. split; [exact F|]. apply (G v K). exact H.
  - intros (name & sh & -> & J & H).
    assert (I : In (u name) (fontInfoAttributesVersion2 T)).
    { assert (A : forallb (fun e => mem (u (fst e)) (fontInfoAttributesVersion2 T)) documented2 = true) by (vm_compute; reflexivity).
      rewrite forallb_forall in A. apply mem_In. exact (A _ J). }
    destruct (get (u name) (fontInfoAttributesVersion2ValueData T)) as [f|] eqn:G; [|apply get_None in G; contradiction].
    apply (all_decided T laws) in G. rewrite (shape2_unique name sh J) in G. apply (G v K). exact H.
Qed.
Print Assumptions C104_version_2.

(** ** writeInfo *)
Lemma in_names2 T a : In a (fontInfoAttributesVersion2 T) <-> exists name sh, a = u name /\ In (name, sh) documented2.
Proof.
  assert (A : forallb (fun e => mem (u (fst e)) (fontInfoAttributesVersion2 T)) documented2 = true) by (vm_compute; reflexivity).
  assert (B : forallb (fun k => match shapeOf2 k with Some _ => true | None => false end) (fontInfoAttributesVersion2 T) = true) by (vm_compute; reflexivity).
  rewrite forallb_forall in A, B. split.
  - intro I. apply B in I. unfold shapeOf2 in I. destruct (find _ documented2) as [[name sh]|] eqn:F; [|discriminate]. apply find_some in F as (F & E). cbn [fst] in E. apply (proj1 (eqb_eq _ _)) in E.
    exists name, sh. auto.
  - intros (name & sh & -> & J). apply mem_In. exact (A _ J).
Qed.
Lemma in_names3 T a : In a (fontInfoAttributesVersion3 T) <-> exists name sh, a = u name /\ In (name, sh) documented.
Proof.
  assert (A : forallb (fun e => mem (u (fst e)) (fontInfoAttributesVersion3 T)) documented = true) by (vm_compute; reflexivity).
  assert (B : forallb (fun k => match shapeOf k with Some _ => true | None => false end) (fontInfoAttributesVersion3 T) = true) by (vm_compute; reflexivity).
  rewrite forallb_forall in A, B. split.
  - intro I. apply B in I. unfold shapeOf in I. destruct (find _ documented) as [[name sh]|] eqn:F; [|discriminate]. apply find_some in F as (F & E). cbn [fst] in E. apply (proj1 (eqb_eq _ _)) in E.
    exists name, sh. auto.
  - intros (name & sh & -> & J). apply mem_In. exact (A _ J).
Qed.
Lemma seqok_hash T a v : a = u "styleMapStyleName" \/ a = u "openTypeOS2WidthClass" \/ a = u "postscriptWindowsCharacterSet" ->
  accepted2 T a v -> hashable v = true.
Proof.
  intros C V. unfold accepted2 in V. destruct C as [->|[->| ->]].
  - rewrite v2_style in V. apply OkTrue in V. unfold fontInfoStyleMapStyleNameValidator, isin in V. apply existsb_exists in V as (x & I & E).
    unfold strs in I. apply in_map_iff in I as (s & <- & I). destruct v; try discriminate E; reflexivity.
  - change (validateFontInfoVersion2ValueForAttribute T (u "openTypeOS2WidthClass") v) with (Ok (fontInfoOpenTypeOS2WidthClassValidator v)) in V. apply OkTrue in V.
    unfold fontInfoOpenTypeOS2WidthClassValidator in V. destruct v; try discriminate V; reflexivity.
  - change (validateFontInfoVersion2ValueForAttribute T (u "postscriptWindowsCharacterSet") v) with (Ok (fontInfoPostscriptWindowsCharacterSetValidator v)) in V. apply OkTrue in V.
    unfold fontInfoPostscriptWindowsCharacterSetValidator, isin in V. apply existsb_exists in V as (x & I & E).
    apply in_map_iff in I as (k & <- & I). destruct v; try discriminate E; reflexivity.
Qed.
Lemma conv21_ok T c : forall acc, (forall a v, In (a, v) c -> accepted2 T a v /\ v <> PNone) -> exists d, convertData2To1 c acc = Ok d.
Proof.
  induction c as [|[a v] r IH]; intros acc H; [eexists; reflexivity|]. cbn [convertData2To1].
  destruct (H a v (or_introl eq_refl)) as (V & N). assert (Nn : is_none v = false) by (destruct v; try reflexivity; congruence).
  assert (C : exists w, convertValue2To1 a v = Ok (lookupAttr a fontInfoAttributesVersion2To1, w)).
  { unfold convertValue2To1. rewrite Nn.
    destruct (eqb_spec a (u "styleMapStyleName")) as [->|n1]; [unfold dictGet; rewrite (seqok_hash T _ v (or_introl eq_refl) V); eexists; reflexivity|].
    destruct (eqb_spec a (u "openTypeOS2WidthClass")) as [->|n2]; [unfold dictGet; rewrite (seqok_hash T _ v (or_intror (or_introl eq_refl)) V); eexists; reflexivity|].
    destruct (eqb_spec a (u "postscriptWindowsCharacterSet")) as [->|n3]; [unfold dictGet; rewrite (seqok_hash T _ v (or_intror (or_intror eq_refl)) V); eexists; reflexivity|].
    eexists; reflexivity. }
  destruct C as (w & C). rewrite C. cbn [bind fst snd].
  assert (H' : forall a0 v0, In (a0, v0) r -> accepted2 T a0 v0 /\ v0 <> PNone) by (intros; apply H; right; assumption).
  destruct (mem _ fontInfoAttributesVersion1); cbn [negb]; [|apply IH; exact H']. rewrite Nn. apply IH. exact H'.
Qed.
(** the values of the info object *)
Definition onceEach (info : infoT) : Prop := forall a v, get a info = Some v -> keysOnce v.
(** each attribute of the format that is set has what is documented for it *)
Definition fits3 (T : pytext) (info : infoT) : Prop := forall name sh v, In (name, sh) documented -> setTo info (u name) v -> exactly3 T sh v.
Definition fits2 (T : pytext) (info : infoT) : Prop := forall name sh v, In (name, sh) documented2 -> setTo info (u name) v -> exactly2 T sh v.
Lemma fits2_iff T info : pytext_laws T -> onceEach info ->
  (fits2 T info <-> forall a v, In a (fontInfoAttributesVersion2 T) -> setTo info a v -> accepted2 T a v).
Proof.
  intros laws K. split.
  - intros H a v I S. apply in_names2 in I as (name & sh & -> & J). apply C104_version_2; [exact laws|exact (K _ _ (proj1 S))|]. exists name, sh. eauto.
  - intros H name sh v J S. assert (A : accepted2 T (u name) v) by (apply H; [apply in_names2; eauto|exact S]).
    apply C104_version_2 in A as (n2 & s2 & E & J2 & X); [|exact laws|exact (K _ _ (proj1 S))].
    apply shape2_unique in J, J2. rewrite E in J. rewrite J in J2. inversion J2; subst. exact X.
Qed.
Theorem C104_write : forall T info, pytext_laws T -> onceEach info ->
  ((exists d, writeInfo T 3 true info = Ok d) <-> fits3 T info) /\
  ((exists d, writeInfo T 2 true info = Ok d) <-> fits2 T info) /\
  ((exists d, writeInfo T 1 true info = Ok d) <-> fits2 T info).
Proof.
  intros T info laws K. split; [|split].
  - rewrite writeInfo_3. cbv zeta. split.
    + intros (d & H) name sh v J S. apply validate_3 in H as (_ & F); [|apply gather_ok]. rewrite Forall_forall in F.
      assert (G : get (u name) (gather T info) = Some v) by (apply gather_get; split; [apply in_names3; eauto|exact S]).
      specialize (F (u name, v) (get_In _ _ _ G)). cbn [fst snd] in F.
      apply (C104_version_3 T (u name) v laws (K _ _ (proj1 S))) in F as (n2 & s2 & E & J2 & X).
      apply shape_unique in J, J2. rewrite E in J. rewrite J in J2. inversion J2; subst. exact X.
    + intro H. eexists. apply validate_3_ok; [apply gather_ok|]. apply Forall_forall. intros [a v] I. cbn [fst snd]. apply In_get in I; [|apply gather_ok].
      apply gather_get in I as (I & S). apply in_names3 in I as (name & sh & -> & J). apply (C104_version_3 T (u name) v laws (K _ _ (proj1 S))). exists name, sh. eauto.
  - rewrite fits2_iff by assumption. rewrite writeInfo_2. cbv zeta. split.
    + intros (d & H) a v I S. apply validate_2 in H as (_ & F); [|apply conv32_ok]. rewrite Forall_forall in F.
      exact (F (a, v) (get_In _ _ _ (proj2 (data2_get T info a v) (conj I S)))).
    + intro H. eexists. apply validate_2_ok; [apply conv32_ok|]. apply Forall_forall. intros [a v] I. cbn [fst snd]. apply In_get in I; [|apply conv32_ok].
      apply data2_get in I as (I & S). apply H; assumption.
  - rewrite fits2_iff by assumption. split.
    + intros (d & H). exact (PropInfoUpgrade.writeInfo_1_valid T info d H).
    + intro H. rewrite PropInfoUpgrade.writeInfo_1_eq. cbv iota.
      assert (V : forall a v, In (a, v) (convertData3To2 T (gather T info)) -> accepted2 T a v /\ v <> PNone).
      { intros a v I. apply In_get in I; [|apply conv32_ok]. apply data2_get in I as (I & S). split; [apply H; assumption|exact (proj2 S)]. }
      rewrite validate_2_ok; [|apply conv32_ok|apply Forall_forall; intros [a v] I; apply V; exact I]. cbn [bind]. exact (conv21_ok T _ [] V).
Qed.
Print Assumptions C104_write.
(** each attribute is documented once *)
Example C104_documented_once : NoDup (map (fun e => u (fst e)) documented2) /\ length documented2 = length (fontInfoAttributesVersion2 asciiText).
Proof. split; [nodupp|reflexivity]. Qed.
Definition exInfo : infoT :=
  [(u "familyName", PStr (u "F")); (u "unitsPerEm", PFloat (S754_finite true 5 (-1))); (u "openTypeOS2Panose", PTuple (map PInt [-1; 0; 2; 3; 4; 5; 6; 7; 8; 9]%Z));
   (u "openTypeHeadCreated", PStr (u "2000/+1/01 00:00:00")); (u "openTypeHheaAscender", PFloat (S754_finite false 3 (-1))); (u "year", PNone)].
Example C104_case :
  (exists d, writeInfo asciiText 1 true exInfo = Ok d) /\ (exists d, writeInfo asciiText 2 true exInfo = Ok d) /\
  writeInfo asciiText 3 true exInfo = Err UFOLibError /\
  (* guidelines are not part of UFO 2: whatever is there is left out *)
  (exists d, writeInfo asciiText 2 true (set (u "guidelines") (PInt 7) exInfo) = Ok d) /\
  writeInfo asciiText 2 true (set (u "versionMinor") (PFloat (S754_finite false 3 (-1))) exInfo) = Err UFOLibError /\
  (exists d, writeInfo asciiText 2 true (set (u "versionMinor") (PInt (-1)) exInfo) = Ok d) /\
  writeInfo asciiText 2 true (set (u "openTypeOS2Panose") (PList (map PInt [1; 2; 3]%Z)) exInfo) = Err UFOLibError.
Proof. repeat split; try (vm_compute; reflexivity); eexists; vm_compute; reflexivity. Qed.
